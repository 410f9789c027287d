(** Model of the sub-grid utilities of grid_data/sdp_gridder_utils.cpp, over any commutative ring
    of pixel values.  The loops over rows are "omp parallel for"; their iterations touch
    different rows (proved in SubgridFacts.v for a sub-grid no larger than the grid) and are run
    in order here.  The type dispatch of 1668-1903 is not modelled: types are a parameter. *)
From Verif Require Import Base CRing.

(** while (c(s)) s = f(s); at most [fuel] iterations, None if it is still running then. *)
Fixpoint while_ {S} (fuel : nat) (c : S -> bool) (f : S -> S) (s : S) : option S :=
  if c s then match fuel with O => None | Datatypes.S k => while_ k c f (f s) end else Some s.

(** The two loops of 574-581, 585-592, 626-633, 637-644 (each iteration moves [i1] by the grid size, so
    |i1| + 1 iterations are enough for a positive size; for size 0 and i1 <> in range the C loop
    does not end). *)
Definition wrap (g i1 : Z) : option Z :=
  let fuel := Datatypes.S (Z.to_nat (Z.abs i1)) in
  let* i1 := while_ fuel (fun i => i <? 0) (fun i => i + g) i1 in
  while_ fuel (fun i => g <=? i) (fun i => i - g) i1.

Section Kernels.
  Context {A : cring}.

  (** subgrid_add 550-598 *)
  Definition subgrid_add (grid : nd A) (offset_u offset_v : Z) (sub : nd A) (factor : A) : option (nd A) :=
    let sub_size_u := dim sub 0 in let sub_size_v := dim sub 1 in
    let grid_size_u := dim grid 0 in let grid_size_v := dim grid 1 in
    for_ 0 sub_size_u (fun i grid =>
      let* i1 := wrap grid_size_u (i + cdiv grid_size_u 2 - cdiv sub_size_u 2 - offset_u) in
      for_ 0 sub_size_v (fun j grid =>
        let* j1 := wrap grid_size_v (j + cdiv grid_size_v 2 - cdiv sub_size_v 2 - offset_v) in
        let* v := rd grid [i1; j1] in
        let* s := rd sub [i; j] in
        wr grid [i1; j1] (v + s * factor)%cr) grid) grid.

  (** subgrid_cut_out 602-650 *)
  Definition subgrid_cut_out (grid : nd A) (offset_u offset_v : Z) (sub : nd A) : option (nd A) :=
    let sub_size_u := dim sub 0 in let sub_size_v := dim sub 1 in
    let grid_size_u := dim grid 0 in let grid_size_v := dim grid 1 in
    for_ 0 sub_size_u (fun i sub =>
      let* i1 := wrap grid_size_u (i + cdiv grid_size_u 2 - cdiv sub_size_u 2 + offset_u) in
      for_ 0 sub_size_v (fun j sub =>
        let* j1 := wrap grid_size_v (j + cdiv grid_size_v 2 - cdiv sub_size_v 2 + offset_v) in
        let* v := rd grid [i1; j1] in
        wr sub [i; j] v) sub) sub.

  (** shift_subgrids 526-546: both inner loops run to shape[1] *)
  Definition shift_subgrids (sg : nd A) : option (nd A) :=
    let w_support := dim sg 0 in let subgrid_size := dim sg 1 in
    for_ 0 (w_support - 1) (fun k sg =>
      for_ 0 subgrid_size (fun j sg =>
        for_ 0 subgrid_size (fun i sg =>
          let* v := rd sg [k + 1; j; i] in
          wr sg [k; j; i] v) sg) sg) sg.
End Kernels.
