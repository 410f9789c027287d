(** The additions to the grid made by sdp_gridder_subgrid_add. *)
From Verif Require Import Base CRing SubgridSpec SharedAdd.

Section Rows.
Context {A : cring}.
(** Row [i] of the sub-grid: grid[pixel of i, pixel of j] += sub[i, j] * factor, for each column j *)
Definition sub_row (gu gv su sv ou ov : Z) (sub : nd A) (factor : A) (i : Z) : list (list Z * A) :=
  map (fun j => ([pixel gu su (- ou) i; pixel gv sv (- ov) j], (elem sub [i; j] * factor)%cr)) (zrange 0 sv).
Definition sub_rows (gu gv su sv ou ov : Z) (sub : nd A) (factor : A) : list (list (list Z * A)) := map (sub_row gu gv su sv ou ov sub factor) (zrange 0 su).
(** A whole sub-grid [q] = (offsets, values) *)
Definition sub_piece (gu gv : Z) (factor : A) (q : Z * Z * nd A) : list (list Z * A) :=
  concat (sub_rows gu gv (dim (snd q) 0) (dim (snd q) 1) (fst (fst q)) (snd (fst q)) (snd q) factor).
End Rows.
