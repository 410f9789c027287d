(** What weighting should compute. *)
From Coq Require Import QArith Qround.
From Verif Require Import Base Mem MemSpec CRing Clamp Sum Sets.
Open Scope Z_scope.

(** Index of the cell of coordinate x (wavelengths) on a grid of gs cells that covers -max .. max *)
Definition cell_index (gs : Z) (max x : Q) : Z := Qfloor (x / max * inject_Z (gs / 2)) + gs / 2.
(** Coordinate i (0: u, 1: v) of a visibility in wavelengths *)
Definition wavelengths (nb : Z) (uvw freq : nd Q) (t b c i : Z) : Q := (elem uvw [pos3 nb 3 t b i] * (elem freq [c] / C_0))%Q.

Section Spec.
Context {A : cring} (nt nb nc np gs : Z) (uvw freq : nd Q) (max : Q).
Definition cell_u (t b c : Z) : Z := cell_index gs max (wavelengths nb uvw freq t b c 0).
Definition cell_v (t b c : Z) : Z := cell_index gs max (wavelengths nb uvw freq t b c 1).
(** The visibility has a cell on the grid. *)
Definition on_grid (t b c : Z) : bool := (cell_u t b c <? gs) && (cell_v t b c <? gs).
(** Weight of a visibility, value of a grid cell *)
Definition weight (w : nd A) (t b c p : Z) : A := elem w [pos4 nb nc np t b c p].
Definition grid_at (g : nd A) (u v p : Z) : A := elem g [pos3 gs np u v p].
(** Sum over all visibilities on the grid *)
Definition total (f : Z -> Z -> Z -> A) : A :=
  rsum 0 nt (fun t => rsum 0 nb (fun b => rsum 0 nc (fun c => if on_grid t b c then f t b c else r0))).
(** Sum of the weights of the visibilities in cell (u, v) *)
Definition deposited (input : nd A) (u v p : Z) : A :=
  total (fun t b c => if (cell_u t b c =? u) && (cell_v t b c =? v) then weight input t b c p else r0).
(** Value of the cell of a visibility *)
Definition own_cell (g : nd A) (t b c p : Z) : A := grid_at g (cell_u t b c) (cell_v t b c) p.
(** No coordinate is so negative that its cell would be before the first, nor beyond the range of int64_t. *)
Definition in_view : Prop := ~ (max == 0)%Q /\ forall t b c, 0 <= t < nt -> 0 <= b < nb -> 0 <= c < nc ->
  0 <= cell_u t b c <= 9223372036854775807 /\ 0 <= cell_v t b c <= 9223372036854775807.
End Spec.

(** Arrays of matching shapes with their contents: what the documentation asks for *)
Record fits {A : Type} (uvw freq grid input output : mem) (uvw_d freq_d : nd Q) (grid_d input_d output_d : nd A) (nt nb nc np gs : Z) : Prop := mk_fits {
  f_wf : mem_wf uvw /\ mem_wf grid /\ mem_wf input /\ mem_wf output;
  f_sizes : 0 <= nt /\ 0 <= nb /\ 0 <= nc /\ 0 <= np /\ 0 <= gs;
  f_output : m_shape output = [nt; nb; nc; np]; f_input : m_shape input = [nt; nb; nc; np]; f_type : m_type input = m_type output;
  f_grid : m_shape grid = [gs; gs; np];
  f_uvw_d : shape uvw_d = [product (m_shape uvw)]; f_freq_d : shape freq_d = [nc];
  f_grid_d : shape grid_d = [gs * gs * np]; f_input_d : shape input_d = [nt * nb * nc * np]; f_output_d : shape output_d = [nt * nb * nc * np] }.
