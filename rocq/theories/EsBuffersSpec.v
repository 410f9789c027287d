(** Which buffers the exponential-of-semicircle gridder takes *)
From Verif Require Import Base Mem.
Open Scope Z_scope.

(** A handle to elements of type [ty] in memory space [loc], contiguous and with data *)
Definition array_of (m : option mem) (ty loc : Z) : Prop := exists x, m = Some x /\ m_type x = ty /\ m_loc x = loc /\ m_contig x = true /\ m_data x <> None.
Definition writable (m : option mem) : Prop := exists x, m = Some x /\ m_ro x = false.

(** All in one memory space and of one precision, contiguous; (row, 3) coordinates, (channel) frequencies, (row, channel) visibilities and weights and a square
    image.  [uvw_ty]: the type of the coordinates *)
Definition buffers_fit (uvw_ty : Z) (dbl : bool) (uvw freq vis weight dirty : option mem) : Prop :=
  exists loc, let real := if dbl then MEM_DOUBLE else MEM_FLOAT in
    array_of uvw uvw_ty loc /\ array_of freq real loc /\ array_of vis (if dbl then MEM_COMPLEX_DOUBLE else MEM_COMPLEX_FLOAT) loc /\
    array_of weight real loc /\ array_of dirty real loc /\
    shape_dim uvw 0 = shape_dim vis 0 /\ shape_dim uvw 1 = 3 /\ shape_dim freq 0 = shape_dim vis 1 /\
    shape_dim weight 0 = shape_dim vis 0 /\ shape_dim weight 1 = shape_dim vis 1 /\ shape_dim dirty 0 = shape_dim dirty 1.

(** Since heap [h]: earlier blocks are as they were, and all later ones have been freed *)
Definition nothing_left (h h' : heap) : Prop :=
  h_next h <= h_next h' /\ (forall b, b < h_next h -> h_blk h' b = h_blk h b) /\ (forall b, h_next h <= b < h_next h' -> b_live (h_blk h' b) = false).

(** The conditions behind the error codes *)
Definition present (m : option mem) : Prop := exists x, m = Some x /\ m_data x <> None.
Definition complex_type (m : option mem) : Prop := Z.land (mtype m) MEM_COMPLEX = MEM_COMPLEX.
Definition kinds_fit (uvw freq vis weight dirty : option mem) : Prop := ~ complex_type uvw /\ ~ complex_type freq /\ complex_type vis /\ ~ complex_type weight /\ ~ complex_type dirty.
Definition sizes_fit (uvw freq vis weight dirty : option mem) : Prop :=
  shape_dim uvw 0 = shape_dim vis 0 /\ shape_dim uvw 1 = 3 /\ shape_dim freq 0 = shape_dim vis 1 /\ shape_dim weight 0 = shape_dim vis 0 /\ shape_dim weight 1 = shape_dim vis 1 /\ shape_dim dirty 0 = shape_dim dirty 1.
Definition precisions_fit (uvw freq vis weight dirty : option mem) : Prop :=
  (mtype uvw = MEM_DOUBLE /\ mtype freq = MEM_DOUBLE /\ mtype vis = MEM_COMPLEX_DOUBLE /\ mtype weight = MEM_DOUBLE /\ mtype dirty = MEM_DOUBLE) \/
  (mtype uvw <> MEM_DOUBLE /\ mtype freq = MEM_FLOAT /\ mtype vis = MEM_COMPLEX_FLOAT /\ mtype weight = MEM_FLOAT /\ mtype dirty = MEM_FLOAT).
