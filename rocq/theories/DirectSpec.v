(** Vocabulary for the direct gridder. *)
From Verif Require Import Base Mem Sum CRing Cplx GridUtils GridUtilsSpec FlmnSpec Direct.
Open Scope Z_scope.

(** [m] describes the array [x], in CPU memory, whose elements have the type [ty]. *)
Definition in_cpu {A} (m : option mem) (ty : Z) (x : nd A) : Prop :=
  match m with
  | Some m => m_type m = ty /\ m_loc m = MEM_CPU /\ m_shape m = shape x /\ m_num_dims m = Z.of_nat (length (shape x)) /\ m_num_elements m = fold_right Z.mul 1 (shape x) /\ m_data m <> None
  | None => False
  end.
Definition can_write (m : option mem) : Prop := match m with Some m => m_ro m = false | None => False end.
(** Both channel ranges are given, or at least one is NULL *)
Definition ranges_ok (start end_ : option mem) (start_d end_d : nd Z) (n : Z) : Prop :=
  (start = None \/ end_ = None) \/ (in_cpu start MEM_INT start_d /\ in_cpu end_ MEM_INT end_d /\ shape start_d = [n] /\ shape end_d = [n]).
(** Row [i] has a channel to process *)
Definition row_used (start end_ : option mem) (start_d end_d : nd Z) (i : Z) : bool :=
  match start, end_ with Some _, Some _ => elem start_d [i] <? elem end_d [i] | _, _ => true end.
(** The number of turns of phase between the visibility of row [i] and channel [c] and the pixel (x, y) of an S x S image: u l + v m + w n, with the coordinates in
    wavelengths, relative to the sub-grid *)
Definition pixel_turns (p : plan) (S : Z) (uvw : nd R) (su sv sw : Z) (freq0 dfreq : R) (i c x y : Z) : R :=
  let f := ((freq0 + dfreq * IZR c) / 299792458)%R in
  let l := pixel_coord x S (p_theta p) in let m := pixel_coord y S (p_theta p) in let n := lm_to_n l m (p_shear_u p) (p_shear_v p) in
  (l * (elem uvw [i; 0%Z] * f - IZR su / p_theta p) + m * (elem uvw [i; 1%Z] * f - IZR sv / p_theta p) + n * (elem uvw [i; 2%Z] * f - IZR sw * p_w_step p))%R.
(** The plan's taper at a pixel *)
Definition taper_at (p : plan) (x y : Z) : R := (elem (p_pswf p) [x] * elem (p_pswf p) [y])%R.
(** Sum over the pixels of an S x S image *)
Definition over_pixels (S : Z) (f : Z -> Z -> C) : C := Csum 0 S (fun x => Csum 0 S (fun y => f x y)).
(** Sum over the visibilities that are used *)
Definition over_vis (used : Z -> bool) (n nc : Z) (f : Z -> Z -> C) : C := Csum 0 n (fun i => if used i then Csum 0 nc (fun c => f i c) else C0).
(** The types a sub-grid image may have when the (u,v,w)-coordinates are double precision *)
Definition pixel_type (ty : Z) : Prop := ty = MEM_DOUBLE \/ ty = MEM_COMPLEX_DOUBLE \/ ty = MEM_COMPLEX_FLOAT.
(** Some pixel of an S x S image is not zero *)
Definition some_pixel (S : Z) (x : nd C) : Prop := exists i j, 0 <= i < S /\ 0 <= j < S /\ elem x [i; j] <> C0.
Definition no_pixel (S : Z) (x : nd C) : Prop := forall i j, 0 <= i < S -> 0 <= j < S -> elem x [i; j] = C0.
(** The direction cosines of a pixel of a facet, and its w phase *)
Definition facet_coord (size theta : R) (n off i : Z) : R := (IZR (i - n / 2 + off) * theta / size)%R.
Definition facet_phase (p : plan) (n m off_l off_m w_offset i j : Z) : R :=
  (2 * PI * p_w_step p * lm_to_n (facet_coord (IZR (p_image_size p)) (p_theta p) n off_l i) (facet_coord (IZR (p_image_size p)) (p_theta p) m off_m j) (p_shear_u p) (p_shear_v p) * IZR w_offset)%R.
(** An n x m facet lies in the image *)
Definition facet_in (p : plan) (n m off_l off_m : Z) : Prop :=
  0 <= p_image_size p / 2 - n / 2 + off_l /\ p_image_size p / 2 - n / 2 + off_l + n <= p_image_size p /\
  0 <= p_image_size p / 2 - m / 2 + off_m /\ p_image_size p / 2 - m / 2 + off_m + m <= p_image_size p.
(** What a taper gives a pixel of a facet *)
Definition facet_taper (p : plan) (pswf : nd R) (n m off_l off_m i j : Z) : R :=
  (elem pswf [(i - n / 2 + off_l + p_image_size p / 2)%Z] * elem pswf [(j - m / 2 + off_m + p_image_size p / 2)%Z])%R.
(** Inner product of two n x m arrays *)
Definition inner (n m : Z) (a b : nd C) : C := Csum 0 n (fun i => Csum 0 m (fun j => Cmul (Cconj (elem a [i; j])) (elem b [i; j]))).
