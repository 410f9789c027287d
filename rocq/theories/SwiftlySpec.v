(** Specification vocabulary for SwiFTly. *)
From Verif Require Import Base Sum CRing Cplx FftSpec Swiftly.
Open Scope Z_scope.

(** The sizes sdp_swiftly_create accepts *)
Definition good_sizes (image yN xM : Z) : Prop :=
  0 < image /\ 0 < yN /\ 0 < xM /\ (xM | image) /\ (yN | image) /\ (image | xM * yN) /\ (2 | xM) /\ (2 | yN).
(** A handle: such sizes, and tables with yN and xM yN / image entries *)
Definition valid (sw : swiftly) : Prop :=
  good_sizes (image_size sw) (yN_size sw) (xM_size sw) /\
  shape (tab_Fb sw) = [yN_size sw] /\ shape (tab_Fn sw) = [xM_size sw * yN_size sw / image_size sw].
(** The size of a contribution *)
Definition contrib_size (sw : swiftly) : Z := xM_size sw * yN_size sw / image_size sw.
(** The first facet-grid position of the window of a subgrid: the window is [o, o + contrib_size).
    Offsets that are not a multiple of image_size / yN_size are truncated towards zero. *)
Definition window_start (sw : swiftly) (subgrid_offset : Z) : Z :=
  Z.quot subgrid_offset (image_size sw / yN_size sw) - contrib_size sw / 2.
Definition Fb (sw : swiftly) (i : Z) : C := RtoC (elem (tab_Fb sw) [i]).
Definition Fn (sw : swiftly) (i : Z) : C := RtoC (elem (tab_Fn sw) [i]).
(** The inner product of two rows *)
Definition cdot (n : Z) (a b : Z -> C) : C := csum 0 n (fun k => Cmul (Cconj (a k)) (b k)).
(** An array of zeros *)
Definition zeros (n m : Z) : nd C := mk_nd [n; m] (fun _ => C0).
(** A small handle, for the examples *)
Definition small_sw : swiftly := mk_sw 16 8 8 (mk_nd [8] (fun _ => 1%R)) (mk_nd [4] (fun _ => 1%R)).
(** The result of finishing a subgrid row s of X elements: the inverse transform of s, with s centred at
    X / 2, evaluated at the coordinates k - X / 2 + off *)
Definition finished (X off : Z) (s : Z -> C) (k : Z) : C :=
  Cmul (RtoC (1 / IZR X)) (csum 0 X (fun q => Cmul (root true X ((k - X / 2 + off) * (q - X / 2))) (s q))).
(** The same in two dimensions *)
Definition finished2 (X off0 off1 : Z) (s : Z -> Z -> C) (k0 k1 : Z) : C :=
  Cmul (RtoC (1 / IZR X / IZR X)) (csum 0 X (fun p => csum 0 X (fun q =>
    Cmul (Cmul (root true X ((k0 - X / 2 + off0) * (p - X / 2))) (root true X ((k1 - X / 2 + off1) * (q - X / 2)))) (s p q)))).
