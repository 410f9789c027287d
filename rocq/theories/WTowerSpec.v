(** Specification vocabulary for the w-towers kernels. *)
From Verif Require Import Base CRing Clamp ClampSpec QNum WTower.
Open Scope Z_scope.

(** Real position of a coordinate (in metres) of channel [c], in pixels from the sub-grid centre. *)
Definition pos {A : cring} (plan : wplan A) (x f0 df : Q) (c off : Z) : Q :=
  (theta plan * coord x f0 df c - inject_Z off)%Q.

(** Position between the two w-planes, as a fraction of the w-step. *)
Definition wpos {A : cring} (plan : wplan A) (x f0 df : Q) (c w_plane off_w : Z) : Q :=
  (coord x f0 df c / w_step plan - inject_Z (w_plane + off_w - 1))%Q.

(** Channels of a row with w between the planes (see C19 for what this selects). *)
Definition plane_channels {A : cring} (plan : wplan A) (w_plane off_w : Z) (f0 df w : Q) (s e : Z) : Z * Z :=
  clamp_inline w f0 df s e (inject_Z (w_plane + off_w - 1) * w_step plan)%Q (inject_Z (w_plane + off_w) * w_step plan)%Q.

(** A row with coordinates u, v and channels r passes the bounds check: the first channel is not
    below the sub-grid and the last channel at least one pixel from its upper edge. *)
Definition passes {A : cring} (plan : wplan A) (f0 df u v : Q) (off_u off_v : Z) (r : Z * Z) : Prop :=
  let half := inject_Z (subgrid_size plan / 2) in
  (- half <= pos plan u f0 df (fst r) off_u)%Q /\ (pos plan u f0 df (snd r - 1) off_u <= half - 1)%Q /\
  (- half <= pos plan v f0 df (fst r) off_v)%Q /\ (pos plan v f0 df (snd r - 1) off_v <= half - 1)%Q.

(** A position far enough from the edges for the whole kernel to fit in the sub-grid. *)
Definition fits {A : cring} (plan : wplan A) (x : Q) : Prop :=
  let half := subgrid_size plan / 2 in
  let sup := support plan in
  (inject_Z (sup / 2 - 1 - half) <= x)%Q /\
  (x < inject_Z (half - (sup - sup / 2)) - 1 / (2 * inject_Z (oversampling plan)))%Q.

(** Interpolation of [s] with the first pixel at (cu, cv), rows [ru] and [rv] of the uv-kernel
    and row [rw] of the w-kernel. *)
Definition interp {A : cring} (plan : wplan A) (cu ru cv rv rw : Z) (s : Z -> Z -> Z -> A) : A :=
  rsum 0 (w_support plan) (fun a => elem (w_kernel plan) [(rw * w_support plan + a)%Z] *
    rsum 0 (support plan) (fun b => elem (uv_kernel plan) [(ru * support plan + b)%Z] *
      rsum 0 (support plan) (fun d => elem (uv_kernel plan) [(rv * support plan + d)%Z] * s a (cu + b)%Z (cv + d)%Z)))%cr.

(** First pixel [cu] and kernel row [ru] chosen for the position [x]: the kernel is centred
    at x to half an oversampled pixel (round half away from zero). *)
Definition corner {A : cring} (plan : wplan A) (x : Q) : Z :=
  qround (x * inject_Z (oversampling plan)) / oversampling plan + (subgrid_size plan / 2 - support plan / 2 + 1).
Definition krow {A : cring} (plan : wplan A) (x : Q) : Z :=
  qround (x * inject_Z (oversampling plan)) mod oversampling plan.
Definition wrow {A : cring} (plan : wplan A) (x : Q) : Z :=
  qround (x * inject_Z (w_oversampling plan)) mod w_oversampling plan.

(** Sum over all entries of a 2-d or 3-d array. *)
Definition total2 {A : cring} (n m : Z) (f : Z -> Z -> A) : A := rsum 0 n (fun i => rsum 0 m (fun j => f i j)).
Definition total3 {A : cring} (n m k : Z) (f : Z -> Z -> Z -> A) : A :=
  rsum 0 n (fun i => rsum 0 m (fun j => rsum 0 k (fun l => f i j l))).

(** Plans as built by sdp_gridder_wtower_uvw_create for usable parameters. *)
Definition plan_ok {A : cring} (plan : wplan A) : Prop :=
  0 < subgrid_size plan /\ subgrid_size plan mod 2 = 0 /\
  1 <= support plan /\ support plan <= subgrid_size plan /\ 1 <= oversampling plan /\
  1 <= w_support plan /\ 1 <= w_oversampling plan <= 2147483647 /\
  oversampling plan * subgrid_size plan <= 2147483647 /\
  (0 < theta plan)%Q /\ (0 < w_step plan)%Q /\
  shape (uv_kernel plan) = [(oversampling plan + 1) * support plan] /\
  shape (w_kernel plan) = [(w_oversampling plan + 1) * w_support plan].

(** The inputs of one call: [n] rows, [m] channels, channel ranges inside [0, m). *)
Definition rows_ok (uvws : nd Q) (start_chs end_chs : nd Z) (n m start_row end_row : Z) : Prop :=
  shape uvws = [n; 3] /\ shape start_chs = [n] /\ shape end_chs = [n] /\
  0 <= start_row /\ start_row <= end_row /\ end_row <= n /\
  forall i, start_row <= i < end_row -> elem start_chs [i] < elem end_chs [i] ->
    0 <= elem start_chs [i] /\ elem end_chs [i] <= m.

(** Every visibility of row i that passes the checks fits, and its w step is resolved. *)
Definition row_safe {A : cring} (plan : wplan A) (w_plane off_u off_v off_w : Z) (f0 df : Q)
    (uvws : nd Q) (start_chs end_chs : nd Z) (i : Z) : Prop :=
  let u := elem uvws [i; 0] in let v := elem uvws [i; 1] in let w := elem uvws [i; 2] in
  let r := plane_channels plan w_plane off_w f0 df w (elem start_chs [i]) (elem end_chs [i]) in
  step_ok w f0 df (inject_Z (w_plane + off_w - 1) * w_step plan)%Q (inject_Z (w_plane + off_w) * w_step plan)%Q /\
  (passes plan f0 df u v off_u off_v r -> forall c, fst r <= c < snd r ->
     fits plan (pos plan u f0 df c off_u) /\ fits plan (pos plan v f0 df c off_v)).

(** Visibility (i, c) is processed on this plane. *)
Definition processed {A : cring} (plan : wplan A) (w_plane off_u off_v off_w : Z) (f0 df : Q)
    (uvws : nd Q) (start_chs end_chs : nd Z) (i c : Z) : Prop :=
  let u := elem uvws [i; 0] in let v := elem uvws [i; 1] in let w := elem uvws [i; 2] in
  let r := plane_channels plan w_plane off_w f0 df w (elem start_chs [i]) (elem end_chs [i]) in
  elem start_chs [i] < elem end_chs [i] /\ fst r <= c < snd r /\ passes plan f0 df u v off_u off_v r.
