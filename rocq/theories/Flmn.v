(** Model of count_nonzero_pixels and image_to_flmn, grid_data/sdp_gridder_utils.cpp. *)
From Verif Require Import Base CRing Cplx GridUtils.
Open Scope Z_scope.

Definition nonzero (z : C) : bool :=
  if Req_EM_T (re z) 0 then if Req_EM_T (im z) 0 then false else true else true.

(** count_nonzero_pixels 107-123: both loops run to shape[0] *)
Definition count_nonzero (image : nd C) : option Z :=
  let image_size := dim image 0 in
  for_ 0 image_size (fun il => for_ 0 image_size (fun im acc =>
    let* p := rd image [il; im] in
    Some (if nonzero p then acc + 1 else acc))) 0.

(** image_to_flmn 319-381; [flux = None] models NULL.  The state is (flux, lmn, k). *)
Definition flmn_put (lmn : nd R) (k : Z) (l m shear_u shear_v : R) : option (nd R) :=
  let* lmn := wr lmn [k; 0] l in
  let* lmn := wr lmn [k; 1] m in
  wr lmn [k; 2] (lm_to_n l m shear_u shear_v).

Definition pix_coord (i size : Z) (theta : R) : R := (IZR (i - cdiv size 2) * theta / IZR size)%R.

Definition image_to_flmn (image : nd C) (theta shear_u shear_v : R) (taper : option (nd R))
    (flux lmn : nd R) : option (nd R * nd R * Z) :=
  let size_l := dim image 0 in let size_m := dim image 1 in
  for_ 0 size_l (fun il => for_ 0 size_m (fun im st =>
    let '(flux, lmn, k) := st in
    let* p := rd image [il; im] in
    if nonzero p then
      let* tv := match taper with
                 | None => Some 1%R
                 | Some t => let* a := rd t [il] in let* b := rd t [im] in Some (a * b)%R
                 end in
      let* flux := wr flux [k] (re p * tv)%R in
      let* lmn := flmn_put lmn k (pix_coord il size_l theta) (pix_coord im size_m theta) shear_u shear_v in
      Some (flux, lmn, k + 1)
    else Some st)) (flux, lmn, 0).

Definition image_to_lmn (image : nd C) (theta shear_u shear_v : R) (lmn : nd R) : option (nd R * Z) :=
  let size_l := dim image 0 in let size_m := dim image 1 in
  for_ 0 size_l (fun il => for_ 0 size_m (fun im st =>
    let '(lmn, k) := st in
    let* lmn := flmn_put lmn k (pix_coord il size_l theta) (pix_coord im size_m theta) shear_u shear_v in
    Some (lmn, k + 1))) (lmn, 0).
