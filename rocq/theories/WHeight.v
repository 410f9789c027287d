(** Model of grid_data/sdp_gridder_wtower_height.cpp: the search for the largest w-tower height
    and the worst-case image.  Errors and coordinates are exact rationals; an int result that
    does not fit is undefined. *)
From Verif Require Import Base Clamp QNum.
Open Scope Z_scope.

(** State of the search, 226-228: status, iw, diw, accelerate *)
Record search := mk_search { s_status : error; s_iw : Z; s_diw : Z; s_acc : bool }.

(** The loop body 229-267 and the test of the while.  [accuracy] is find_gridder_accuracy with
    everything but w applied: the status it leaves and the value it returns.  [inr] is the end
    of the search with the status and the return value. *)
Definition search_step (accuracy : Q -> error * Q) (w_step target_err : Q) (s : search) : option (search + error * Z) :=
  if failed (s_status s) then Some (inr (s_status s, 0)) else
  let (status, err) := accuracy (inject_Z (s_iw s) * w_step)%Q in
  if Qltb err target_err then
    if s_acc s then
      let* diw := to_int (s_diw s * 2) in
      let* iw := to_int (s_iw s + diw) in
      Some (inl (mk_search status iw diw (s_acc s)))
    else if s_diw s >? 1 then
      let diw := cdiv (s_diw s) 2 in
      let* iw := to_int (s_iw s + diw) in
      Some (inl (mk_search status iw diw (s_acc s)))
    else let* r := to_int (2 * s_iw s) in Some (inr (status, r))
  else if s_diw s >? 1 then
    let diw := cdiv (s_diw s) 2 in
    let* iw := to_int (s_iw s - diw) in
    Some (inl (mk_search status iw diw false))
  else let* r := to_int (2 * (s_iw s - 1)) in Some (inr (status, r)).

(** Executions of the loop; one that never returns has no result. *)
Inductive search_runs (accuracy : Q -> error * Q) (w_step target_err : Q) : search -> error * Z -> Prop :=
| runs_end s r : search_step accuracy w_step target_err s = Some (inr r) -> search_runs accuracy w_step target_err s r
| runs_step s s' r : search_step accuracy w_step target_err s = Some (inl s') -> search_runs accuracy w_step target_err s' r ->
    search_runs accuracy w_step target_err s r.

(** sdp_gridder_determine_max_w_tower_height 187-270.  [created] is the status after the
    gridding kernel has been created. *)
Definition max_height_target (accuracy : Q -> error * Q) (target_err : Q) : error * Q :=
  if Qeq_bool target_err 0 then let (st, e) := accuracy 0%Q in (st, (2 * e)%Q) else (SUCCESS, target_err).
Definition max_w_tower_height (status created : error) (accuracy : Q -> error * Q) (w_step target_err : Q) (r : error * Z) : Prop :=
  if failed status then r = (status, 0) else
  if failed created then r = (created, 0) else
  let (st, target) := max_height_target accuracy target_err in
  search_runs accuracy w_step target (mk_search st 1 1 true) r.

(** int(x): truncation *)
Definition trunc (q : Q) : Z := if Qle_bool 0 q then Qfloor q else Qceiling q.

(** while (image_size % fov_edge == 0) fov_edge -= 1; 293-296.  The remainder by zero is
    undefined; the fuel is enough for every loop that ends (see WHeightFacts). *)
Fixpoint find_edge (fuel : nat) (image_size fov_edge : Z) : option Z :=
  match fuel with
  | O => None
  | Datatypes.S k => if fov_edge =? 0 then None else
    if cmod image_size fov_edge =? 0 then find_edge k image_size (fov_edge - 1) else Some fov_edge
  end.

(** sdp_gridder_worst_case_image 273-316 (theta > 0).  [complex_double] tells whether the image
    has that type. *)
Definition worst_case_image (status : error) (complex_double : bool) (theta fov : Q) (image : nd Q) : option (error * nd Q) :=
  if failed status then Some (status, image) else
  let image_size := dim image 0 in
  if negb (Nat.eqb (length (shape image)) 2) || negb (image_size =? dim image 1) then Some (ERR_INVALID_ARGUMENT, image) else
  let* fov_edge := to_int (trunc (inject_Z image_size / theta * fov / 2)) in
  let* fov_edge := find_edge (Z.to_nat (Z.abs fov_edge + Z.abs image_size + 2)) image_size fov_edge in
  let image := mk_nd (shape image) (fun _ => 0%Q) in
  if complex_double then
    let h := cdiv image_size 2 in
    let* image := wr image [h + fov_edge; h + fov_edge] (3 # 10) in
    let* image := wr image [h - fov_edge; h - fov_edge] (2 # 10) in
    let* image := wr image [h + fov_edge; h - fov_edge - 1] (3 # 10) in
    let* image := wr image [h - fov_edge - 1; h + fov_edge] (2 # 10) in
    Some (SUCCESS, image)
  else Some (ERR_DATA_TYPE, image).
