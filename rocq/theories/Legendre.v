(** Model of the Legendre polynomial functions of grid_data/sdp_gridder_uvw_es_fft_utils.cpp, 13-109, over the real numbers. *)
From Coq Require Import Reals.
From Verif Require Import Base.
Open Scope Z_scope.

Definition Rltb (a b : R) : bool := if Rlt_dec a b then true else false.

(** sdp_get_legendre, 13-57: value, and the value stored in *derivative if the function stores one ([derivative] is not NULL) *)
Definition get_legendre (x : R) (n : Z) : option (R * option R) :=
  if n =? 0 then Some (1, Some 0)%R
  else if n =? 1 then Some (x, Some 1%R)
  else
    let* s := for_ 2 (n + 1) (fun i (s : R * R * R) =>
      let '(p_im2, p_im1, _) := s in
      let p_i := (x * p_im1 + ((IZR i - 1) / IZR i) * (x * p_im1 - p_im2))%R in
      Some (p_im1, p_i, p_i)) (1%R, x, 0%R) in
    let '(p_im2, _, p_i) := s in
    Some (p_i, if Rltb (-1) x && Rltb x 1 then Some (IZR n / (1 - (x * x)) * (p_im2 - x * p_i))%R else None).

(** sdp_get_approx_legendre_root, 67-72 *)
Definition get_approx_legendre_root (i n : Z) : R :=
  let improvement := (1 - (1 - 1 / IZR n) / (8 * IZR n * IZR n))%R in
  let estimate := cos (PI * (4 * IZR i - 1) / (4 * IZR n + 2)) in
  (improvement * estimate)%R.

(** fdim of the C library: positive difference *)
Definition fdim (a b : R) : R := if Rltb b a then (a - b)%R else 0%R.
Definition MAX_NEWTON_RAPHSON_ITERATIONS : nat := 100.

(** 92-101: the Newton-Raphson loop, after [k] more iterations at most; result: last two estimates and derivative *)
Fixpoint newton (k : nat) (n : Z) (accuracy next_estimate derivative : R) : option (R * R * R) :=
  let estimate := next_estimate in
  let* r := get_legendre estimate n in
  let derivative := match snd r with Some d => d | None => derivative end in
  let next_estimate := (estimate - fst r / derivative)%R in
  match k with
  | O => Some (estimate, next_estimate, derivative)
  | S k => if Rltb accuracy (fdim next_estimate estimate) then newton k n accuracy next_estimate derivative else Some (estimate, next_estimate, derivative)
  end.

(** sdp_calculate_legendre_root, 82-109: root and weight.  Division by zero is not modelled (Coq's / is total). *)
Definition calculate_legendre_root (i n : Z) (accuracy : R) : option (R * R) :=
  let* s := newton (MAX_NEWTON_RAPHSON_ITERATIONS - 1) n accuracy (get_approx_legendre_root i n) 1%R in
  let '(_, x, derivative) := s in
  let* r := get_legendre x n in
  let derivative := match snd r with Some d => d | None => derivative end in
  Some (x, (2 / ((1 - x * x) * derivative * derivative))%R).
