(** Model of sdp_good_size_complex in grid_data/sdp_gridder_uvw_es_fft_utils.cpp, 181-217.  int arithmetic with overflow undefined.  The
    while and for loops run on fuel; None stands for undefined behaviour and for loops that do not end. *)
From Verif Require Import Base Clamp.
Open Scope Z_scope.

Definition fuel_bound : nat := 64.

(** 193-196: while (x < n) x *= 2 *)
Fixpoint double_up (fuel : nat) (n x : Z) : option Z :=
  match fuel with
  | O => None
  | S fuel => if x <? n then let* y := to_int (x * 2) in double_up fuel n y else Some x
  end.

(** 197-213: the endless loop.  [inr]: return from the function; [inl]: leave the loop with the given best factor *)
Fixpoint trade (fuel : nat) (n best x : Z) : option (Z + Z) :=
  match fuel with
  | O => None
  | S fuel =>
    if x <? n then let* y := to_int (x * 3) in trade fuel n best y
    else if x >? n then
      let best := if x <? best then x else best in
      if Z.odd x then Some (inl best) else trade fuel n best (Z.shiftr x 1)
    else Some (inr n)
  end.

(** 186, 188, 190: for (f = f0; f < best_factor; f *= m) body, where body may lower best_factor or return *)
Fixpoint mul_loop (fuel : nat) (m : Z) (body : Z -> Z -> option (Z + Z)) (f best : Z) : option (Z + Z) :=
  match fuel with
  | O => None
  | S fuel =>
    if f <? best then
      let* r := body f best in
      match r with
      | inr v => Some (inr v)
      | inl best => let* f' := to_int (f * m) in mul_loop fuel m body f' best
      end
    else Some (inl best)
  end.

(** sdp_good_size_complex, 181-217 *)
Definition good_size_complex (n : Z) : option Z :=
  if n <=? 12 then Some n else
  let* best := to_int (2 * n) in
  let* r := mul_loop fuel_bound 11 (mul_loop fuel_bound 7 (mul_loop fuel_bound 5 (fun f best =>
    let* x := double_up fuel_bound n f in trade fuel_bound n best x))) 1 best in
  match r with inl b => Some b | inr v => Some v end.
