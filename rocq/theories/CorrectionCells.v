(** Bounds for the transform of the gridding kernel over the image, for all rows of the kernel table, found by computation *)
From Coq Require Import QArith.
From Verif Require Import Base EsParams CosZ QuadratureCells.
Open Scope Z_scope.

(** 2^24 *)
Definition S24 := 16777216.
Fixpoint sq_down (n : nat) (v : Z) : Z := match n with O => v | S n => sq_down n (Z.shiftr (v * v) 24) end.
Fixpoint sq_up (n : nat) (v : Z) : Z := match n with O => v | S n => sq_up n (Z.shiftr (v * v) 24 + 1) end.
(** 2^24 exp (- 64 u / 2^24), from bounds of exp (- u / 2^24) *)
Definition exp_lo (u : Z) : Z := let q := Z.shiftr (u * u) 25 in sq_down 6 (Z.max 0 (S24 - u + q - Z.shiftr ((q + 1) * u) 25 - 1)).
Definition exp_hi (u : Z) : Z := sq_up 6 (S24 - u + Z.shiftr (u * u) 25 + 1).
(** A node x and weight times 2^24, and bounds for 2^24 (1 - sqrt (1 - x^2)) *)
Definition node := (Z * Z * Z * Z)%type.
Definition make_node (e : Z * Z) : node := let (c, w) := e in (c, w, S24 - Z.sqrt (281474976710656 - (c - 1) * (c - 1)) - 1, S24 - Z.sqrt (281474976710656 - (c + 1) * (c + 1))).
Definition node_ok (nd : node) : bool := let '(c, w, dl, dh) := nd in (1 <=? c) && (c + 1 <=? S24) && (1 <=? w) && (0 <=? dl).
(** Bounds for 2^20 w exp (beta (sqrt (1 - x^2) - 1)), beta 2^14 in [B, B + 1] *)
Definition amp (B : Z) (nd : node) : Z * Z :=
  let '(c, w, dl, dh) := nd in
  (Z.shiftr ((w - 1) * exp_lo (Z.shiftr ((B + 1) * dh) 20 + 1)) 28, Z.shiftr ((w + 1) * exp_hi (Z.shiftr (B * dl) 20)) 28 + 1).
(** cos (j x / 4) for successive j, times 2^32: cos (x / 4), the previous and the present value *)
Definition angle := (Z * Z * Z)%type.
Definition first_angle (nd : node) : angle := let '(c, _, _, _) := nd in let k := Z.shiftr (fst (cos_start (32 * c))) 8 in (k, 4294967296, k).
Definition next_angle (a : angle) : angle := let '(k, v0, v1) := a in (k, v1, Z.shiftr (2 * k * v1) 32 - v0).
Fixpoint angles (J : nat) (l : list angle) : list (list angle) := match J with O => [] | S J => l :: angles J (map next_angle l) end.
Definition angle_ok (a : angle) : bool := let '(_, _, v1) := a in (-8589934592 <=? v1) && (v1 <=? 8589934592).
(** At the start: [k] is near, and the error for J values is small *)
Definition first_ok (J : Z) (nd : node) : bool :=
  let '(c, _, _, _) := nd in let '(k, _, _) := first_angle nd in
  (snd (cos_start (32 * c)) <=? (k + 2) * 256) && (((J + 1) * 18) * ((J + 1) * 18) * 18446744073709551616 <=? 38654705664 * (18446744073709551616 - (k + 2) * (k + 2))).
(** Below 2^16 cos *)
Definition out (a : angle) : Z := let '(_, v0, _) := a in Z.shiftr v0 16 - 2.
Fixpoint dot (al : list (Z * Z)) (cl : list Z) : Z :=
  match al, cl with (l, h) :: al, c :: cl => (if 0 <=? c then l * c else h * c) + dot al cl | _, _ => 0 end.
Fixpoint curve (al : list (Z * Z)) (nds : list node) : Z :=
  match al, nds with (_, h) :: al, (c, _, _, _) :: nds => let x := Z.shiftr c 8 + 1 in h * (x * x) + curve al nds | _, _ => 0 end.
Fixpoint total (al : list (Z * Z)) : Z := match al with (_, h) :: al => h + total al | [] => 0 end.

(** The transform stays above its value at 0 divided by this *)
Definition ratio := 175.
(** Number of steps of 1/4 up to pi s / 2 os and pi s / 4 (1 + 10^-13) *)
Definition steps (r : row) : Z :=
  Z.max (2 * 31416 * k_support r * Z.pos (Qden (k_os r)) / (10000 * Qnum (k_os r)) + 1) (31416 * k_support r / 10000 + 1).
(** The values [val] at grid points from [j] to [n]: steps of 4, 2, 1 *)
Fixpoint walk (f : nat) (val : Z -> Z) (t L n n1 n2 j v : Z) : bool :=
  match f with
  | O => n <=? j
  | S f => if n <=? j then true else
      let h := if j + 4 <=? n1 then 4 else if j + 2 <=? n2 then 2 else 1 in let v' := val (j + h) in
      (j + h <=? n) && (t <=? ratio * (v - L * (h * h))) && (t <=? ratio * (v' - L * (h * h))) && walk f val t L n n1 n2 (j + h) v'
  end.
Definition row_ok (nds : list node) (tab : list (list Z)) (r : row) : bool :=
  let al := map (amp (Qnum (k_beta r) * k_support r * 16384 / Z.pos (Qden (k_beta r)))) nds in
  let n := steps r in let L := Z.shiftr (curve al nds) 23 + 1 in let t := total al * 65536 in
  let val := fun j => dot al (nth (Z.to_nat j) tab []) in
  (0 <=? Qnum (k_beta r)) && (0 <? Qnum (k_os r)) && (n <? Z.of_nat (length tab)) && walk (Z.to_nat n) val t L n (n * 3 / 4) (n * 9 / 10) 0 (val 0).
Definition points_of (s : Z) : Z := 3 * s / 2 + 2.
Definition nodes_of (s : Z) : list node := map make_node (coarse (points_of s)).
(** How many values are needed *)
Definition hint (s : Z) : nat := nth (Z.to_nat (s - 4)) [23; 29; 34; 40; 43; 47; 50; 55; 57; 60; 62; 64; 69]%nat O.
Definition support_ok (s : Z) : bool :=
  let nds := nodes_of s in let J := hint s in
  forallb node_ok nds && forallb (first_ok (Z.of_nat J)) nds && (Z.of_nat J <=? 512) &&
  let A := angles J (map first_angle nds) in forallb (forallb angle_ok) A &&
  let tab := map (map out) A in forallb (row_ok nds tab) (filter (fun r => k_support r =? s) KernelDB).
