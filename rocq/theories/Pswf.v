(** Model of fourier_transforms/sdp_pswf.cpp and private_pswf.h: coefficient computation
    (without the eigenvalue search pswf_segv, whose result is an argument), evaluation and
    tabulation of prolate spheroidal wave functions.  The double-precision arithmetic is an
    argument (any type of values with any operations), so that the model covers rounding,
    infinities and NaN; only the parameter c, which decides the lengths, is a rational number
    (every finite double is one). *)
From Verif Require Import Base Mem Checks Clamp QNum WHeight.
Open Scope Z_scope.

(** Floating-point values and operations; [fq] is the value of a constant, [fpow x m] is
    pow(x, m / 2). *)
Record arith := mk_arith {
  F :> Type; fq : Q -> F; fadd : F -> F -> F; fsub : F -> F -> F; fmul : F -> F -> F; fdiv : F -> F -> F;
  fneg : F -> F; fabs : F -> F; flt : F -> F -> bool; feq0 : F -> bool; fpow : F -> Z -> F }.
Arguments fq {_} _. Arguments fadd {_} _ _. Arguments fsub {_} _ _. Arguments fmul {_} _ _. Arguments fdiv {_} _ _.
Arguments fneg {_} _. Arguments fabs {_} _. Arguments flt {_} _ _. Arguments feq0 {_} _. Arguments fpow {_} _ _.
Declare Scope fp_scope.
Delimit Scope fp_scope with fp.
Arguments fabs {_} _%fp. Arguments flt {_} _%fp _%fp.
Infix "+" := fadd : fp_scope. Infix "-" := fsub : fp_scope. Infix "*" := fmul : fp_scope. Infix "/" := fdiv : fp_scope.
Notation "- x" := (fneg x) : fp_scope.

(** Exact arithmetic, where [pw] stands for the power function *)
Definition exact (pw : Q -> Z -> Q) : arith :=
  mk_arith Q Qred (fun x y => Qred (x + y)) (fun x y => Qred (x - y)) (fun x y => Qred (x * y)) (fun x y => Qred (x / y)) Qopp Qabs Qltb
    (fun x => Qeq_bool x 0) pw.

Definition em10 : Q := 1 # (10 ^ 10)%positive.

Section Arith.
Context {A : arith}.
Definition fz (z : Z) : A := fq (inject_Z z).
Definition tiny : A := fq (1 # (10 ^ 14)%positive).
Definition e100 : A := fq (inject_Z (10 ^ 100)).
Definition em100 : A := fq (1 # (10 ^ 100)%positive).

(** sdp_pswf_cipow, private_pswf.h 30-43.  The fuel is the number of bits of the exponent. *)
Fixpoint cipow_loop (fuel : nat) (result base : A) (exp : Z) : A :=
  match fuel with
  | O => result
  | Datatypes.S k => if exp =? 0 then result else
    cipow_loop k (if Z.odd exp then (result * base)%fp else result) (base * base)%fp (Z.shiftr exp 1)
  end.
Definition cipow (base : A) (exp : Z) : A :=
  if exp =? 1 then base else cipow_loop (Z.to_nat (Z.log2 exp + 1)) (fz 1) base exp.

(** The local arrays are not initialised: an element is [None] until it is written, and reading it
    before that is undefined behaviour. *)
Definition ird (a : nd (option A)) (i : list Z) : option A := let* x := rd a i in x.
Definition iwr (a : nd (option A)) (i : list Z) (v : A) : option (nd (option A)) := wr a i (Some v).

(** State of the backward recurrence of pswf_sdmn: df, f0, f1, fs, kb, fl and whether L35 was
    reached. *)
Record sdmn_state := mk_sdmn { sd_df : nd (option A); sd_f0 : A; sd_f1 : A; sd_fs : A; sd_kb : Z; sd_fl : A; sd_done : bool }.

(** df[lo-1 .. hi-1] *= s (e.g. 124-128) *)
Definition rescale (df : nd (option A)) (lo hi : Z) (s : A) : option (nd (option A)) :=
  for_ lo (hi + 1) (fun k1 df => let* x := ird df [k1 - 1] in iwr df [k1 - 1] (x * s)%fp) df.

(** 92-108: the tables a, d_, g of 200 entries *)
Definition sdmn_tables (m n nm : Z) (cs : A) (t : nd (option A) * nd (option A) * nd (option A)) : option (nd (option A) * nd (option A) * nd (option A)) :=
  let ip := if n - m =? cdiv (n - m) 2 * 2 then 0 else 1 in
  for_ 1 (nm + 2 + 1) (fun i st =>
    let '(a, d, g) := st in
    let k := if ip =? 0 then (i - 1) * 2 else i * 2 - 1 in
    let dk0 := fz (m + k) in let dk1 := fz (m + k + 1) in
    let dk2 := fz ((m + k) * 2) in let d2k := fz (m * 2 + k) in
    let* a := iwr a [i - 1] ((d2k + fz 2) * (d2k + fz 1) / ((dk2 + fz 3) * (dk2 + fz 5)) * cs)%fp in
    let* d := iwr d [i - 1] (dk0 * dk1 + (dk0 * fz 2 * dk1 - fz m * fz 2 * fz m - fz 1) / ((dk2 - fz 1) * (dk2 + fz 3)) * cs)%fp in
    let* g := iwr g [i - 1] (fz k * (fz k - fz 1) / ((dk2 - fz 3) * (dk2 - fz 1)) * cs)%fp in
    Some (a, d, g)) t.

(** 115-176: one step of the backward recurrence, k = nm, nm - 1, .., 1 *)
Definition sdmn_back (nm : Z) (cv : A) (a d g : nd (option A)) (k : Z) (st : sdmn_state) : option sdmn_state :=
  if sd_done st then Some st else
  let* dk := ird d [k] in let* ak := ird a [k] in let* gk := ird g [k] in
  let f := (- ((dk - cv) * sd_f0 st + ak * sd_f1 st) / gk)%fp in
  let* dfk := ird (sd_df st) [k] in
  if flt (fabs dfk) (fabs f) then
    let* df := iwr (sd_df st) [k - 1] f in
    let f1 := sd_f0 st in
    let f0 := f in
    if flt e100 (fabs f) then
      let* df := rescale df k nm em100 in
      Some (mk_sdmn df (f0 * em100)%fp (f1 * em100)%fp (sd_fs st) (sd_kb st) (sd_fl st) false)
    else Some (mk_sdmn df f0 f1 (sd_fs st) (sd_kb st) (sd_fl st) false)
  else
    let kb := k in
    let fl := dfk in
    let f1 := em100 in
    let* d0 := ird d [0] in let* a0 := ird a [0] in
    let f2 := (- (d0 - cv) / a0 * f1)%fp in
    let* df := iwr (sd_df st) [0] f1 in
    if kb =? 1 then Some (mk_sdmn df (sd_f0 st) f1 f2 kb fl true) else
    let* df := iwr df [1] f2 in
    if kb =? 2 then
      let* d1 := ird d [1] in let* g1 := ird g [1] in let* a1 := ird a [1] in
      Some (mk_sdmn df (sd_f0 st) f1 (- ((d1 - cv) * f2 + g1 * f1) / a1)%fp kb fl true)
    else
      (* state: df, f, f1, f2 *)
      let* (df, f, f1, _) := for_ 3 (kb + 1 + 1) (fun j st =>
        let '(df, _, f1, f2) := st in
        let* dj := ird d [j - 2] in let* gj := ird g [j - 2] in let* aj := ird a [j - 2] in
        let f := (- ((dj - cv) * f2 + gj * f1) / aj)%fp in
        let* df := if j <=? kb then iwr df [j - 1] f else Some df in
        let* (df, f, f2) := if flt e100 (fabs f) then
            let* df := rescale df 1 j em100 in Some (df, (f * em100)%fp, (f2 * em100)%fp)
          else Some (df, f, f2) in
        Some (df, f, f2, f)) (df, f, f1, f2) in
      Some (mk_sdmn df (sd_f0 st) f1 f kb fl true).

(** pswf_sdmn, 28-239.  [a], [d], [g] are the uninitialised local arrays of 200 entries. *)
Definition sdmn (m n : Z) (c : Q) (cv : A) (kd : Z) (df a d g : nd (option A)) : option (nd (option A)) :=
  let nm := trunc (inject_Z (n - m) * (1 # 2) + c) + 25 in
  if Qltb c em10 then
    let* df := for_ 1 (nm + 1) (fun i df => iwr df [i - 1] (fz 0)) df in
    iwr df [cdiv (n - m) 2] (fz 1)
  else
  let cs := (fq c * fq c * fz kd)%fp in
  let ip := if n - m =? cdiv (n - m) 2 * 2 then 0 else 1 in
  let* (a, d, g) := sdmn_tables m n nm cs (a, d, g) in
  let* df := iwr df [nm] (fz 0) in
  let* st := for_ 0 nm (fun t st => sdmn_back nm cv a d g (nm - t) st) (mk_sdmn df em100 (fz 0) (fz 1) 0 (fz 0) false) in
  let df := sd_df st in let kb := sd_kb st in let fl := sd_fl st in let fs := sd_fs st in
  let* r1 := for_ (m + ip + 1) ((m + ip) * 2 + 1) (fun j r1 => Some (r1 * fz j)%fp) (fz 1) in
  let* df0 := ird df [0] in
  let* (r1, su1) := for_ 2 (kb + 1) (fun k st =>
    let r1 := (- fst st * (fz (k + m + ip) - fq (3 # 2)) / fz (k - 1))%fp in
    let* x := ird df [k - 1] in Some (r1, (snd st + r1 * x)%fp)) (r1, (df0 * r1)%fp) in
  let* (_, su2, _, _) := for_ (kb + 1) (nm + 1) (fun k st =>
    let '(r1, su2, sw, stop) := st in
    if stop : bool then Some st else
    let r1 := if k =? 1 then r1 else (- r1 * (fz (k + m + ip) - fq (3 # 2)) / fz (k - 1))%fp in
    let* x := ird df [k - 1] in
    let su2 := (su2 + r1 * x)%fp in
    if flt (fabs (sw - su2)) (fabs su2 * tiny) then Some (r1, su2, sw, true) else Some (r1, su2, su2, false)) (r1, (fz 0), (fz 0), false) in
  let* r3 := for_ 1 (cdiv (m + n + ip) 2 + 1) (fun j r3 => Some (r3 * (fz j + fz (n + m + ip) * fq (1 # 2)))%fp) (fz 1) in
  let* r4 := for_ 1 (cdiv (n - m - ip) 2 + 1) (fun j r4 => Some (r4 * fz (-4) * fz j)%fp) (fz 1) in
  let s0 := (r3 / (fl * (su1 / fs) + su2) / r4)%fp in
  let* df := for_ 1 (kb + 1) (fun k df => let* x := ird df [k - 1] in iwr df [k - 1] (fl / fs * s0 * x)%fp) df in
  for_ (kb + 1) (nm + 1) (fun k df => let* x := ird df [k - 1] in iwr df [k - 1] (s0 * x)%fp) df.

(** pswf_sckb, 243-361 *)
Definition sckb (m n : Z) (c : Q) (df : nd (option A)) (ck : nd A) : option (nd A) :=
  let c := if Qle_bool c em10 then em10 else c in
  let nm := trunc (inject_Z (n - m) * (1 # 2) + c) + 25 in
  let ip := if n - m =? cdiv (n - m) 2 * 2 then 0 else 1 in
  let reg := if m + nm >? 80 then fq (1 # (10 ^ 200)%positive) else fz 1 in
  let* (_, _, ck) := for_ 0 nm (fun k st =>
    let '(fac, sw, ck) := st in
    let fac := (- fac)%fp in
    let i1 := k * 2 + ip + 1 in
    let* r := for_ i1 (i1 + m * 2 - 1 + 1) (fun i r => Some (r * fz i)%fp) reg in
    let i2 := k + m + ip in
    let* r := for_ i2 (i2 + k - 1 + 1) (fun i r => Some (r * (fz i + fq (1 # 2)))%fp) r in
    let* x := ird df [k] in
    let* (_, sum, sw, _) := for_ (k + 1) (nm + 1) (fun i st =>
      let '(r, sum, sw, stop) := st in
      if stop : bool then Some st else
      let d1 := fz (i * 2 + ip) in
      let d2 := (fz (m * 2) + d1)%fp in
      let d3 := (fz (i + m + ip) - fq (1 # 2))%fp in
      let r := (r * d2 * (d2 - fz 1) * fz i * (d3 + fz k) / (d1 * (d1 - fz 1) * fz (i - k) * d3))%fp in
      let* y := ird df [i] in
      let sum := (sum + r * y)%fp in
      if flt (fabs (sw - sum)) (fabs sum * tiny) then Some (r, sum, sw, true) else Some (r, sum, sum, false)) (r, (r * x)%fp, sw, false) in
    let* r1 := for_ 2 (m + k + 1) (fun i r1 => Some (r1 * fz i)%fp) reg in
    let* ck := wr ck [k] (fac * sum / r1)%fp in
    Some (fac, sw, ck)) ((- cipow (fq (1 # 2)) m)%fp, fz 0, ck) in
  Some ck.

(** sdp_pswf_aswfa, private_pswf.h 64-83 *)
Definition aswfa (m n : Z) (c : Q) (ck : nd A) (x : A) : option A :=
  let nm := trunc (inject_Z (cdiv (n - m) 2) + c) + 40 in
  let nm2 := cdiv nm 2 - 2 in
  let x1 := (fz 1 - x * x)%fp in
  let a0 := if (m =? 0) && feq0 x1 then (fz 1) else fpow x1 m in
  let* su1 := rd ck [0] in
  let* (su1, _, _) := for_ 1 (nm2 + 1) (fun k st =>
    let '(su1, x1p, stop) := st in
    if stop : bool then Some st else
    let* y := rd ck [k] in
    let r := (y * x1p)%fp in
    let su1 := (su1 + r)%fp in
    let t := (r / su1)%fp in
    if (k >=? 10) && flt (fabs t) tiny then Some (su1, x1p, true) else Some (su1, (x1p * x1)%fp, false)) (su1, x1, false) in
  Some (if cmod (n - m) 2 =? 0 then (a0 * su1)%fp else (a0 * x * su1)%fp).

(** The part of sdp_pswf_create, 616-639, after the eigenvalue search: [cv] is its result. *)
Definition pswf_create (m : Z) (c : Q) (cv : A) (df a d g : nd (option A)) (ck : nd A) : option (nd A) :=
  let* df := sdmn m m c cv 1 df a d g in
  sckb m m c df ck.

End Arith.

(** generate_pswf, 569-602, for any element type; [ev] is sdp_pswf_aswfa(m, m, c, ck, x) *)
Definition generate {A} (zero small : A) (ev : Q -> option A) (end_correction : bool) (pswf : nd A) : option (nd A) :=
  let size := dim pswf 0 in
  let* pswf := wr pswf [0] zero in
  let* v0 := ev 0%Q in
  let* pswf := wr pswf [cdiv size 2] v0 in
  let* pswf := for_ 1 (cdiv size 2) (fun i pswf =>
    let* s1f := ev (2 * inject_Z i / inject_Z size)%Q in
    let* pswf := wr pswf [cdiv size 2 + i] s1f in
    wr pswf [cdiv size 2 - i] s1f) pswf in
  if end_correction && (cmod size 2 =? 0) then wr pswf [0] small else Some pswf.

(** sdp_pswf_evaluate, 680-685 *)
Definition evaluate {A} (zero : A) (ev : Q -> option A) (x : Q) : option A :=
  let abs_x := Qabs x in
  if Qltb abs_x 1 then ev abs_x else Some zero.

(** sdp_pswf_generate, 710-777.  [out] is the caller's array (descriptor, possibly null) with contents
    [data]; the result is the status, the contents of the caller's array and the table kept in the
    handle when this call makes one (613-616: a new array is zeroed). *)
Definition pswf_generate {A} (zero small : A) (ev : Q -> option A) (ec : bool) (out : option mem) (data : nd A) (size : Z) (st : error)
  : option (error * nd A * option (nd A)) :=
  if failed st then Some (st, data, None) else
  match out with
  | Some _ =>
    if negb (size =? 0) then Some (ERR_INVALID_ARGUMENT, data, None) else
    if negb (num_dims out =? 1) then Some (ERR_INVALID_ARGUMENT, data, None) else
    if negb (location out =? MEM_CPU) then Some (ERR_MEM_LOCATION, data, None) else
    let ty := mtype out in
    if negb ((ty =? MEM_DOUBLE) || (ty =? MEM_FLOAT) || (ty =? MEM_COMPLEX_FLOAT) || (ty =? MEM_COMPLEX_DOUBLE)) then Some (ERR_DATA_TYPE, data, None) else
    let (_, st) := check_and_view out ty 1 MEM_CPU st in
    if failed st then Some (st, data, None) else
    let* data := generate zero small ev ec data in Some (st, data, None)
  | None =>
    if size <=? 0 then Some (ERR_INVALID_ARGUMENT, data, None) else
    let* t := generate zero small ev ec (mk_nd [size] (fun _ => zero)) in Some (st, data, Some t)
  end.
