(** Model of fourier_transforms/sdp_fft_padded_size.cpp and of sdp_good_size_complex in
    grid_data/sdp_gridder_uvw_es_fft_utils.cpp.  Integers are unbounded; malloc and realloc succeed.
    The loops take fuel, and running out of it is [None], as an access outside the heap is. *)
From Verif Require Import Base.
From Coq Require Import QArith Qround.
Open Scope Z_scope.

(** The heap: its memory (capacity = length) and size. *)
Definition swap2 (a : nd Z) (i j : Z) : option (nd Z) :=
  let* x := rd a [i] in let* y := rd a [j] in let* a := wr a [i] y in wr a [j] x.

(** heapify_up sdp_fft_padded_size.cpp 15-26 *)
Fixpoint heapify_up (fuel : nat) (a : nd Z) (index : Z) : option (nd Z) :=
  match fuel with
  | O => None
  | S k =>
    let parent := cdiv (index - 1) 2 in
    if index >? 0 then
      let* p := rd a [parent] in let* x := rd a [index] in
      if p >? x then let* a := swap2 a parent index in heapify_up k a parent else Some a
    else Some a
  end.

(** heapify_down 29-50 *)
Fixpoint heapify_down (fuel : nat) (a : nd Z) (heap_size index : Z) : option (nd Z) :=
  match fuel with
  | O => None
  | S k =>
    let left := 2 * index + 1 in
    let right := 2 * index + 2 in
    let* smallest := (if left <? heap_size then let* x := rd a [left] in let* y := rd a [index] in
                        Some (if x <? y then left else index) else Some index) in
    let* smallest := (if right <? heap_size then let* x := rd a [right] in let* y := rd a [smallest] in
                        Some (if x <? y then right else smallest) else Some smallest) in
    if negb (smallest =? index) then let* a := swap2 a index smallest in heapify_down k a heap_size smallest else Some a
  end.

(** heap_extract_min 53-59: the minimum, the memory and the new size.  When the last element is
    removed the code reads heap[0] in heapify_down only behind the size tests. *)
Definition heap_extract_min (a : nd Z) (heap_size : Z) : option (Z * nd Z * Z) :=
  let* m := rd a [0] in
  let heap_size := heap_size - 1 in
  let* x := rd a [heap_size] in
  let* a := wr a [0] x in
  let* a := heapify_down (S (Z.to_nat heap_size)) a heap_size 0 in
  Some (m, a, heap_size).

(** heap_insert 62-84 *)
Definition heap_insert (a : nd Z) (heap_size : Z) (value : Z) : option (nd Z * Z) :=
  let a := if heap_size >=? dim a 0 then mk_nd [dim a 0 * 2] (elem a) else a in
  let* a := wr a [heap_size] value in
  let heap_size := heap_size + 1 in
  let* a := heapify_up (S (Z.to_nat heap_size)) a (heap_size - 1) in
  Some (a, heap_size).

(** the loop over the primes 114-121 *)
Definition primes : list Z := [2; 3; 5; 7; 11].
Fixpoint insert_multiples (ps : list Z) (next limit : Z) (h : nd Z * Z) : option (nd Z * Z) :=
  match ps with
  | [] => Some h
  | p :: ps =>
    let trial := next * p in
    let* h := (if trial <=? limit then heap_insert (fst h) (snd h) trial else Some h) in
    insert_multiples ps next limit h
  end.

(** the while loop 108-122 *)
Fixpoint pad_loop (fuel : nat) (n limit : Z) (h : nd Z * Z) (prev next : Z) : option Z :=
  match fuel with
  | O => None
  | S k =>
    if snd h >? 0 then
      let* (m, a, size) := heap_extract_min (fst h) (snd h) in
      let next := m in
      if next >=? n then Some next
      else if next =? prev then pad_loop k n limit (a, size) prev next
      else
        let prev := next in
        let* h := insert_multiples primes next limit (a, size) in
        pad_loop k n limit h prev next
    else Some next
  end.

(** sdp_fft_padded_size 87-125, with the double product n * padding_factor taken exactly and the
    uninitialised memory of malloc given as [junk]. *)
Definition fft_padded_size (junk : list Z -> Z) (n : Z) (padding_factor : Q) : option Z :=
  let* h := heap_insert (mk_nd [100] junk) 0 2 in
  let n := Qceiling (inject_Z n * padding_factor) in
  let limit := n * 2 in
  pad_loop (8 + 6 * Z.to_nat n) n limit h 0 0.

(** sdp_good_size_complex sdp_gridder_uvw_es_fft_utils.cpp 181-218 *)
Inductive good_res : Type := Ret | Best (b : Z).

(** while (x < n) x *= 2; 193-196 *)
Fixpoint double_up (fuel : nat) (n x : Z) : option Z :=
  match fuel with O => None | S k => if x <? n then double_up k n (x * 2) else Some x end.
(** for (;;) 197-213 *)
Fixpoint descend (fuel : nat) (n x best : Z) : option good_res :=
  match fuel with
  | O => None
  | S k =>
    if x <? n then descend k n (x * 3) best
    else if x >? n then
      let best := if x <? best then x else best in
      if Z.land x 1 =? 1 then Some (Best best) else descend k n (Z.shiftr x 1) best
    else Some Ret
  end.
(** for (f = ...; f < best_factor; f *= k) 186, 188, 190 *)
Fixpoint mul_loop (fuel : nat) (k : Z) (body : Z -> Z -> option good_res) (f best : Z) : option good_res :=
  match fuel with
  | O => None
  | S fu => if f <? best then
      let* r := body f best in
      match r with Ret => Some Ret | Best b => mul_loop fu k body (f * k) b end
    else Some (Best best)
  end.
Definition good_inner (n f best : Z) : option good_res :=
  let* x := double_up (S (Z.to_nat n)) n f in descend (S (Z.to_nat (5 * n))) n x best.
Definition good_size_complex (n : Z) : option Z :=
  if n <=? 12 then Some n else
  let fu := S (Z.to_nat (2 * n)) in
  let* r := mul_loop fu 11 (mul_loop fu 7 (mul_loop fu 5 (good_inner n))) 1 (2 * n) in
  match r with Ret => Some n | Best b => Some b end.
