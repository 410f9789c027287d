(** C61: the example functions *)
From Verif Require Import Base BaseFacts Mem Clamp ContigSpec Examples ExamplesSpec ExamplesFacts.
Open Scope Z_scope.

(** sdp_vector_add on vectors it accepts: every element of the output is the sum of the two elements of the inputs, nothing else is written,
    also when the output is one of the inputs. *)
Theorem C61_vector_add {A} (add : A -> A -> A) a b out pa pb po memory N :
  let n := num_elements out in
  addable a b out -> 0 <= n -> shape memory = [N] -> inside N n pa -> inside N n pb -> inside N n po -> same_or_apart n pa po -> same_or_apart n pb po ->
  exists r, vector_add add a b out pa pb po memory SUCCESS = Some (SUCCESS, r) /\
    (forall i, 0 <= i < n -> elem r [po + i] = add (elem memory [pa + i]) (elem memory [pb + i])) /\
    (forall idx, (forall i, 0 <= i < n -> idx <> [po + i]) -> elem r idx = elem memory idx).
Proof.
  cbv zeta. intros (R & Lo & T & Ta & Tb & La & Lb & Na & Nb) Hn Sm Ia Ib Io Aa Ab.
  destruct (add_loop_ok add N _ pa pb po memory Sm Hn Ia Ib Io Aa Ab) as (r & E & _ & V & U).
  unfold vector_add. cbn [failed]. rewrite R, Ta, Tb, La, Lb, Na, Nb, Lo, !Z.eqb_refl. cbn [negb orb]. rewrite E. cbn [bind].
  assert ((mtype out =? MEM_DOUBLE) || (mtype out =? MEM_FLOAT) = true) as -> by (destruct T as [-> | ->]; reflexivity). cbn [bind]. eauto.
Qed.

(** It reports an error and touches nothing in every other case. *)
Theorem C61_vector_add_rejects {A} (add : A -> A -> A) a b out pa pb po memory :
  ~ addable a b out -> location out = MEM_CPU \/ location out = MEM_GPU ->
  exists e, e <> SUCCESS /\ vector_add add a b out pa pb po memory SUCCESS = Some (e, memory).
Proof.
  intros N L. unfold vector_add. cbn [failed].
  destruct (is_read_only out) eqn:R; [eexists; split; [|reflexivity]; discriminate|].
  destruct (Z.eqb_spec (mtype a) (mtype out)) as [Ta|]; cbn [negb orb]; [|eexists; split; [|reflexivity]; discriminate].
  destruct (Z.eqb_spec (mtype b) (mtype out)) as [Tb|]; cbn [negb orb]; [|eexists; split; [|reflexivity]; discriminate].
  destruct (Z.eqb_spec (location a) (location out)) as [La|]; cbn [negb orb]; [|eexists; split; [|reflexivity]; discriminate].
  destruct (Z.eqb_spec (location b) (location out)) as [Lb|]; cbn [negb orb]; [|eexists; split; [|reflexivity]; discriminate].
  destruct (Z.eqb_spec (num_elements a) (num_elements out)) as [Na|]; cbn [negb orb]; [|eexists; split; [|reflexivity]; discriminate].
  destruct (Z.eqb_spec (num_elements b) (num_elements out)) as [Nb|]; cbn [negb orb]; [|eexists; split; [|reflexivity]; discriminate].
  destruct L as [L|L]; rewrite L; cbn [Z.eqb Pos.eqb MEM_CPU MEM_GPU].
  - destruct (Z.eqb_spec (mtype out) MEM_DOUBLE) as [D|]; cbn [orb]; [exfalso; apply N; unfold addable; intuition congruence|].
    destruct (Z.eqb_spec (mtype out) MEM_FLOAT) as [D|]; cbn [orb]; [exfalso; apply N; unfold addable; intuition congruence|].
    eexists; split; [|reflexivity]; discriminate.
  - destruct (_ || _); (eexists; split; [|reflexivity]; discriminate).
Qed.

(** An error reported before is kept and nothing is done. *)
Theorem C61_status {A} (add : A -> A -> A) a b out pa pb po memory e : e <> SUCCESS -> vector_add add a b out pa pb po memory e = Some (e, memory).
Proof. intro H. unfold vector_add. destruct e; [congruence|reflexivity..]. Qed.

(** With an output that starts inside an input the result is not the sum, and no error is reported. *)
Definition two : mem := fst (create_wrapper (Some (1, 0)) MEM_DOUBLE MEM_CPU [2] None SUCCESS).
Theorem C61_overlap_refuted :
  let memory := mk_nd [5] (fun _ => 1) in
  addable (Some two) (Some two) (Some two) /\
  exists r, vector_add Z.add (Some two) (Some two) (Some two) 0 3 1 memory SUCCESS = Some (SUCCESS, r) /\ elem r [2] = 3 /\ elem memory [1] + elem memory [4] = 2.
Proof.
  cbv zeta. split; [repeat split; auto|]. eexists. split; [reflexivity|]. split; reflexivity.
Qed.

Section ExampleA.
Context {A : Type} (zero : A) (add mul : A -> A -> A) (of_int : Z -> A).
(** A plan for a x b, used with an output of exactly a * b elements: element f is the sum of c * i over i < f.
    Missing: longer outputs, which the check accepts, see below. *)
Theorem C61_example_partial a b c out output : a <> 10 -> 0 <= a * b <= 2147483647 ->
  mtype out = MEM_FLOAT -> location out = MEM_CPU -> is_read_only out = false -> num_elements out = a * b -> shape output = [a * b] ->
  exists p r, create_plan zero false a b c SUCCESS = Some (SUCCESS, Some p) /\
    example_exec zero add mul of_int (Some p) out output SUCCESS = Some (SUCCESS, r) /\
    forall f, 0 <= f < a * b -> elem r [f] = ramp_sum zero add mul of_int c (Z.to_nat f).
Proof.
  intros Ha Hab T L R Nn So. unfold create_plan. cbn [failed]. destruct (Z.eqb_spec a 10); [contradiction|].
  assert (I : int_ok (a * b) = true) by (unfold int_ok; lia). rewrite I. cbn [negb orb].
  destruct (Z.ltb_spec (a * b) 0); [lia|]. eexists _. 
  destruct (example_loop_ok zero add mul of_int c (a * b) (a * b) (mk_nd [a * b] (fun _ => zero)) output eq_refl) as (w & r & E & _ & _ & V & _); [lia|lia|exists (a * b); split; [exact So|lia]|].
  exists r. split; [reflexivity|]. unfold example_exec. cbn [failed pl_a pl_b pl_c pl_work]. rewrite T, L, R, I, Nn. rewrite !Z.eqb_refl. cbn [negb].
  destruct (Z.ltb_spec (a * b) (a * b)); [lia|]. rewrite E. cbn [bind snd]. split; [reflexivity|exact V].
Qed.

(** It rejects the plan parameter 10, and outputs of the wrong type or location, read-only or too short, without writing. *)
Theorem C61_example_rejects a b c oom p out output :
  create_plan zero oom 10 b c SUCCESS = Some (ERR_INVALID_ARGUMENT, None) /\
  (create_plan zero oom a b c SUCCESS = Some (SUCCESS, Some p) ->
   mtype out <> MEM_FLOAT \/ location out <> MEM_CPU \/ is_read_only out = true \/ num_elements out < a * b ->
   exists e, e <> SUCCESS /\ example_exec zero add mul of_int (Some p) out output SUCCESS = Some (e, output)).
Proof.
  split; [reflexivity|]. unfold create_plan. cbn [failed]. destruct (a =? 10); [discriminate|]. destruct (int_ok (a * b)) eqn:I; [|discriminate]. cbn [negb].
  intro E. injection E as <-. unfold example_exec. cbn [failed pl_a pl_b pl_c pl_work]. intro H. rewrite I. cbn [negb].
  destruct (Z.eqb_spec (mtype out) MEM_FLOAT); cbn [negb]; [|eexists; split; [|reflexivity]; discriminate].
  destruct (Z.eqb_spec (location out) MEM_CPU); cbn [negb]; [|eexists; split; [|reflexivity]; discriminate].
  destruct (is_read_only out) eqn:R; [eexists; split; [|reflexivity]; discriminate|].
  destruct (Z.ltb_spec (num_elements out) (a * b)); [eexists; split; [|reflexivity]; discriminate|]. exfalso. intuition (congruence || lia).
Qed.

(** Every output longer than a * b is accepted and makes the function write outside its work area. *)
Theorem C61_example_overrun_refuted a b c p out output : 0 <= a * b ->
  create_plan zero false a b c SUCCESS = Some (SUCCESS, Some p) ->
  mtype out = MEM_FLOAT -> location out = MEM_CPU -> is_read_only out = false -> a * b < num_elements out ->
  example_exec zero add mul of_int (Some p) out output SUCCESS = None.
Proof.
  intros Hp E T L R Hn. unfold create_plan in E. cbn [failed] in E. destruct (a =? 10); [discriminate|]. destruct (int_ok (a * b)) eqn:I; [|discriminate]. cbn [negb] in E.
  injection E as <-. unfold example_exec. cbn [failed pl_a pl_b pl_c pl_work]. rewrite T, L, R, I. rewrite !Z.eqb_refl. cbn [negb orb].
  destruct (Z.ltb_spec (num_elements out) (a * b)); [lia|]. destruct (Z.ltb_spec (a * b) 0); [lia|].
  rewrite (example_loop_oob zero add mul of_int c _ (a * b)); [reflexivity|reflexivity|lia].
Qed.

(** When the product of the parameters is negative there is no work area, and every non-empty output makes the function write through a null pointer. *)
Theorem C61_example_negative_refuted a b c p out output : a * b < 0 ->
  create_plan zero false a b c SUCCESS = Some (SUCCESS, Some p) ->
  mtype out = MEM_FLOAT -> location out = MEM_CPU -> is_read_only out = false -> 0 < num_elements out ->
  example_exec zero add mul of_int (Some p) out output SUCCESS = None.
Proof.
  intros Hp E T L R Hn. unfold create_plan in E. cbn [failed] in E. destruct (a =? 10); [discriminate|]. destruct (int_ok (a * b)) eqn:I; [|discriminate]. cbn [negb] in E.
  injection E as <-. unfold example_exec. cbn [failed pl_a pl_b pl_c pl_work]. rewrite T, L, R, I. rewrite !Z.eqb_refl. cbn [negb orb].
  destruct (Z.ltb_spec (num_elements out) (a * b)); [lia|]. destruct (Z.ltb_spec (a * b) 0); [|lia].
  unfold example_loop, for_. replace (Z.to_nat (num_elements out - 0)) with (S (Z.to_nat (num_elements out - 1))) by lia. reflexivity.
Qed.
End ExampleA.

(** In exact arithmetic the values are c f (f - 1) / 2. *)
Theorem C61_example_closed c f : 2 * ramp_sum 0 Z.add Z.mul (fun z => z) c f = c * (Z.of_nat f * (Z.of_nat f - 1)).
Proof. induction f as [|f IH]; cbn [ramp_sum]; [lia|]. rewrite Z.mul_add_distr_l, IH, Nat2Z.inj_succ. unfold Z.succ. ring. Qed.

(** C72: sdp_vector_add treats strided vectors as contiguous ones and reports success: the second elements of the inputs are four and
    one positions from the first, and the sum of these is not what is written. *)
Definition spread : mem := fst (create_wrapper (Some (1, 0)) MEM_DOUBLE MEM_CPU [2] (Some [32]) SUCCESS).
Theorem C72_vector_add_refuted :
  let memory := mk_nd [9] (fun i => match i with [k] => k | _ => 0 end) in
  wrapped spread /\ wrapped two /\ addable (Some spread) (Some two) (Some two) /\
  exists r, vector_add Z.add (Some spread) (Some two) (Some two) 0 5 7 memory SUCCESS = Some (SUCCESS, r) /\
    elem r [7 + strided_pos two [1]] = 7 /\ elem memory [0 + strided_pos spread [1]] + elem memory [5 + strided_pos two [1]] = 10.
Proof.
  cbv zeta. split; [eexists _, _, _, _, _, _; split; [|split]; [| |reflexivity]; [reflexivity|discriminate]|].
  split; [eexists _, _, _, _, _, _; split; [|split]; [| |reflexivity]; [reflexivity|discriminate]|]. split; [repeat split; auto|].
  eexists. split; [reflexivity|]. split; reflexivity.
Qed.
Print Assumptions C61_vector_add.
Print Assumptions C61_vector_add_rejects.
Print Assumptions C61_status.
Print Assumptions C61_overlap_refuted.
Print Assumptions C61_example_partial.
Print Assumptions C61_example_rejects.
Print Assumptions C61_example_overrun_refuted.
Print Assumptions C61_example_negative_refuted.
Print Assumptions C61_example_closed.
Print Assumptions C72_vector_add_refuted.

(** In place: the output is the first input *)
Example C61_hyps : addable (Some two) (Some two) (Some two) /\ inside 4 2 0 /\ inside 4 2 2 /\ same_or_apart 2 0 0 /\ same_or_apart 2 2 0.
Proof. unfold inside, same_or_apart. repeat split; auto; lia. Qed.
Definition floats (n : Z) : mem := fst (create_wrapper (Some (1, 0)) MEM_FLOAT MEM_CPU [n] None SUCCESS).
Example C61_hyps_example : exists p, create_plan 0 false 2 3 7 SUCCESS = Some (SUCCESS, Some p) /\ mtype (Some (floats 6)) = MEM_FLOAT /\
  is_read_only (Some (floats 6)) = false /\ num_elements (Some (floats 6)) = 2 * 3 /\ num_elements (Some (floats 7)) = 7.
Proof. eexists. repeat split. Qed.
Example C61_hyps_negative : exists p, create_plan 0 false (-1) 3 7 SUCCESS = Some (SUCCESS, Some p).
Proof. eexists. reflexivity. Qed.
