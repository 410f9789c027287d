From Verif Require Import Base BaseFacts Mem Clamp Examples ExamplesSpec.
Open Scope Z_scope.

Lemma add_loop_ok {A} (add : A -> A -> A) N n pa pb po (m : nd A) : shape m = [N] -> 0 <= n -> inside N n pa -> inside N n pb -> inside N n po ->
  same_or_apart n pa po -> same_or_apart n pb po ->
  exists r, add_loop add n pa pb po m = Some r /\ shape r = [N] /\
    (forall i, 0 <= i < n -> elem r [po + i] = add (elem m [pa + i]) (elem m [pb + i])) /\
    (forall idx, (forall i, 0 <= i < n -> idx <> [po + i]) -> elem r idx = elem m idx).
Proof.
  intros Sm Hn Ia Ib Io Aa Ab. unfold inside in *.
  destruct (for_inv (fun k (r : nd A) => shape r = [N] /\ (forall i, 0 <= i < k -> elem r [po + i] = add (elem m [pa + i]) (elem m [pb + i])) /\
    (forall idx, (forall i, 0 <= i < k -> idx <> [po + i]) -> elem r idx = elem m idx)) 0 n
    (fun i memory => let* x := rd memory [pa + i] in let* y := rd memory [pb + i] in wr memory [po + i] (add x y)) m) as (r & E & P); try lia.
  - repeat apply conj; [exact Sm|intros; lia|reflexivity].
  - intros k r Hk (Sr & V & U).
    rewrite rd_some by (rewrite Sr; apply in_shape_1; lia). cbn [bind]. rewrite rd_some by (rewrite Sr; apply in_shape_1; lia). cbn [bind].
    rewrite wr_some by (rewrite Sr; apply in_shape_1; lia). eexists. split; [reflexivity|]. rewrite shape_upd. repeat apply conj; [exact Sr| |].
    + intros i Hi. destruct (Z.eq_dec i k) as [->|Ni].
      * rewrite elem_upd_same. f_equal; apply U; intros j Hj E; injection E; unfold same_or_apart in *; lia.
      * rewrite elem_upd_other by (intro E; injection E; lia). apply V. lia.
    + intros idx Hx. rewrite elem_upd_other by (intro E; apply (Hx k); [lia|congruence]). apply U. intros i Hi. apply Hx. lia.
  - exists r. split; [exact E|exact P].
Qed.

Section ExampleA.
Context {A : Type} (zero : A) (add mul : A -> A -> A) (of_int : Z -> A).
Lemma ramp_succ c f : 0 <= f -> ramp_sum zero add mul of_int c (Z.to_nat (f + 1)) = add (ramp_sum zero add mul of_int c (Z.to_nat f)) (mul c (of_int f)).
Proof. intro H. replace (Z.to_nat (f + 1)) with (S (Z.to_nat f)) by lia. cbn [ramp_sum]. now rewrite Z2Nat.id. Qed.
Lemma example_loop_ok c n W w (out : nd A) : shape w = [W] -> 0 <= n <= W -> n <= 2147483647 -> (exists M, shape out = [M] /\ n <= M) ->
  exists w' r, example_loop zero add mul of_int c n (Some w) out = Some (Some w', r) /\ shape w' = [W] /\ shape r = shape out /\
    (forall f, 0 <= f < n -> elem r [f] = ramp_sum zero add mul of_int c (Z.to_nat f)) /\
    (forall idx, (forall f, 0 <= f < n -> idx <> [f]) -> elem r idx = elem out idx).
Proof.
  intros Sw Hn Hi (M & So & HM). unfold example_loop.
  match goal with |- context [for_ 0 n ?body _] => set (B := body) end.
  destruct (for_inv (fun k (s : option (nd A) * nd A) => exists w', fst s = Some w' /\ shape w' = [W] /\ (forall i, 0 <= i < k -> elem w' [i] = mul c (of_int i)) /\
      shape (snd s) = [M] /\ (forall f, 0 <= f < k -> elem (snd s) [f] = ramp_sum zero add mul of_int c (Z.to_nat f)) /\
      (forall idx, (forall f, 0 <= f < k -> idx <> [f]) -> elem (snd s) idx = elem out idx)) 0 n B (Some w, out)) as ([ow r] & E & P); try lia.
  - exists w. cbn [fst snd]. repeat apply conj; auto; intros; lia.
  - intros k [ow r] Hk (w' & Ew & Sw' & V & Sr & Vr & U). cbn [fst snd] in *. subst ow. unfold B.
    assert (int_ok k = true) as -> by (unfold int_ok; lia). cbn [negb].
    rewrite wr_some by (rewrite Sw'; apply in_shape_1; lia). cbn [bind].
    destruct (for_inv (fun j x => x = ramp_sum zero add mul of_int c (Z.to_nat j)) 0 k
      (fun i ftemp => let* x := rd (upd w' [k] (mul c (of_int k))) [i] in Some (add ftemp x)) zero) as (x & Ex & Px); [lia|reflexivity| |].
    { intros j y Hj ->. rewrite rd_some by (rewrite shape_upd, Sw'; apply in_shape_1; lia). cbn [bind]. eexists. split; [reflexivity|].
      rewrite ramp_succ by lia. f_equal. rewrite elem_upd_other by (intro E; injection E; lia). apply V. lia. }
    rewrite Ex. cbn [bind]. rewrite wr_some by (rewrite Sr; apply in_shape_1; lia). cbn [bind]. eexists. split; [reflexivity|]. eexists. cbn [fst snd]. split; [reflexivity|].
    rewrite !shape_upd. repeat apply conj; auto.
    + intros i Hx. destruct (Z.eq_dec i k) as [->|Ni]; [now rewrite elem_upd_same|]. rewrite elem_upd_other by (intro E; injection E; lia). apply V. lia.
    + intros i Hx. destruct (Z.eq_dec i k) as [->|Ni]; [now rewrite elem_upd_same|]. rewrite elem_upd_other by (intro E; injection E; lia). apply Vr. lia.
    + intros idx Hx. rewrite elem_upd_other by (intro E; apply (Hx k); [lia|congruence]). apply U. intros i Hi'. apply Hx. lia.
  - destruct P as (w' & Ew & Sw' & _ & Sr & Vr & U). cbn [fst snd] in *. subst ow. exists w', r. repeat apply conj; auto. congruence.
Qed.
(** The loop writes element W of the work area when the output is longer than it. *)
Lemma example_loop_oob c n W w (out : nd A) : shape w = [W] -> 0 <= W < n -> example_loop zero add mul of_int c n (Some w) out = None.
Proof.
  intros Sw H. destruct (example_loop zero add mul of_int c n (Some w) out) as [s|] eqn:E; [exfalso|reflexivity].
  unfold example_loop in E.
  assert (X : forall k s s', 0 <= k <= n -> fst s = Some w -> for_ 0 k (fun f '(work, output) => if negb (int_ok f) then None else match work with None => None | Some work =>
        let* work := wr work [f] (mul c (of_int f)) in
        let* ftemp := for_ 0 f (fun i ftemp => let* x := rd work [i] in Some (add ftemp x)) zero in
        let* output := wr output [f] ftemp in Some (Some work, output) end) s = Some s' -> k <= W /\ exists w', fst s' = Some w' /\ shape w' = [W]).
  { intros k s0 s1 Hk F R. revert R. apply (for_inv_partial (fun k (s' : option (nd A) * nd A) => k <= W /\ exists w', fst s' = Some w' /\ shape w' = [W])); [lia|split; [lia|eauto]|].
    intros i [ow x] y Hi (_ & w' & Ew & Sw'). cbn [fst] in Ew. subst ow. destruct (negb (int_ok i)); [discriminate|].
    intro Y. destruct (wr w' [i] _) as [w2|] eqn:Ww; [|discriminate]. cbn [bind] in Y. apply wr_inv in Ww. destruct Ww as [I ->]. rewrite Sw' in I. apply in_shape_1 in I.
    destruct (for_ 0 i _ zero); [|discriminate]. cbn [bind] in Y. destruct (wr x [i] a); [|discriminate]. cbn [bind] in Y. injection Y as <-. cbn [fst]. split; [lia|].
    eexists. split; [reflexivity|]. now rewrite shape_upd. }
  specialize (X n (Some w, out) s ltac:(lia) eq_refl E). lia.
Qed.
End ExampleA.
