(** C60: logging honours the level filter, whatever the sequence of calls *)
From Coq Require Import String.
From Verif Require Import Base BaseFacts Logging LoggingSpec LoggingFacts.
Local Open Scope Z_scope.

(** The state after a history: undecided, or the level decided by the first environment that asked for one *)
Lemma calls_state : forall calls f rest, exists f', log_calls f (calls ++ rest) = log_calls f calls ++ log_calls f' rest /\
  (f <> 0 -> f' = f) /\ (f = 0 -> (f' <> 0 /\ decided (map fst calls) f') \/ (f' = 0 /\ forall l, ~ decided (map fst calls) l)).
Proof.
  induction calls as [|[e l] calls IH]; intros f rest.
  - exists f. repeat apply conj; [reflexivity|tauto|]. intro E. right. split; [exact E|]. intros k D. inversion D.
  - cbn [app log_calls map fst]. unfold log_message. set (g := if f =? LEVEL_UNDEF then lookup e else f).
    destruct (IH g rest) as (f' & E & A & B). exists f'. repeat apply conj.
    + destruct (l <? g); cbn [app]; now rewrite E.
    + intro N. assert (g = f) as G by (unfold g, LEVEL_UNDEF; destruct (Z.eqb_spec f 0); [lia|reflexivity]). rewrite A; congruence.
    + intros ->. unfold g in *. cbn [LEVEL_UNDEF Z.eqb] in *. destruct (Z.eq_dec (lookup e) 0) as [Z0|N].
      * assert (NA : forall k, ~ asks e k) by (intros k Ak; apply lookup_asks in Ak; lia).
        destruct (B Z0) as [[X Y]|[X Y]]; [left; split; [exact X|now apply decided_later]|right; split; [exact X|]].
        intros k D. inversion D; subst; [eapply NA; eassumption|eapply Y; eassumption].
      * rewrite (A N). left. split; [exact N|]. apply decided_now. now apply lookup_asks.
Qed.

(** In any sequence of calls made from the start of the program, with the environment changing in any way: the message of a call is printed
    if and only if it is at least as severe as the level asked for by the first environment, up to and including that call, that asked for one;
    as long as no environment has asked for one everything is printed. *)
Theorem C60_filter before env level after :
  let out := nth (length before) (log_calls LEVEL_UNDEF (before ++ (env, level) :: after)) None in
  let envs := map fst before ++ [env] in
  (forall m, decided envs m -> (out <> None <-> m <= level)) /\
  (0 <= level -> (forall m, ~ decided envs m) -> out <> None) /\
  (out <> None -> out = Some (level_str level)).
Proof.
  cbv zeta. destruct (calls_state before LEVEL_UNDEF ((env, level) :: after)) as (f & E & _ & B). rewrite E.
  assert (Ln : forall g cs, length (log_calls g cs) = length cs).
  { intros g cs. revert g. induction cs as [|[e l] cs IH]; intro g; [reflexivity|]. cbn [log_calls]. unfold log_message. destruct (l <? _); cbn [length]; now rewrite IH. }
  rewrite app_nth2; rewrite Ln; [|lia]. rewrite Nat.sub_diag. cbn [log_calls]. unfold log_message, LEVEL_UNDEF in *.
  assert (App : forall es e m, decided es m -> decided (es ++ [e]) m).
  { intros es e m D. induction D; [now apply decided_now|]. cbn [app]. now apply decided_later. }
  assert (Det : forall es m m', decided es m -> decided es m' -> m = m').
  { intros es m m' D. revert m'. induction D; intros m' D'; inversion D'; subst.
    - eapply asks_det; eassumption.
    - exfalso. eapply H2; eassumption.
    - exfalso. eapply H; eassumption.
    - auto. }
  assert (Snoc : forall es e m, (forall l, ~ decided es l) -> (decided (es ++ [e]) m <-> asks e m)).
  { induction es as [|x es IH]; intros e m ND; cbn [app].
    - split; [intro D; inversion D; subst; [assumption|]; match goal with H : decided [] _ |- _ => inversion H end|apply decided_now].
    - assert (NX : forall l, ~ asks x l) by (intros l A; apply (ND l); now apply decided_now).
      assert (NE : forall l, ~ decided es l) by (intros l A; apply (ND l); now apply decided_later).
      rewrite <- (IH e m NE). split; [intro D; inversion D; subst; [exfalso; eapply NX; eassumption|assumption]|now apply decided_later]. }
  assert (Out : forall g : Z, nth 0 (let '(f0, out) := if level <? g then (g, None) else (g, Some (level_str level)) in out :: log_calls f0 after) None = if level <? g then None else Some (level_str level)).
  { intro g. destruct (level <? g); reflexivity. }
  rewrite Out. set (g := if f =? 0 then lookup env else f).
  assert (G : (g <> 0 /\ decided (map fst before ++ [env]) g) \/ (g = 0 /\ forall m, ~ decided (map fst before ++ [env]) m)).
  { destruct (B eq_refl) as [[F D]|[F D]]; unfold g; (destruct (Z.eqb_spec f 0); [|]); try lia.
    - left. split; [exact F|now apply App].
    - destruct (Z.eq_dec (lookup env) 0) as [E0|N]; [right; split; [exact E0|]|left; split; [exact N|]].
      + intros m Dm. apply Snoc in Dm; [|exact D]. apply lookup_asks in Dm. lia.
      + apply Snoc; [exact D|]. now apply lookup_asks. }
  clearbody g. repeat apply conj.
  - intros m Dm. destruct G as [[_ G]|[_ G]]; [|exfalso; eapply G; eassumption]. rewrite (Det _ _ _ Dm G).
    destruct (Z.ltb_spec level g); split; intros; try congruence; try lia.
  - intros L N. destruct G as [[_ G]|[-> _]]; [exfalso; eapply N; eassumption|]. destruct (Z.ltb_spec level 0); [lia|congruence].
  - intro Nn. destruct (level <? g); [congruence|reflexivity].
Qed.

(** With an environment that does not change: what is printed is exactly the messages of at least the level asked for; INFO if the variable is unset;
    everything if its value is not one of the names. *)
Theorem C60_constant env levels : (forall l, In l levels -> 0 <= l <= 5) ->
  (forall m, asks env m -> log_calls LEVEL_UNDEF (map (fun l => (env, l)) levels) = map (fun l => if m <=? l then Some (level_str l) else None) levels) /\
  ((forall m, ~ asks env m) -> log_calls LEVEL_UNDEF (map (fun l => (env, l)) levels) = map (fun l => Some (level_str l)) levels).
Proof.
  intro R. split.
  - intros m A. pose proof (asks_range _ _ A) as Rm. apply lookup_asks in A. destruct A as [A N].
    assert (X : forall f, f = 0 \/ f = m -> log_calls f (map (fun l => (env, l)) levels) = map (fun l => if m <=? l then Some (level_str l) else None) levels).
    { clear R. induction levels as [|l ls IH]; intros f F; [reflexivity|]. cbn [map log_calls]. unfold log_message, LEVEL_UNDEF.
      assert (E : (if f =? 0 then lookup env else f) = m) by (destruct (Z.eqb_spec f 0); lia). rewrite E.
      destruct (Z.ltb_spec l m), (Z.leb_spec m l); try lia; rewrite IH by tauto; reflexivity. }
    apply X. left. reflexivity.
  - intro NA. assert (L0 : lookup env = 0) by (destruct (Z.eq_dec (lookup env) 0); [assumption|]; exfalso; apply (NA (lookup env)); now apply lookup_asks).
    unfold LEVEL_UNDEF. induction levels as [|l ls IH]; [reflexivity|]. cbn [map log_calls]. unfold log_message, LEVEL_UNDEF. cbn [Z.eqb]. rewrite L0.
    assert (0 <= l <= 5) by (apply R; now left). destruct (Z.ltb_spec l 0); [lia|]. f_equal. apply IH. intros k Hk. apply R. now right.
Qed.

(** The environments that ask for nothing: set, and starting with none of the names (for example "Debug" or the empty string) *)
Theorem C60_unrecognised s : (forall m, ~ asks (Some s) m) <-> forall name level rest, In (name, level) names -> s <> (name ++ rest)%string.
Proof.
  split.
  - intros N name level rest I ->. apply (N level). now constructor.
  - intros N m A. inversion A as [|n l r I]; subst. now apply (N n m r I).
Qed.
Print Assumptions C60_filter.
Print Assumptions C60_constant.
Print Assumptions C60_unrecognised.

(** An unrecognised value, then warnings only, and a later change of the variable that has no effect *)
Example C60_hyps : log_calls LEVEL_UNDEF [(Some "Debug"%string, 1); (Some "warning"%string, 2); (Some "debug"%string, 2); (None, 4)]
  = [Some "DEBUG"%string; None; None; Some "ERROR"%string] /\ decided [Some "Debug"%string; Some "warning"%string] 3.
Proof.
  split; [reflexivity|]. apply decided_later.
  - intros l A. apply lookup_asks in A. destruct A as [A N]. cbv in A. lia.
  - apply decided_now. apply (asks_name "warn" 3 "ing"). cbn. tauto.
Qed.
