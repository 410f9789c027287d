(** Binary heap and smooth numbers (proofs only). *)
From Verif Require Import Base BaseFacts Sum PadSize PadSizeSpec.
From Coq Require Import Znumtheory Permutation Lia QArith Qround.
Open Scope Z_scope.

Definition parent (i : Z) : Z := (i - 1) / 2.
Definition contents (a : nd Z) (n : Z) : list Z := map (fun i => elem a [i]) (zrange 0 n).
Definition heap_ok (a : nd Z) (n : Z) : Prop := forall i, 0 < i < n -> elem a [parent i] <= elem a [i].
Definition Heap (a : nd Z) (n : Z) (l : list Z) : Prop :=
  exists cap, shape a = [cap] /\ 0 < cap /\ 0 <= n <= cap /\ heap_ok a n /\ Permutation (contents a n) l.

Lemma parent_lt i : 0 < i -> 0 <= parent i < i.
Proof. intro H. unfold parent. split; [apply Z.div_pos; lia|apply Z.div_lt_upper_bound; lia]. Qed.
Lemma parent_child i j : parent i = j <-> i = 2 * j + 1 \/ i = 2 * j + 2.
Proof. unfold parent. lia. Qed.
Lemma cdiv_parent i : 0 < i -> cdiv (i - 1) 2 = parent i.
Proof. intro H. unfold cdiv, parent. apply Z.quot_div_nonneg; lia. Qed.

(** swapping two elements *)
Definition tr (i j k : Z) : Z := if k =? i then j else if k =? j then i else k.
Lemma swap2_lemma a i j n cap : shape a = [cap] -> n <= cap -> 0 <= i < n -> 0 <= j < n ->
  exists a', swap2 a i j = Some a' /\ shape a' = [cap] /\ (forall k, elem a' [k] = elem a [tr i j k]) /\
    Permutation (contents a' n) (contents a n).
Proof.
  intros S Hn Hi Hj. unfold swap2.
  rewrite !rd_some by (rewrite S; apply in_shape_1; lia). cbn [bind].
  rewrite wr_some by (rewrite S; apply in_shape_1; lia). cbn [bind].
  rewrite wr_some by (cbn [upd shape]; rewrite S; apply in_shape_1; lia).
  eexists. split; [reflexivity|]. split; [exact S|].
  assert (V : forall k, elem (upd (upd a [i] (elem a [j])) [j] (elem a [i])) [k] = elem a [tr i j k]).
  { intro k. cbn [upd elem]. unfold tr.
    destruct (idx_eqb_spec [j] [k]) as [E|E]; destruct (idx_eqb_spec [i] [k]) as [F|F];
      destruct (Z.eqb_spec k i); destruct (Z.eqb_spec k j); subst; try congruence; try reflexivity. }
  split; [exact V|]. unfold contents.
  rewrite (map_ext _ (fun k => elem a [tr i j k]) V).
  rewrite <- (map_map (tr i j) (fun k => elem a [k])). apply Permutation_map. apply zrange_perm.
  - intros k Hk. unfold tr. destruct (k =? i); [lia|]. destruct (k =? j); lia.
  - intros k k' Hk Hk' E. unfold tr in E. destruct (Z.eqb_spec k i), (Z.eqb_spec k' i), (Z.eqb_spec k j), (Z.eqb_spec k' j); lia.
Qed.

Lemma up_lemma cap n : n <= cap -> forall fuel a index, Z.of_nat fuel > index -> shape a = [cap] -> 0 <= index < n ->
  (forall i, 0 < i < n -> i <> index -> elem a [parent i] <= elem a [i]) ->
  (forall i, 0 < i < n -> parent i = index -> 0 < index -> elem a [parent index] <= elem a [i]) ->
  exists a', heapify_up fuel a index = Some a' /\ shape a' = [cap] /\ heap_ok a' n /\ Permutation (contents a' n) (contents a n).
Proof.
  intro Hn. induction fuel as [|f IH]; intros a index Hf S Hi H1 H2; [lia|]. cbn [heapify_up].
  destruct (Z.gtb_spec index 0) as [G|G].
  - rewrite cdiv_parent by lia. pose proof (parent_lt index G) as PL.
    rewrite !rd_some by (rewrite S; apply in_shape_1; lia). cbn [bind].
    destruct (Z.gtb_spec (elem a [parent index]) (elem a [index])) as [C|C].
    + destruct (swap2_lemma a (parent index) index n cap) as (a1 & E & S1 & V & P); auto; try lia.
      rewrite E. cbn [bind].
      destruct (IH a1 (parent index)) as (a2 & E2 & S2 & K2 & P2); auto; try lia.
      * intros i Hi0 NE. rewrite !V. unfold tr.
        pose proof (parent_lt i ltac:(lia)).
        destruct (Z.eqb_spec (parent i) (parent index)) as [Q|Q].
        -- destruct (Z.eqb_spec i (parent index)); [lia|]. destruct (Z.eqb_spec i index); [subst; lia|].
           pose proof (H1 i ltac:(lia) ltac:(lia)). rewrite Q in *. lia.
        -- destruct (Z.eqb_spec (parent i) index) as [Q2|Q2].
           ++ destruct (Z.eqb_spec i (parent index)); [lia|]. destruct (Z.eqb_spec i index); [lia|].
              apply H2; auto.
           ++ destruct (Z.eqb_spec i (parent index)); [lia|]. destruct (Z.eqb_spec i index); [subst; lia|].
              apply H1; auto.
      * intros i Hi0 Q Pp. rewrite !V. unfold tr.
        pose proof (parent_lt (parent index) ltac:(lia)).
        assert (NEa : parent (parent index) =? parent index = false) by lia.
        assert (NEb : parent (parent index) =? index = false) by lia. rewrite NEa, NEb.
        pose proof (H1 (parent index) ltac:(lia) ltac:(lia)).
        pose proof (parent_lt i ltac:(lia)).
        destruct (Z.eqb_spec i (parent index)); [lia|]. destruct (Z.eqb_spec i index); [lia|].
        pose proof (H1 i Hi0 ltac:(lia)) as K. rewrite Q in K. lia.
      * exists a2. split; [exact E2|]. split; [exact S2|]. split; [exact K2|]. now rewrite P2.
    + exists a. split; [reflexivity|]. split; [exact S|]. split; [|reflexivity].
      intros i Hi0. destruct (Z.eq_dec i index) as [->|NE]; [lia|apply H1; auto].
  - exists a. split; [reflexivity|]. split; [exact S|]. split; [|reflexivity].
    intros i Hi0. apply H1; lia.
Qed.

Lemma down_lemma cap n : n <= cap -> forall fuel a index, Z.of_nat fuel > n - index -> shape a = [cap] -> 0 <= index ->
  index < n \/ n = 0 /\ index = 0 ->
  (forall i, 0 < i < n -> parent i <> index -> elem a [parent i] <= elem a [i]) ->
  (forall i, 0 < i < n -> parent i = index -> 0 < index -> elem a [parent index] <= elem a [i]) ->
  exists a', heapify_down fuel a n index = Some a' /\ shape a' = [cap] /\ heap_ok a' n /\ Permutation (contents a' n) (contents a n).
Proof.
  intro Hn. induction fuel as [|f IH]; intros a index Hf S H0 Hi H1 H2; [lia|]. cbn [heapify_down]. cbv zeta.
  set (l := 2 * index + 1). set (r := 2 * index + 2).
  assert (S1 : exists s1, (if l <? n then let* x := rd a [l] in let* y := rd a [index] in Some (if x <? y then l else index) else Some index) = Some s1 /\
    (s1 = index \/ s1 = l /\ l < n /\ elem a [l] < elem a [index]) /\ (l < n -> elem a [s1] <= elem a [l]) /\ elem a [s1] <= elem a [index]).
  { destruct (Z.ltb_spec l n) as [L|L].
    - rewrite !rd_some by (rewrite S; apply in_shape_1; lia). cbn [bind].
      destruct (Z.ltb_spec (elem a [l]) (elem a [index])) as [Q|Q]; eexists; (split; [reflexivity|]).
      + split; [right; split; [reflexivity|lia]|lia].
      + split; [now left|lia].
    - exists index. split; [reflexivity|]. split; [now left|]. split; lia. }
  destruct S1 as (s1 & -> & C1 & M1 & N1). cbn [bind].
  assert (S2 : exists s2, (if r <? n then let* x := rd a [r] in let* y := rd a [s1] in Some (if x <? y then r else s1) else Some s1) = Some s2 /\
    (s2 = index \/ (s2 = l /\ l < n \/ s2 = r /\ r < n) /\ elem a [s2] < elem a [index]) /\
    (l < n -> elem a [s2] <= elem a [l]) /\ (r < n -> elem a [s2] <= elem a [r])).
  { destruct (Z.ltb_spec r n) as [L|L].
    - rewrite !rd_some by (rewrite S; apply in_shape_1; lia). cbn [bind].
      destruct (Z.ltb_spec (elem a [r]) (elem a [s1])) as [Q|Q]; eexists; (split; [reflexivity|]).
      + split; [right; split; [right; split; [reflexivity|lia]|lia]|]. split; [intro; specialize (M1 ltac:(lia)); lia|lia].
      + split; [|split; [exact M1|lia]]. destruct C1 as [->|(-> & ? & ?)]; [now left|right; split; [left; split; [reflexivity|lia]|lia]].
    - exists s1. split; [reflexivity|]. split; [|split; [exact M1|lia]].
      destruct C1 as [->|(-> & ? & ?)]; [now left|right; split; [left; split; [reflexivity|lia]|lia]]. }
  destruct S2 as (s & -> & C2 & Ml & Mr). cbn [bind].
  destruct (Z.eqb_spec s index) as [->|NE]; cbn [negb].
  - exists a. split; [reflexivity|]. split; [exact S|]. split; [|reflexivity].
    intros i Hi0. destruct (Z.eq_dec (parent i) index) as [Q|Q]; [|now apply H1].
    rewrite Q. apply parent_child in Q. destruct Q as [->| ->]; [apply Ml|apply Mr]; unfold l, r; lia.
  - destruct C2 as [?|(C2 & LT)]; [contradiction|].
    assert (PS : parent s = index) by (apply parent_child; destruct C2 as [[-> _]|[-> _]]; unfold l, r; auto).
    assert (Hs : index < s < n) by (unfold l, r in C2; lia).
    destruct (swap2_lemma a index s n cap) as (a1 & E & S1 & V & P); auto; try lia.
    rewrite E. cbn [bind].
    destruct (IH a1 s) as (a2 & E2 & S2 & K2 & P2); auto; try lia.
    + intros i Hi0 NP. rewrite !V. unfold tr. pose proof (parent_lt i ltac:(lia)).
      destruct (Z.eqb_spec (parent i) index) as [Q|Q].
      * destruct (Z.eqb_spec i index); [lia|]. destruct (Z.eqb_spec i s); [lia|].
        apply parent_child in Q. destruct Q as [->| ->]; [apply Ml|apply Mr]; unfold l, r; lia.
      * destruct (Z.eqb_spec (parent i) s); [lia|].
        destruct (Z.eqb_spec i index) as [->|]; [apply H2; auto; lia|].
        destruct (Z.eqb_spec i s); [subst; lia|]. apply H1; auto.
    + intros i Hi0 Q Ps. rewrite !V. unfold tr. rewrite PS, Z.eqb_refl.
      pose proof (parent_lt i ltac:(lia)).
      destruct (Z.eqb_spec i index); [lia|]. destruct (Z.eqb_spec i s); [lia|].
      pose proof (H1 i Hi0 ltac:(lia)) as K. rewrite Q in K. exact K.
    + exists a2. split; [exact E2|]. split; [exact S2|]. split; [exact K2|]. now rewrite P2.
Qed.

Lemma heap_min a n : heap_ok a n -> forall k i, 0 <= i < Z.of_nat k -> i < n -> elem a [0] <= elem a [i].
Proof.
  intro H. induction k as [|k IH]; intros i Hi Hn; [lia|].
  destruct (Z.eq_dec i 0) as [->|NE]; [lia|].
  pose proof (parent_lt i ltac:(lia)). specialize (IH (parent i) ltac:(lia) ltac:(lia)).
  specialize (H i ltac:(lia)). lia.
Qed.

Lemma contents_in a n x : In x (contents a n) <-> exists i, 0 <= i < n /\ elem a [i] = x.
Proof.
  unfold contents. rewrite in_map_iff. split; intros (i & A & B); exists i.
  - apply in_zrange in B. auto.
  - split; [exact B|]. now apply in_zrange.
Qed.
Lemma contents_ext a b n : (forall i, 0 <= i < n -> elem a [i] = elem b [i]) -> contents a n = contents b n.
Proof. intro H. apply map_ext_in. intros i Hi. apply H. now apply in_zrange. Qed.

Lemma insert_lemma a n l v : Heap a n l ->
  exists a', heap_insert a n v = Some (a', n + 1) /\ Heap a' (n + 1) (v :: l).
Proof.
  intros (cap & S & Hc & Hn & K & P). unfold heap_insert, dim. rewrite S. cbn [nth].
  set (a0 := if n >=? cap then mk_nd [cap * 2] (elem a) else a).
  set (cap' := if n >=? cap then cap * 2 else cap).
  assert (S0 : shape a0 = [cap']) by (unfold a0, cap'; destruct (n >=? cap); auto).
  assert (E0 : forall i, elem a0 i = elem a i) by (unfold a0; destruct (n >=? cap); auto).
  assert (C0 : n < cap' /\ 0 < cap') by (unfold cap'; destruct (Z.geb_spec n cap); lia).
  clearbody a0 cap'.
  rewrite wr_some by (rewrite S0; apply in_shape_1; lia). cbn [bind].
  set (a1 := upd a0 [n] v).
  assert (V : forall i, 0 <= i < n -> elem a1 [i] = elem a [i]).
  { intros i Hi. unfold a1. rewrite elem_upd_other; [apply E0|]. intro Q. injection Q. lia. }
  assert (Vn : elem a1 [n] = v) by (unfold a1; apply elem_upd_same).
  replace (n + 1 - 1) with n by lia.
  destruct (up_lemma cap' (n + 1) ltac:(lia) (Datatypes.S (Z.to_nat (n + 1))) a1 n) as (a2 & E & S2 & K2 & P2).
  - lia.
  - exact S0.
  - lia.
  - intros i Hi NE. pose proof (parent_lt i ltac:(lia)). rewrite !V by lia. apply K. lia.
  - intros i Hi Q Pn. pose proof (parent_lt i ltac:(lia)). lia.
  - rewrite E. cbn [bind]. exists a2. split; [reflexivity|].
    exists cap'. split; [exact S2|]. split; [lia|]. split; [lia|]. split; [exact K2|].
    rewrite P2. unfold contents. rewrite zrange_snoc by lia. rewrite map_app. cbn [map]. rewrite Vn.
    rewrite Permutation_app_comm. cbn [app]. constructor. fold (contents a1 n).
    rewrite (contents_ext a1 a n) by assumption. exact P.
Qed.

Lemma extract_lemma a n l : Heap a n l -> 0 < n ->
  exists m a' l', heap_extract_min a n = Some (m, a', n - 1) /\ Heap a' (n - 1) l' /\ Permutation l (m :: l') /\
    (forall x, In x l -> m <= x).
Proof.
  intros (cap & S & Hc & Hn & K & P) Hp. unfold heap_extract_min.
  rewrite rd_some by (rewrite S; apply in_shape_1; lia). cbn [bind].
  rewrite rd_some by (rewrite S; apply in_shape_1; lia). cbn [bind].
  rewrite wr_some by (rewrite S; apply in_shape_1; lia). cbn [bind].
  set (a1 := upd a [0] (elem a [n - 1])).
  assert (V : forall i, i <> 0 -> elem a1 [i] = elem a [i]).
  { intros i Hi. unfold a1. apply elem_upd_other. intro Q. injection Q. lia. }
  destruct (down_lemma cap (n - 1) ltac:(lia) (Datatypes.S (Z.to_nat (n - 1))) a1 0) as (a2 & E & S2 & K2 & P2).
  - lia.
  - exact S.
  - lia.
  - lia.
  - intros i Hi NE. pose proof (parent_lt i ltac:(lia)). rewrite !V by lia. apply K. lia.
  - intros; lia.
  - rewrite E. cbn [bind]. exists (elem a [0]), a2, (contents a1 (n - 1)). split; [reflexivity|]. split; [|split].
    + exists cap. split; [exact S2|]. split; [lia|]. split; [lia|]. split; [exact K2|exact P2].
    + rewrite <- P. destruct (Z.eq_dec n 1) as [->|N1].
      * unfold contents. change (1 - 1) with 0. reflexivity.
      * unfold contents. replace n with (n - 1 + 1) at 1 by lia. rewrite zrange_snoc by lia. rewrite map_app. cbn [map].
        rewrite (zrange_cons 0 (n - 1)) by lia. cbn [map app].
        constructor. unfold a1 at 1. rewrite elem_upd_same. rewrite Permutation_app_comm. cbn [app]. constructor.
        erewrite map_ext_in; [reflexivity|]. intros i Hi. apply in_zrange in Hi. symmetry. apply V. lia.
    + intros x Hx. apply (Permutation_in _ (Permutation_sym P)) in Hx. apply contents_in in Hx.
      destruct Hx as (i & Hi & <-). apply (heap_min a n K (Z.to_nat n)); lia.
Qed.

Lemma heap_size a n l : Heap a n l -> n = Z.of_nat (length l).
Proof.
  intros (cap & _ & _ & Hn & _ & P). apply Permutation_length in P. unfold contents in P.
  rewrite map_length, zrange_length in P. lia.
Qed.
Lemma heap_perm a n l l' : Heap a n l -> Permutation l l' -> Heap a n l'.
Proof. intros (cap & A & B & Cc & D & P) Q. exists cap. repeat split; auto; try lia. now rewrite P. Qed.

(** *** Smooth numbers *)
Lemma prime_5 : prime 5.
Proof.
  apply prime_alt. split; [lia|]. intros n Hn D. apply Zdivide_mod in D.
  assert (n = 2 \/ n = 3 \/ n = 4) as [->|[->| ->]] by lia; discriminate.
Qed.
Lemma prime_7 : prime 7.
Proof.
  apply prime_alt. split; [lia|]. intros n Hn D. apply Zdivide_mod in D.
  assert (n = 2 \/ n = 3 \/ n = 4 \/ n = 5 \/ n = 6) as [->|[->|[->|[->| ->]]]] by lia; discriminate.
Qed.
Lemma prime_11 : prime 11.
Proof.
  apply prime_alt. split; [lia|]. intros n Hn D. apply Zdivide_mod in D.
  assert (n = 2 \/ n = 3 \/ n = 4 \/ n = 5 \/ n = 6 \/ n = 7 \/ n = 8 \/ n = 9 \/ n = 10) as K by lia.
  repeat (destruct K as [->|K]; [discriminate|]). subst. discriminate.
Qed.
Lemma primes_prime p : In p primes -> prime p.
Proof.
  intros [<-|[<-|[<-|[<-|[<-|[]]]]]]; [apply prime_2|apply prime_3|apply prime_5|apply prime_7|apply prime_11].
Qed.

Lemma prime_factor : forall k s, 1 < s < Z.of_nat k -> exists p, prime p /\ (p | s).
Proof.
  induction k as [|k IH]; intros s Hs; [lia|].
  destruct (prime_dec s) as [P|P]; [exists s; split; [exact P|apply Z.divide_refl]|].
  destruct (not_prime_divide s ltac:(lia) P) as (n & Hn & D).
  destruct (IH n ltac:(lia)) as (p & Pp & Dp). exists p. split; [exact Pp|]. now apply (Z.divide_trans _ n).
Qed.

Lemma smooth_1 : smooth 1.
Proof.
  split; [lia|]. intros p Hp D. apply Z.divide_1_r_nonneg in D; [|destruct Hp; lia]. destruct Hp; lia.
Qed.
Lemma smooth_mul a p : smooth a -> In p primes -> smooth (a * p).
Proof.
  intros [A1 A2] Hp. pose proof (primes_prime p Hp) as Pp. split; [destruct Pp; nia|].
  intros q Pq D. apply prime_mult in D; [|exact Pq]. destruct D as [D|D]; [now apply A2|].
  rewrite (prime_div_prime q p Pq Pp D). exact Hp.
Qed.
Lemma smooth_split s : smooth s -> s <> 1 -> exists p t, In p primes /\ s = t * p /\ smooth t /\ t < s.
Proof.
  intros [S1 S2] NE. destruct (prime_factor (Z.to_nat (s + 1)) s ltac:(lia)) as (p & Pp & (t & ->)).
  exists p, t. assert (1 < p) by (destruct Pp; lia). split; [apply S2; [exact Pp|apply Z.divide_factor_r]|].
  split; [reflexivity|]. split; [|nia]. split; [nia|]. intros q Pq D. apply S2; [exact Pq|]. now apply Z.divide_mul_l.
Qed.
Lemma primes_ge p : In p primes -> 2 <= p <= 11.
Proof. intros [<-|[<-|[<-|[<-|[<-|[]]]]]]; lia. Qed.

(** *** The search loop *)
(** reachable from h by multiplying with the primes *)
Definition below (h v : Z) : Prop := exists s, smooth s /\ v = h * s.

Lemma insert_multiples_lemma next limit : forall ps a n l, Heap a n l ->
  exists a' n' l', insert_multiples ps next limit (a, n) = Some (a', n') /\ Heap a' n' l' /\
    (forall x, In x l' <-> In x l \/ exists p, In p ps /\ x = next * p /\ x <= limit) /\
    (length l' <= length l + length ps)%nat.
Proof.
  induction ps as [|p ps IH]; intros a n l H; cbn [insert_multiples fst snd].
  - exists a, n, l. split; [reflexivity|]. split; [exact H|]. split; [|lia]. intro x. split; [now left|].
    intros [?|(p & [] & _)]; auto.
  - destruct (Z.leb_spec (next * p) limit) as [L|L]; cbn [bind].
    + destruct (insert_lemma a n l (next * p) H) as (a1 & E & H1). rewrite E. cbn [bind].
      destruct (IH a1 (n + 1) (next * p :: l) H1) as (a2 & n2 & l2 & E2 & H2 & I2 & L2).
      exists a2, n2, l2. split; [exact E2|]. split; [exact H2|]. split; [|cbn in L2 |- *; lia].
      intro x. rewrite I2. cbn [In]. split.
      * intros [[<-|Q]|(q & Q1 & Q2 & Q3)]; [right; exists p; auto|now left|right; exists q; auto].
      * intros [Q|(q & [<-|Q1] & Q2 & Q3)]; [auto|left; left; congruence|right; exists q; auto].
    + destruct (IH a n l H) as (a2 & n2 & l2 & E2 & H2 & I2 & L2).
      exists a2, n2, l2. split; [exact E2|]. split; [exact H2|]. split; [|cbn; lia].
      intro x. rewrite I2. cbn [In]. split.
      * intros [Q|(q & Q1 & Q2 & Q3)]; [now left|right; exists q; auto].
      * intros [Q|(q & [<-|Q1] & Q2 & Q3)]; [auto|lia|right; exists q; auto].
Qed.

Lemma even_smooth_2 v : even_smooth v -> below 2 v.
Proof.
  intros [[S1 S2] (t & ->)]. exists t. split; [|ring]. split; [lia|]. intros p Pp D. apply S2; [exact Pp|]. now apply Z.divide_mul_l.
Qed.
Lemma below_even_smooth h s : even_smooth h -> smooth s -> even_smooth (h * s).
Proof.
  intros [[H1 H2] H3] [S1 S2]. split; [|now apply Z.divide_mul_l]. split; [nia|].
  intros p Pp D. apply prime_mult in D; [|exact Pp]. destruct D; auto.
Qed.
Lemma smooth_prime p : In p primes -> smooth p.
Proof. intro H. replace p with (1 * p) by lia. apply smooth_mul; [apply smooth_1|exact H]. Qed.

Lemma pad_loop_lemma N limit : limit = N * 2 -> forall fuel a n l prev next,
  Heap a n l -> 0 <= prev -> prev < N \/ prev = 0 ->
  (forall h, In h l -> even_smooth h /\ prev <= h /\ (h <= limit \/ h = 2)) ->
  (forall v, even_smooth v -> v <= limit -> v <= prev \/ exists h, In h l /\ below h v) ->
  (0 < prev -> forall p, In p primes -> prev * p <= limit -> In (prev * p) l) ->
  (prev = 0 -> In 2 l) ->
  n + 6 * (Z.max N 0 - prev) < Z.of_nat fuel ->
  exists r, pad_loop fuel N limit (a, n) prev next = Some r /\ even_smooth r /\ N <= r /\ (r <= limit \/ r = 2) /\
    forall v, even_smooth v -> N <= v -> r <= v.
Proof.
  intro HL. induction fuel as [|f IH]; intros a n l prev next H P0 PN IN COV CH I2 FU.
  { pose proof (heap_size a n l H). lia. }
  cbn [pad_loop fst snd].
  assert (NE : l <> []).
  { destruct (Z.eq_dec prev 0) as [Z0|Z0]; [intro Q; rewrite Q in I2; now apply I2|].
    intro Q. assert (In (prev * 2) l) as K by (apply CH; [lia|cbn; auto|lia]). rewrite Q in K. exact K. }
  assert (n > 0) as Pn by (pose proof (heap_size a n l H); destruct l; [contradiction|cbn in *; lia]).
  replace (n >? 0) with true by lia.
  destruct (extract_lemma a n l H ltac:(lia)) as (m & a1 & l1 & E & H1 & PE & MIN). rewrite E. cbn [bind].
  assert (Im : In m l) by (apply (Permutation_in _ (Permutation_sym PE)); now left).
  destruct (IN m Im) as (Em & Gm & Lm).
  assert (SUB : forall x, In x l1 -> In x l) by (intros x Hx; apply (Permutation_in _ (Permutation_sym PE)); now right).
  destruct (Z.geb_spec m N) as [G|G].
  - exists m. split; [reflexivity|]. split; [exact Em|]. split; [lia|]. split; [exact Lm|].
    intros v Ev Hv. destruct (Z.le_gt_cases m v) as [?|LT]; [assumption|]. exfalso.
    assert (0 < v) by (destruct Ev as [[? _] _]; assumption).
    assert (VL : v <= limit \/ m = 2) by lia.
    destruct VL as [VL|VL]; [|destruct Ev as [_ (t & ->)]; lia].
    destruct (COV v Ev VL) as [Q|(h & Ih & s & [Ss _] & ->)].
    + destruct PN as [?|?]; lia.
    + pose proof (MIN h Ih). assert (0 < h) by (destruct (IN h Ih) as ((( ? & _) & _) & _); assumption). nia.
  - assert (LM : m <= limit) by (destruct Lm; [assumption|lia]).
    assert (Pm : 0 < m) by (destruct Em as [[? _] _]; assumption).
    destruct (Z.eqb_spec m prev) as [Q|Q].
    + (* a duplicate *)
      apply (IH a1 (n - 1) l1); auto; try lia.
      * intros v Ev Lv. destruct (COV v Ev Lv) as [?|(h & Ih & B)]; [now left|].
        apply (Permutation_in _ PE) in Ih. destruct Ih as [<-|Ih]; [|right; exists h; auto].
        destruct B as (s & Ss & ->). destruct (Z.eq_dec s 1) as [->|N1]; [left; lia|].
        destruct (smooth_split s Ss N1) as (p & t & Ip & -> & St & Lt). right. exists (prev * p). split.
        -- assert (Ig : In (prev * p) l).
           { apply CH; auto; [lia|]. subst m. assert (0 < t) by (destruct St; assumption). pose proof (primes_ge p Ip). nia. }
           apply (Permutation_in _ PE) in Ig. destruct Ig as [K|K]; [|exact K]. pose proof (primes_ge p Ip). nia.
        -- exists t. split; [exact St|]. subst m. ring.
      * intros Pp p Ip Lp. assert (Ig : In (prev * p) l) by (apply CH; auto).
        apply (Permutation_in _ PE) in Ig. destruct Ig as [K|K]; [|exact K]. pose proof (primes_ge p Ip). nia.
    + destruct (insert_multiples_lemma m limit primes a1 (n - 1) l1 H1) as (a2 & n2 & l2 & E2 & H2 & I2' & L2).
      rewrite E2. cbn [bind].
      pose proof (heap_size _ _ _ H1) as Z1. pose proof (heap_size _ _ _ H2) as Z2. cbn [length primes] in L2.
      apply (IH a2 n2 l2); auto; try lia.
      * intros h Ih. apply I2' in Ih. destruct Ih as [Ih|(p & Ip & -> & Lp)].
        -- destruct (IN h (SUB h Ih)) as (A & B & D). split; [exact A|]. split; [now apply MIN, SUB|exact D].
        -- split; [apply below_even_smooth; [exact Em|now apply smooth_prime]|]. pose proof (primes_ge p Ip). split; [nia|now left].
      * intros v Ev Lv. destruct (COV v Ev Lv) as [?|(h & Ih & B)]; [left; lia|].
        apply (Permutation_in _ PE) in Ih. destruct Ih as [<-|Ih]; [|right; exists h; split; [apply I2'; now left|exact B]].
        destruct B as (s & Ss & ->). destruct (Z.eq_dec s 1) as [->|N1]; [left; lia|].
        destruct (smooth_split s Ss N1) as (p & t & Ip & -> & St & Lt). right. exists (m * p). split.
        -- apply I2'. right. exists p. split; [exact Ip|]. split; [reflexivity|].
           assert (0 < t) by (destruct St; assumption). pose proof (primes_ge p Ip). nia.
        -- exists t. split; [exact St|]. ring.
      * intros Pp p Ip Lp. apply I2'. right. exists p. auto.
Qed.

Lemma Heap_empty junk : Heap (mk_nd [100] junk) 0 [].
Proof. exists 100. split; [reflexivity|]. split; [lia|]. split; [lia|]. split; [intros i Hi; lia|reflexivity]. Qed.

Lemma padded_lemma junk n f : let N := Qceiling (inject_Z n * f) in
  exists r, fft_padded_size junk n f = Some r /\ even_smooth r /\ N <= r /\ (r <= 2 * N \/ r = 2) /\
    forall v, even_smooth v -> N <= v -> r <= v.
Proof.
  intro N. unfold fft_padded_size. fold N.
  destruct (insert_lemma _ 0 [] 2 (Heap_empty junk)) as (a & E & H). rewrite E. cbn [bind].
  assert (E2 : even_smooth 2) by (split; [apply smooth_prime; cbn; auto|exists 1; reflexivity]).
  destruct (pad_loop_lemma N (N * 2) eq_refl (8 + 6 * Z.to_nat N) a 1 [2] 0 0) as (r & Er & A & B & D & F); auto; try lia.
  - intros h [<-|[]]. split; [exact E2|]. split; [lia|now right].
  - intros v Ev Lv. right. exists 2. split; [now left|now apply even_smooth_2].
  - intros _. now left.
  - exists r. split; [exact Er|]. split; [exact A|]. split; [exact B|]. split; [lia|exact F].
Qed.

(** *** sdp_good_size_complex *)
Lemma double_up_lemma n : forall fuel f, 0 < f -> Z.max 0 (n - f) < Z.of_nat fuel ->
  exists a, 0 <= a /\ double_up fuel n f = Some (f * 2 ^ a) /\ n <= f * 2 ^ a /\ (a <= Z.max 0 (n - f)).
Proof.
  induction fuel as [|k IH]; intros f Hf Hn; cbn [double_up]; [lia|].
  destruct (Z.ltb_spec f n) as [L|L].
  - destruct (IH (f * 2)) as (a & A & E & G & B); [lia|lia|]. exists (a + 1). split; [lia|].
    rewrite Z.pow_add_r by lia. rewrite E. split; [f_equal; ring|]. split; [lia|lia].
  - exists 0. split; [lia|]. rewrite Z.pow_0_r, Z.mul_1_r. split; [reflexivity|]. split; lia.
Qed.

Lemma land1_odd x : Z.land x 1 = 1 <-> Z.odd x = true.
Proof.
  change 1 with (Z.ones 1) at 1. rewrite Z.land_ones by lia. change (2 ^ 1) with 2. rewrite Zmod_odd.
  destruct (Z.odd x); split; intro; try lia; discriminate.
Qed.

Definition odd_pos (f : Z) : Prop := 0 < f /\ Z.odd f = true.

(** what a loop over candidates promises: a result not above the old one, still admissible, and not
    above any candidate *)
Definition admissible (n b : Z) : Prop := b = 2 * n \/ smooth b /\ n <= b.
Definition good_for (n best : Z) (S : Z -> Prop) (r : good_res) : Prop :=
  match r with
  | Ret => smooth n
  | Best b => b <= best /\ admissible n b /\ forall s, S s -> n <= s -> b <= s
  end.
Definition S3 (f s : Z) : Prop := exists i j, 0 <= i /\ 0 <= j /\ s = f * 2 ^ i * 3 ^ j.

Lemma smooth_pow2 f i : smooth f -> 0 <= i -> smooth (f * 2 ^ i).
Proof.
  intros Hf Hi. pattern i. apply natlike_ind; [| |exact Hi].
  - now rewrite Z.pow_0_r, Z.mul_1_r.
  - intros x Hx IH. rewrite Z.pow_succ_r by lia. replace (f * (2 * 2 ^ x)) with (f * 2 ^ x * 2) by ring. apply smooth_mul; [exact IH|cbn; auto].
Qed.
Lemma smooth_pow3 f i : smooth f -> 0 <= i -> smooth (f * 3 ^ i).
Proof.
  intros Hf Hi. pattern i. apply natlike_ind; [| |exact Hi].
  - now rewrite Z.pow_0_r, Z.mul_1_r.
  - intros x Hx IH. rewrite Z.pow_succ_r by lia. replace (f * (3 * 3 ^ x)) with (f * 3 ^ x * 3) by ring. apply smooth_mul; [exact IH|cbn; auto].
Qed.

Lemma pow_ge1 b i : 0 < b -> 0 <= i -> 1 <= b ^ i.
Proof. intros Hb Hi. pose proof (Z.pow_pos_nonneg b i). lia. Qed.
Lemma odd_pow3 i : 0 <= i -> Z.odd (3 ^ i) = true.
Proof.
  intro H. pattern i. apply natlike_ind; [reflexivity| |exact H].
  intros x Hx IH. rewrite Z.pow_succ_r by lia. rewrite Z.odd_mul, IH. reflexivity.
Qed.
Lemma pow_mono3 i j : 0 <= i <= j -> 3 ^ i <= 3 ^ j.
Proof. intro H. apply Z.pow_le_mono_r; lia. Qed.
Lemma pow3_gt i : 0 <= i -> i < 3 ^ i.
Proof. intro H. apply Z.pow_gt_lin_r; lia. Qed.

Lemma descend_lemma n f : 12 < n -> odd_pos f -> smooth f -> forall fuel a b best, 0 <= a -> 0 <= b ->
  best <= 2 * n -> admissible n best ->
  (forall i j, 0 <= i -> 0 <= j < b -> n <= f * 2 ^ i * 3 ^ j -> best <= f * 2 ^ i * 3 ^ j) ->
  best <= f * 2 ^ (a + 1) * 3 ^ b ->
  (b = 0 \/ f * 3 ^ (b - 1) < n) ->
  a + (3 * n - b) < Z.of_nat fuel ->
  exists r, descend fuel n (f * 2 ^ a * 3 ^ b) best = Some r /\ good_for n best (S3 f) r.
Proof.
  intros Hn [Hf Of] Sf. induction fuel as [|k IH]; intros a b best Ha Hb HB AD CA CB BB FU.
  { exfalso. destruct BB as [->|BB]; [lia|]. pose proof (pow3_gt (b - 1)). assert (b - 1 < n) by nia. lia. }
  cbn [descend]. set (x := f * 2 ^ a * 3 ^ b).
  assert (P2 : 1 <= 2 ^ a) by (apply pow_ge1; lia). assert (P3 : 1 <= 3 ^ b) by (apply pow_ge1; lia).
  destruct (Z.ltb_spec x n) as [L|L].
  - replace (x * 3) with (f * 2 ^ a * 3 ^ (b + 1)) by (unfold x; rewrite (Z.pow_add_r 3 b 1) by lia; change (3 ^ 1) with 3; ring).
    apply IH; auto; try lia.
    + intros i j Hi Hj Hv. destruct (Z.eq_dec j b) as [->|NE]; [|apply CA; auto; lia].
      destruct (Z.le_gt_cases i a) as [LE|GT].
      * exfalso. assert (2 ^ i <= 2 ^ a) by (apply Z.pow_le_mono_r; lia). unfold x in L.
        assert (f * 2 ^ i * 3 ^ b <= f * 2 ^ a * 3 ^ b) by (apply Z.mul_le_mono_nonneg_r; [lia|nia]). lia.
      * assert (2 ^ (a + 1) <= 2 ^ i) by (apply Z.pow_le_mono_r; lia).
        assert (f * 2 ^ (a + 1) * 3 ^ b <= f * 2 ^ i * 3 ^ b) by (apply Z.mul_le_mono_nonneg_r; [lia|nia]). lia.
    + rewrite (Z.pow_add_r 3 b 1) by lia. change (3 ^ 1) with 3.
      assert (1 <= 2 ^ (a + 1)) by (apply pow_ge1; lia). assert (0 < f * 2 ^ (a + 1) * 3 ^ b) by nia. nia.
    + right. replace (b + 1 - 1) with b by lia. unfold x in L. nia.
  - assert (SX : smooth x) by (unfold x; apply smooth_pow3, Hb; apply smooth_pow2; assumption).
    destruct (Z.gtb_spec x n) as [G|G].
    + set (best' := if x <? best then x else best).
      assert (B1 : best' <= best /\ best' <= x) by (unfold best'; destruct (Z.ltb_spec x best); lia).
      assert (AD' : admissible n best') by (unfold best'; destruct (x <? best); [right; split; [exact SX|lia]|exact AD]).
      destruct (Z.eqb_spec (Z.land x 1) 1) as [O|O].
      * apply land1_odd in O. assert (a = 0) as ->.
        { destruct (Z.eq_dec a 0) as [?|NE]; [assumption|exfalso]. unfold x in O.
          replace a with (1 + (a - 1)) in O by lia. rewrite Z.pow_add_r in O by lia. change (2 ^ 1) with 2 in O.
          rewrite !Z.odd_mul in O. cbn [Z.odd] in O. rewrite andb_false_l in O. rewrite andb_comm in O. cbn [andb] in O.
          destruct (Z.odd (3 ^ b)), (Z.odd f); discriminate. }
        exists (Best best'). split; [reflexivity|]. split; [lia|]. split; [exact AD'|].
        intros s (i & j & Hi & Hj & ->) Hs. destruct (Z.lt_ge_cases j b) as [LT|GE].
        -- specialize (CA i j Hi ltac:(lia) Hs). lia.
        -- assert (3 ^ b <= 3 ^ j) by (apply pow_mono3; lia). assert (1 <= 2 ^ i) by (apply pow_ge1; lia).
           unfold x in *. rewrite Z.pow_0_r in *. assert (f * 1 * 3 ^ b <= f * 2 ^ i * 3 ^ j) by (apply Z.mul_le_mono_nonneg; nia). lia.
      * assert (Pa : 0 < a).
        { destruct (Z.eq_dec a 0) as [->|NE]; [exfalso|lia]. apply O. apply land1_odd. unfold x. rewrite !Z.odd_mul, Of, odd_pow3 by lia. reflexivity. }
        assert (EX : x = f * 2 ^ (a - 1) * 3 ^ b * 2).
        { unfold x. replace a with (a - 1 + 1) at 1 by lia. rewrite Z.pow_add_r by lia. change (2 ^ 1) with 2. ring. }
        rewrite Z.shiftr_div_pow2 by lia. change (2 ^ 1) with 2. rewrite EX, Z.div_mul by lia.
        destruct (IH (a - 1) b best') as (r & E & GF); auto; try lia.
        -- intros i j Hi Hj Hv. specialize (CA i j Hi Hj Hv). lia.
        -- replace (a - 1 + 1) with a by lia. fold x. lia.
        -- exists r. split; [exact E|]. destruct r as [|b']; [exact GF|]. destruct GF as (A & B & D). split; [lia|]. split; [exact B|exact D].
    + exists Ret. split; [reflexivity|]. cbn. now replace n with x by lia.
Qed.

Lemma inner_lemma n f best : 12 < n -> odd_pos f -> smooth f -> f < best -> best <= 2 * n -> admissible n best ->
  exists r, good_inner n f best = Some r /\ good_for n best (S3 f) r.
Proof.
  intros Hn Of Sf Hb HB AD. unfold good_inner. pose proof Of as [Pf _].
  destruct (double_up_lemma n (S (Z.to_nat n)) f Pf ltac:(lia)) as (a & Ha & E & G & B). rewrite E. cbn [bind].
  replace (f * 2 ^ a) with (f * 2 ^ a * 3 ^ 0) by (rewrite Z.pow_0_r; ring).
  apply descend_lemma; auto; try lia.
  rewrite Z.pow_0_r, Z.pow_add_r by lia. change (2 ^ 1) with 2. lia.
Qed.

Definition Sk (k : Z) (S : Z -> Z -> Prop) (f s : Z) : Prop := exists u, 0 <= u /\ S (f * k ^ u) s.

Lemma mul_loop_lemma n k (body : Z -> Z -> option good_res) (S : Z -> Z -> Prop) : 12 < n -> Z.odd k = true -> In k primes ->
  (forall f best, odd_pos f -> smooth f -> f < best -> best <= 2 * n -> admissible n best ->
    exists r, body f best = Some r /\ good_for n best (S f) r) ->
  (forall f s, 0 < f -> S f s -> f <= s) ->
  forall fuel f best, odd_pos f -> smooth f -> best <= 2 * n -> admissible n best -> Z.max 0 (2 * n - f) < Z.of_nat fuel ->
  exists r, mul_loop fuel k body f best = Some r /\ good_for n best (Sk k S f) r.
Proof.
  intros Hn Ok Ik BODY SGE. pose proof (primes_ge k Ik) as Pk.
  induction fuel as [|fu IH]; intros f best [Pf Of] Sf HB AD FU; cbn [mul_loop].
  { lia. }
  destruct (Z.ltb_spec f best) as [L|L].
  - destruct (BODY f best (conj Pf Of) Sf L HB AD) as (r & E & G). rewrite E. cbn [bind].
    destruct r as [|b]; [exists Ret; split; [reflexivity|exact G]|]. destruct G as (G1 & G2 & G3).
    destruct (IH (f * k) b) as (r & E2 & GF).
    + split; [nia|]. rewrite Z.odd_mul, Of, Ok. reflexivity.
    + now apply smooth_mul.
    + lia.
    + exact G2.
    + nia.
    + exists r. split; [exact E2|]. destruct r as [|b']; [exact GF|]. destruct GF as (A & B & D). split; [lia|]. split; [exact B|].
      intros s (u & Hu & Hs) Hns. destruct (Z.eq_dec u 0) as [->|NE].
      * rewrite Z.pow_0_r, Z.mul_1_r in Hs. specialize (G3 s Hs Hns). lia.
      * apply D; [|exact Hns]. exists (u - 1). split; [lia|]. replace u with (1 + (u - 1)) in Hs by lia.
        rewrite Z.pow_add_r in Hs by lia. rewrite Z.pow_1_r, Z.mul_assoc in Hs. exact Hs.
  - exists (Best best). split; [reflexivity|]. split; [lia|]. split; [exact AD|].
    intros s (u & Hu & Hs) Hns. assert (1 <= k ^ u) by (apply pow_ge1; lia). apply SGE in Hs; nia.
Qed.

Definition fam (s : Z) : Prop := Sk 11 (Sk 7 (Sk 5 S3)) 1 s.
Lemma smooth_fam : forall k s, s < Z.of_nat k -> smooth s -> fam s.
Proof.
  induction k as [|k IH]; intros s Hk Ss; [destruct Ss; lia|].
  destruct (Z.eq_dec s 1) as [->|N1].
  { exists 0. split; [lia|]. exists 0. split; [lia|]. exists 0. split; [lia|]. exists 0, 0. repeat split; lia. }
  destruct (smooth_split s Ss N1) as (p & t & Ip & -> & St & Lt).
  destruct (IH t ltac:(lia) St) as (u & Hu & v & Hv & w & Hw & i & j & Hi & Hj & E).
  assert (SU : forall b e, 0 <= e -> b ^ (e + 1) = b ^ e * b) by (intros b e He; rewrite Z.pow_add_r by lia; now rewrite Z.pow_1_r).
  destruct Ip as [<-|[<-|[<-|[<-|[<-|[]]]]]].
  - exists u. split; [lia|]. exists v. split; [lia|]. exists w. split; [lia|]. exists (i + 1), j. split; [lia|]. split; [lia|]. rewrite SU, E by lia. ring.
  - exists u. split; [lia|]. exists v. split; [lia|]. exists w. split; [lia|]. exists i, (j + 1). split; [lia|]. split; [lia|]. rewrite SU, E by lia. ring.
  - exists u. split; [lia|]. exists v. split; [lia|]. exists (w + 1). split; [lia|]. exists i, j. split; [lia|]. split; [lia|]. rewrite SU, E by lia. ring.
  - exists u. split; [lia|]. exists (v + 1). split; [lia|]. exists w. split; [lia|]. exists i, j. split; [lia|]. split; [lia|]. rewrite SU, E by lia. ring.
  - exists (u + 1). split; [lia|]. exists v. split; [lia|]. exists w. split; [lia|]. exists i, j. split; [lia|]. split; [lia|]. rewrite SU, E by lia. ring.
Qed.

Lemma mul_ge f a : 0 < f -> 1 <= a -> f <= f * a.
Proof. intros. nia. Qed.
Lemma S3_ge f s : 0 < f -> S3 f s -> f <= s.
Proof.
  intros Hf (i & j & Hi & Hj & ->). pose proof (pow_ge1 2 i). pose proof (pow_ge1 3 j).
  pose proof (mul_ge f (2 ^ i)). pose proof (mul_ge (f * 2 ^ i) (3 ^ j)). lia.
Qed.
Lemma Sk_ge k (S : Z -> Z -> Prop) f s : 0 < k -> (forall f s, 0 < f -> S f s -> f <= s) -> 0 < f -> Sk k S f s -> f <= s.
Proof.
  intros Hk H Hf (u & Hu & Hs). pose proof (pow_ge1 k u Hk Hu). pose proof (mul_ge f (k ^ u)). apply H in Hs; lia.
Qed.

Lemma good_size_lemma n : 12 < n -> exists r, good_size_complex n = Some r /\ smooth r /\ n <= r < 2 * n /\
  forall v, smooth v -> n <= v -> r <= v.
Proof.
  intro Hn. unfold good_size_complex. replace (n <=? 12) with false by lia.
  set (fu := S (Z.to_nat (2 * n))).
  assert (L5 : forall f best, odd_pos f -> smooth f -> f < best -> best <= 2 * n -> admissible n best ->
    exists r, mul_loop fu 5 (good_inner n) f best = Some r /\ good_for n best (Sk 5 S3 f) r).
  { intros f best Of Sf Hf HB AD. apply mul_loop_lemma; auto; try reflexivity.
    - cbn; auto.
    - intros f0 b0 ? ? ? ? ?. now apply inner_lemma.
    - apply S3_ge.
    - unfold fu. destruct Of. lia. }
  assert (L7 : forall f best, odd_pos f -> smooth f -> f < best -> best <= 2 * n -> admissible n best ->
    exists r, mul_loop fu 7 (mul_loop fu 5 (good_inner n)) f best = Some r /\ good_for n best (Sk 7 (Sk 5 S3) f) r).
  { intros f best Of Sf Hf HB AD. apply mul_loop_lemma; auto; try reflexivity.
    - cbn; auto.
    - intros f0 s. apply Sk_ge; [lia|apply S3_ge].
    - unfold fu. destruct Of. lia. }
  destruct (mul_loop_lemma n 11 (mul_loop fu 7 (mul_loop fu 5 (good_inner n))) (Sk 7 (Sk 5 S3)) Hn) with (fuel := fu) (f := 1) (best := 2 * n)
    as (r & E & G); auto; try reflexivity; try lia.
  - cbn; auto 6.
  - intros f0 s H0. apply Sk_ge; [lia| |exact H0]. intros f1 s1. apply Sk_ge; [lia|apply S3_ge].
  - split; [lia|reflexivity].
  - apply smooth_1.
  - now left.
  - rewrite E. cbn [bind]. destruct r as [|b].
    + exists n. split; [reflexivity|]. split; [exact G|]. split; [lia|]. auto.
    + destruct G as (G1 & G2 & G3). exists b. split; [reflexivity|].
      assert (MIN : forall v, smooth v -> n <= v -> b <= v).
      { intros v Sv Hv. apply G3; [|exact Hv]. apply (smooth_fam (Z.to_nat (v + 1))); [lia|exact Sv]. }
      (* a power of two lies between n and 2 n *)
      assert (LT : b < 2 * n).
      { pose proof (Z.log2_spec (n - 1) ltac:(lia)) as [Q1 Q2]. pose proof (Z.log2_nonneg (n - 1)) as Q3.
        rewrite Z.pow_succ_r in Q2 by assumption.
        assert (b <= 2 ^ (Z.succ (Z.log2 (n - 1)))).
        { apply MIN; [|rewrite Z.pow_succ_r by assumption; lia].
          replace (2 ^ Z.succ (Z.log2 (n - 1))) with (1 * 2 ^ Z.succ (Z.log2 (n - 1))) by ring.
          apply smooth_pow2; [apply smooth_1|lia]. }
        rewrite Z.pow_succ_r in H by assumption. lia. }
      destruct G2 as [G2|[G2 G2']]; [lia|]. split; [exact G2|]. split; [lia|exact MIN].
Qed.

Lemma smooth_small n : 1 <= n <= 12 -> smooth n.
Proof.
  intro H. assert (n = 1 \/ n = 2 \/ n = 3 \/ n = 2 * 2 \/ n = 5 \/ n = 2 * 3 \/ n = 7 \/ n = 2 * 2 * 2 \/ n = 3 * 3 \/ n = 2 * 5 \/ n = 11 \/ n = 2 * 2 * 3) as K by lia.
  repeat (destruct K as [->|K]); subst; try apply smooth_1;
    repeat (apply smooth_mul; [|cbn; auto 6]); try apply smooth_1; apply smooth_prime; cbn; auto 6.
Qed.
