(** The memory of a failing plan creation *)
From Coq Require Import Reals QArith Lia.
From Verif Require Import Base Mem MemFacts Clamp EsParams EsPlan EsBuffers EsBuffersSpec EsBuffersFacts.
Open Scope Z_scope.

(** [f]: the sizes of the live blocks since [h0] *)
Definition grown (h0 h : heap) (f : Z -> option Z) : Prop :=
  h_next h0 <= h_next h /\ (forall b, b < h_next h0 -> h_blk h b = h_blk h0 b) /\
  (forall b, h_next h0 <= b < h_next h -> f b = if b_live (h_blk h b) then Some (b_size (h_blk h b)) else None) /\
  (forall b n, f b = Some n -> h_next h0 <= b < h_next h).

Lemma grown_none h : grown h h (fun _ => None).
Proof. split; [lia|]. split; [auto|]. split; [intros; lia|discriminate]. Qed.
Lemma grown_calloc h0 h f n : grown h0 h f -> exists h', h_calloc h n = (h', (h_next h, 0)) /\ h_next h' = h_next h + 1 /\ grown h0 h' (fun b => if b =? h_next h then Some n else f b).
Proof.
  intros (L & A & B & D). unfold h_calloc. eexists. split; [reflexivity|]. cbn [h_next]. split; [reflexivity|]. split; [cbn [h_next]; lia|]. cbn [h_next h_blk]. split; [|split].
  - intros b Hb. replace (b =? h_next h) with false by lia. now apply A.
  - intros b Hb. destruct (b =? h_next h) eqn:E; [reflexivity|]. apply B. lia.
  - intros b m. destruct (b =? h_next h) eqn:E; [intros _; lia|]. intro F. apply D in F. lia.
Qed.
Lemma grown_store h0 h f b n len g : grown h0 h f -> f b = Some n -> len <= n -> exists h', h_store h (b, 0) len g = Some h' /\ h_next h' = h_next h /\ grown h0 h' f.
Proof.
  intros (L & A & B & D) F Hn. assert (R := D b n F). pose proof (B b R) as E. rewrite F in E. destruct (b_live (h_blk h b)) eqn:Lv; [|discriminate]. injection E as E.
  unfold h_store, h_ok. cbn [fst snd]. rewrite Lv. replace (0 <=? 0) with true by reflexivity. replace (0 + len <=? _) with true by lia. cbn [andb]. eexists. split; [reflexivity|].
  unfold set_blk. cbn [h_next]. split; [reflexivity|]. split; [exact L|]. cbn [h_blk h_next]. split; [|split; [|exact D]].
  - intros x Hx. replace (x =? b) with false by lia. now apply A.
  - intros x Hx. destruct (x =? b) eqn:X; [|now apply B]. apply Z.eqb_eq in X. subst x. cbn [b_live b_size]. now rewrite F, E.
Qed.
Lemma grown_free h0 h f b n : grown h0 h f -> f b = Some n -> exists h', h_free h (b, 0) = Some h' /\ h_next h' = h_next h /\ grown h0 h' (fun x => if x =? b then None else f x).
Proof.
  intros (L & A & B & D) F. assert (R := D b n F). pose proof (B b R) as E. rewrite F in E. destruct (b_live (h_blk h b)) eqn:Lv; [|discriminate]. injection E as E.
  unfold h_free. rewrite Lv. cbn [andb Z.eqb]. eexists. split; [reflexivity|]. unfold set_blk. cbn [h_next]. split; [reflexivity|]. split; [exact L|]. cbn [h_blk h_next]. split; [|split].
  - intros x Hx. replace (x =? b) with false by lia. now apply A.
  - intros x Hx. destruct (x =? b) eqn:X; [reflexivity|]. now apply B.
  - intros x m. destruct (x =? b); [discriminate|apply D].
Qed.

(** Handles of the CPU arrays *)
Definition cpu_handle (ty n b : Z) : mem := mk_mem ty MEM_CPU true true false 1 n 1 [n] [type_size ty] (Some (b, 0)).
Definition gpu_handle (ty : Z) (sh st : list Z) (n : Z) : mem := mk_mem ty MEM_GPU true true false (Z.of_nat (length sh)) n 1 sh st None.

Lemma create_cpu h ty n : 0 < n -> ty = MEM_DOUBLE \/ ty = MEM_FLOAT -> mem_create false h ty MEM_CPU [n] SUCCESS = (fst (h_calloc h (n * type_size ty)), cpu_handle ty n (h_next h), SUCCESS).
Proof.
  intros Hn T. assert (P : 0 < type_size ty) by (destruct T as [-> | ->]; reflexivity). unfold mem_create, create_wrapper. replace (ty =? MEM_VOID) with false by (destruct T as [-> | ->]; reflexivity).
  replace (type_size ty <=? 0) with false by lia. cbn [c_strides product fold_right]. rewrite strides_eqb_refl. change (product []) with 1. change (product [n]) with (n * 1).
  unfold mem_alloc. cbn [failed orb m_num_elements m_type m_loc]. rewrite Z.mul_1_r, Z.mul_1_l. replace (n * type_size ty =? 0) with false by nia. cbn [Z.eqb MEM_CPU]. unfold h_calloc, cpu_handle. cbn [fst]. reflexivity.
Qed.
Lemma create_oom h ty n : 0 < n -> ty = MEM_DOUBLE \/ ty = MEM_FLOAT -> exists m, mem_create true h ty MEM_CPU [n] SUCCESS = (h, m, ERR_MEM_ALLOC_FAILURE) /\ m_data m = None.
Proof.
  intros Hn T. assert (P : 0 < type_size ty) by (destruct T as [-> | ->]; reflexivity). unfold mem_create, create_wrapper. replace (ty =? MEM_VOID) with false by (destruct T as [-> | ->]; reflexivity).
  replace (type_size ty <=? 0) with false by lia. cbn [c_strides product fold_right]. rewrite strides_eqb_refl. change (product []) with 1. change (product [n]) with (n * 1).
  unfold mem_alloc. cbn [failed orb m_num_elements m_type m_loc]. rewrite Z.mul_1_r, Z.mul_1_l. replace (n * type_size ty =? 0) with false by nia. cbn [Z.eqb MEM_CPU]. eexists. split; reflexivity.
Qed.
Lemma copy_to_gpu h ty n b st : 0 < n -> ty = MEM_DOUBLE \/ ty = MEM_FLOAT -> st = SUCCESS \/ st = ERR_MEM_LOCATION ->
  create_copy false h (cpu_handle ty n b) MEM_GPU st = Some (h, gpu_handle ty [n] [type_size ty] n, ERR_MEM_LOCATION).
Proof.
  intros Hn T Hst. assert (P : 0 < type_size ty) by (destruct T as [-> | ->]; reflexivity). unfold create_copy, create_wrapper. cbn [m_type cpu_handle m_shape m_stride]. replace (ty =? MEM_VOID) with false by (destruct T as [-> | ->]; reflexivity).
  replace (type_size ty <=? 0) with false by lia. cbn [c_strides]. change (product []) with 1. change (product [n]) with (n * 1). rewrite !Z.mul_1_r, !Z.mul_1_l, strides_eqb_refl.
  unfold mem_alloc. cbn [m_num_elements m_type m_loc]. replace (n * type_size ty =? 0) with false by nia.
  destruct Hst as [-> | ->]; cbn [failed orb Z.eqb MEM_GPU MEM_CPU]; unfold copy_contents; cbn [m_data cpu_handle bind]; reflexivity.
Qed.
Lemma stack_gpu h ty g : exists m, mem_create false h ty MEM_GPU [g; g] ERR_MEM_LOCATION = (h, m, if (ty =? MEM_VOID) || (0 <? type_size ty) then ERR_MEM_LOCATION else ERR_DATA_TYPE) /\ m_data m = None /\ m_ref m = 1.
Proof.
  unfold mem_create, create_wrapper. destruct (ty =? MEM_VOID) eqn:V; [|destruct (type_size ty <=? 0) eqn:Z].
  - cbn. eexists. split; reflexivity || (split; reflexivity).
  - replace (0 <? type_size ty) with false by lia. cbn. eexists. split; reflexivity || (split; reflexivity).
  - replace (0 <? type_size ty) with true by lia. cbn. eexists. split; reflexivity || (split; reflexivity).
Qed.
Lemma free_cpu h0 h f ty n b s : grown h0 h f -> f b = Some s -> exists h', mem_free h (cpu_handle ty n b) = Some (h', None) /\ h_next h' = h_next h /\ grown h0 h' (fun x => if x =? b then None else f x).
Proof. intros G F. destruct (grown_free h0 h f b s G F) as (h' & E & N & G'). exists h'. split; [|auto]. unfold mem_free. cbn [m_ref cpu_handle m_data m_owner m_loc Z.gtb Z.sub]. change (1 - 1 >? 0) with false. cbv iota. cbn [andb Z.eqb MEM_CPU]. rewrite E. reflexivity. Qed.
Lemma free_null h m : m_data m = None -> m_ref m = 1 -> mem_free h m = Some (h, None).
Proof. intros D R. unfold mem_free. cbn [m_ref]. rewrite R, D. reflexivity. Qed.

Ltac sv := cbv beta; repeat match goal with |- (if ?a =? ?b then _ else _) = _ => first [replace (a =? b) with true by lia|replace (a =? b) with false by lia] end; reflexivity.
Ltac st G b sz := match goal with |- context [h_store ?h (b, 0) ?len ?g] => let h' := fresh "h" in let E := fresh in let N := fresh in let G' := fresh in
  destruct (grown_store _ h _ b sz len g G ltac:(sv) ltac:(lia)) as (h' & E & N & G'); rewrite E; cbn [bind]; clear E G; rename G' into G end.
Ltac cr G := match goal with |- context [fst (h_calloc ?h ?len)] => let h' := fresh "h" in let E := fresh in let N := fresh in let G' := fresh in
  destruct (grown_calloc _ h _ len G) as (h' & E & N & G'); rewrite E; cbn [fst]; clear E G; rename G' into G end.

Ltac fr G b sz := match goal with |- context [h_free ?h (b, 0)] => let h' := fresh "h" in let E := fresh in let N := fresh in let G' := fresh in
  destruct (grown_free _ h _ b sz G ltac:(sv)) as (h' & E & N & G'); rewrite E; cbn [bind]; clear E G; rename G' into G end.
Ltac mf G b sz := match goal with |- context [mem_free ?h (cpu_handle ?ty ?k b)] => let h' := fresh "h" in let E := fresh in let N := fresh in let G' := fresh in
  destruct (free_cpu _ h _ ty k b sz G ltac:(sv)) as (h' & E & N & G'); rewrite E; cbn [bind fst]; clear E G; rename G' into G end.

Section Create.
Context (plan_size : Z) (vals : Z -> Z -> Z) (dbl : bool) (vis_type image grid : Z) (h0 : heap) (Hi : 0 <= image) (Hv : 0 < type_size vis_type).
Notation ty := (if dbl then MEM_DOUBLE else MEM_FLOAT).

Lemma ty_cases : ty = MEM_DOUBLE \/ ty = MEM_FLOAT. Proof. destruct dbl; auto. Qed.

Lemma plan_memory_ok : exists h ms, plan_memory (fun _ => false) plan_size vals dbl vis_type image grid h0 SUCCESS = Some (h, ERR_MEM_LOCATION, ms, (h_next h0, 0)) /\
  Forall (fun m => m_data m = None /\ m_ref m = 1) ms /\ exists f, grown h0 h f /\ f (h_next h0) = Some plan_size /\ forall b, b <> h_next h0 -> f b = None.
Proof.
  assert (Hl : 0 < image / 2 + 1) by (assert (0 <= image / 2) by (apply Z.div_pos; lia); lia). pose proof ty_cases as T.
  set (n := h_next h0). unfold plan_memory.
  destruct (grown_calloc h0 h0 _ plan_size (grown_none h0)) as (h1 & E1 & N1 & G1). rewrite E1. clear E1. fold n.
  destruct (grown_calloc h0 h1 _ (32 * 8) G1) as (h2 & E2 & N2 & G2). rewrite E2. clear E2 G1. 
  destruct (grown_calloc h0 h2 _ (32 * 8) G2) as (h3 & E3 & N3 & G3). rewrite E3. clear E3 G2.
  destruct (grown_calloc h0 h3 _ (32 * 8) G3) as (h4 & E4 & N4 & G4). rewrite E4. clear E4 G3.
  destruct (grown_calloc h0 h4 _ ((image / 2 + 1) * 8) G4) as (h5 & E5 & N5 & G5). rewrite E5. clear E5 G4.
  fold n in N1. replace (h_next h1) with (n + 1) in * by lia. replace (h_next h2) with (n + 2) in * by lia. replace (h_next h3) with (n + 3) in * by lia. replace (h_next h4) with (n + 4) in * by lia.
  assert (M5 : h_next h5 = n + 5) by lia. clear N1 N2 N3 N4 N5. fold n in G5.
  st G5 (n + 2) (32 * 8). st G5 (n + 3) (32 * 8). st G5 (n + 1) (32 * 8). st G5 (n + 4) ((image / 2 + 1) * 8).
  cbv zeta. rewrite create_cpu by (assumption || lia). cbv iota beta. cr G5. rewrite create_cpu by (assumption || lia). cbv iota beta. cr G5. rewrite create_cpu by (assumption || lia). cbv iota beta. cr G5.
  rewrite create_cpu by (assumption || lia). cbv iota beta. cr G5.
  replace (h_next h8) with (n + 5) in * by lia. replace (h_next h9) with (n + 6) in * by lia. replace (h_next h10) with (n + 7) in * by lia. replace (h_next h11) with (n + 8) in * by lia.
  unfold fill. cbn [m_data cpu_handle].
  st G5 (n + 5) (32 * type_size ty). st G5 (n + 6) (32 * type_size ty). st G5 (n + 7) (32 * type_size ty). st G5 (n + 8) ((image / 2 + 1) * type_size ty).
  fr G5 (n + 1) (32 * 8). fr G5 (n + 2) (32 * 8). fr G5 (n + 3) (32 * 8). fr G5 (n + 4) ((image / 2 + 1) * 8).
  rewrite copy_to_gpu by (auto || lia). cbn [bind]. cbv iota beta. rewrite copy_to_gpu by (auto || lia). cbn [bind]. cbv iota beta.
  rewrite copy_to_gpu by (auto || lia). cbn [bind]. cbv iota beta. rewrite copy_to_gpu by (auto || lia). cbn [bind]. cbv iota beta.
  unfold free_handles. cbn [fold_left bind].
  mf G5 (n + 5) (32 * type_size ty). mf G5 (n + 6) (32 * type_size ty). mf G5 (n + 7) (32 * type_size ty). mf G5 (n + 8) ((image / 2 + 1) * type_size ty).
  match goal with |- context [mem_create false ?h vis_type _ _ _] => destruct (stack_gpu h vis_type grid) as (gs & Eg & Dg & Rg) end. rewrite Eg. clear Eg.
  replace (0 <? type_size vis_type) with true by lia. rewrite orb_true_r. do 2 eexists. split; [reflexivity|]. split.
  - repeat (constructor; [split; [reflexivity || exact Dg|reflexivity || exact Rg]|]). constructor.
  - eexists. split; [exact G5|]. split; [sv|]. intros b Hb. cbv beta. replace (b =? n) with false by lia.
    repeat match goal with |- (if ?x then _ else _) = None => destruct x eqn:?; [reflexivity|] end. reflexivity.
Qed.
End Create.
