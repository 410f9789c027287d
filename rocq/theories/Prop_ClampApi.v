(** C19-C21 for the public functions: on valid row-major arrays the calls do what the row functions do (views included). *)
From Verif Require Import Base BaseFacts Mem Checks Clamp ClampApi Prop_Failures.
Open Scope Z_scope.

Definition coords_of (ty n : Z) : mem := fst (create_wrapper (Some (1, 0)) ty MEM_CPU [n; 3] None SUCCESS).
(** The coordinates as a table of n rows *)
Definition table_of (n : Z) (d : nd Q) : nd Q := mk_nd [n; 3] (fun idx => match idx with [i; j] => elem d [i * 3 + j] | _ => 0%Q end).
Lemma views_ok ty n : ty = MEM_DOUBLE \/ ty = MEM_FLOAT -> clamp_views (mtype (Some (coords_of ty n))) (Some (coords_of ty n)) (Some (ints n)) (Some (ints n)) (Some (ints n)) (Some (ints n)) SUCCESS =
  (mk_view (Some (1, 0)) [n; 3] [3; 1], mk_view (Some (2, 0)) [n] [1], mk_view (Some (2, 0)) [n] [1], mk_view (Some (2, 0)) [n] [1], mk_view (Some (2, 0)) [n] [1], SUCCESS).
Proof. intros [-> | ->]; reflexivity. Qed.
Lemma rd_table n d i j : shape d = [n * 3] -> 0 <= j < 3 -> rd d [3 * i + (1 * j + 0)] = rd (table_of n d) [i; j].
Proof.
  intros S Hj. unfold rd. cbn [table_of shape elem]. rewrite S. replace (3 * i + (1 * j + 0)) with (i * 3 + j) by ring.
  assert (in_shape [n * 3] [i * 3 + j] = in_shape [n; 3] [i; j]) as -> by (apply eq_true_iff_eq; rewrite in_shape_1, in_shape_2; nia). reflexivity.
Qed.

Theorem C19_api_single ty n dim f0 df mn mx r0 r1 uvw_d si_d ei_d so_d eo_d : ty = MEM_DOUBLE \/ ty = MEM_FLOAT -> 0 <= dim < 3 -> shape uvw_d = [n * 3] ->
  clamp_single_api (Some (coords_of ty n)) dim f0 df (Some (ints n)) (Some (ints n)) mn mx (Some (ints n)) (Some (ints n)) r0 r1 uvw_d si_d ei_d so_d eo_d SUCCESS =
  match clamp_single (table_of n uvw_d) dim f0 df si_d ei_d mn mx so_d eo_d r0 r1 with Some r => Some (SUCCESS, r) | None => None end.
Proof.
  intros T Hd Su. unfold clamp_single_api, clamp_single. cbn [failed]. rewrite (views_ok ty n T).
  replace (location (Some (coords_of ty n))) with MEM_CPU by (destruct T as [-> | ->]; reflexivity). cbn [Z.eqb MEM_CPU negb].
  replace ((mtype (Some (coords_of ty n)) =? MEM_DOUBLE) || (mtype (Some (coords_of ty n)) =? MEM_FLOAT)) with true by (destruct T as [-> | ->]; reflexivity).
  replace (shape_dim (Some (coords_of ty n)) 0) with n by (destruct T as [-> | ->]; reflexivity). change (Base.dim (table_of n uvw_d) 0) with n.
  destruct ((r0 <? 0) || (r1 <? 0)); cbv iota beta zeta; unfold clamp_rows;
  (match goal with |- bind (for_ ?a ?b ?f ?s) _ = match for_ ?a ?b ?g ?s with _ => _ end => rewrite (for_ext a b f g s); [destruct (for_ a b g s); reflexivity|] end);
  intros i s Hi; unfold vrd, vwr; cbn [v_ptr v_stride dot]; rewrite (rd_table n) by assumption; replace (1 * i + 0) with i by ring; reflexivity.
Qed.
Theorem C19_api_uv ty n f0 df mnu mxu mnv mxv r0 r1 uvw_d si_d ei_d so_d eo_d : ty = MEM_DOUBLE \/ ty = MEM_FLOAT -> shape uvw_d = [n * 3] ->
  clamp_uv_api (Some (coords_of ty n)) f0 df (Some (ints n)) (Some (ints n)) mnu mxu mnv mxv (Some (ints n)) (Some (ints n)) r0 r1 uvw_d si_d ei_d so_d eo_d SUCCESS =
  match clamp_uv (table_of n uvw_d) f0 df si_d ei_d mnu mxu mnv mxv so_d eo_d r0 r1 with Some r => Some (SUCCESS, r) | None => None end.
Proof.
  intros T Su. unfold clamp_uv_api, clamp_uv. cbn [failed]. rewrite (views_ok ty n T).
  replace (location (Some (coords_of ty n))) with MEM_CPU by (destruct T as [-> | ->]; reflexivity). cbn [Z.eqb MEM_CPU negb].
  replace ((mtype (Some (coords_of ty n)) =? MEM_DOUBLE) || (mtype (Some (coords_of ty n)) =? MEM_FLOAT)) with true by (destruct T as [-> | ->]; reflexivity).
  replace (shape_dim (Some (coords_of ty n)) 0) with n by (destruct T as [-> | ->]; reflexivity). change (Base.dim (table_of n uvw_d) 0) with n.
  destruct ((r0 <? 0) || (r1 <? 0)); cbv iota beta zeta;
  (match goal with |- bind (for_ ?a ?b ?f ?s) _ = match for_ ?a ?b ?g ?s with _ => _ end => rewrite (for_ext a b f g s); [destruct (for_ a b g s); reflexivity|] end);
  intros i s Hi; unfold vrd, vwr; cbn [v_ptr v_stride dot]; rewrite !(rd_table n) by (assumption || lia); replace (1 * i + 0) with i by ring; reflexivity.
Qed.
Print Assumptions C19_api_single.
Print Assumptions C19_api_uv.
