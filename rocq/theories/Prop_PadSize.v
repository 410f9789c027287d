(** C41, C42: transform sizes. *)
From Verif Require Import Base PadSize PadSizeSpec PadSizeFacts.
From Coq Require Import Znumtheory QArith Qround.
Open Scope Z_scope.

(** C41.  Whatever the memory of the heap held, the search ends without leaving the heap and returns
    the smallest even number without prime factors above 11 that is not below ceil(n f); it is at most
    twice that (or 2), so it does not overflow an int when the padded size is at most 2^30. *)
Theorem C41_smallest junk n f :
  exists r, fft_padded_size junk n f = Some r /\ even_smooth r /\ Qceiling (inject_Z n * f) <= r /\
    (r <= 2 * Qceiling (inject_Z n * f) \/ r = 2) /\
    forall v, even_smooth v -> Qceiling (inject_Z n * f) <= v -> r <= v.
Proof. exact (padded_lemma junk n f). Qed.
Print Assumptions C41_smallest.
Example C41_case : fft_padded_size (fun _ => 7) 25 (5 # 4) = Some 32 /\ fft_padded_size (fun _ => 7) 13 (1 # 1) = Some 14 /\
  even_smooth 14 /\ ~ even_smooth 13 /\ ~ even_smooth 26.
Proof.
  split; [vm_compute; reflexivity|]. split; [vm_compute; reflexivity|]. split; [|split].
  - split; [|exists 7; reflexivity]. replace 14 with (7 * 2) by reflexivity.
    apply smooth_mul; [apply smooth_prime|]; cbn; auto.
  - intros [_ [t Ht]]. lia.
  - intros [[_ H] _]. specialize (H 13).
    assert (P : prime 13). { apply prime_alt. split; [lia|]. intros n Hn D. apply Zdivide_mod in D.
      assert (n = 2 \/ n = 3 \/ n = 4 \/ n = 5 \/ n = 6 \/ n = 7 \/ n = 8 \/ n = 9 \/ n = 10 \/ n = 11 \/ n = 12) as K by lia.
      repeat (destruct K as [->|K]; [discriminate|]). subst. discriminate. }
    specialize (H P). cbn in H. assert (K : (13 | 26)) by (exists 2; reflexivity). specialize (H K). lia.
Qed.

(** C42. *)
Theorem C42_smallest n : 12 < n -> exists r, good_size_complex n = Some r /\ smooth r /\ n <= r < 2 * n /\
  forall v, smooth v -> n <= v -> r <= v.
Proof. exact (good_size_lemma n). Qed.
Print Assumptions C42_smallest.
(** Small sizes are returned as they are, and they are suitable. *)
Theorem C42_small n : 1 <= n <= 12 -> good_size_complex n = Some n /\ smooth n.
Proof. intro H. split; [unfold good_size_complex; now replace (n <=? 12) with true by lia|now apply smooth_small]. Qed.
Print Assumptions C42_small.
Example C42_hyps : good_size_complex 13 = Some 14 /\ good_size_complex 353 = Some 360 /\ good_size_complex 700 = Some 700.
Proof. vm_compute. auto. Qed.
