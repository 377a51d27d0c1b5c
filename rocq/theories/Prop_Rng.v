(** Property theorems about the deterministic RNG: C06, C07, C08. *)
From Verif Require Import Base BaseFacts Rng RngFacts.

(** A concrete stand-in for the hash, used only in the examples below. *)
Definition toy_hash (b : bytes) : Z :=
  fold_left (fun acc x => (acc * 6364136223846793005 + x + 1442695040888963407) mod 2 ^ 64) b 0.

(** C06: whatever the hash, a returned permutation contains each index exactly once. *)
Theorem C06_deterministic_permutation_is_permutation :
  forall (header : bytes) (hash64 : bytes -> Z) (length : nat) (seed : Z) (domain k : key) out,
    deterministic_permutation header hash64 length seed domain k = Ok out ->
    Permutation out (seq 0 length).
Proof. intros. apply Permutation_sym. eapply deterministic_permutation_perm; eassumption. Qed.
Print Assumptions C06_deterministic_permutation_is_permutation.

(** C06: each draw is strictly below its bound and advances the counter. *)
Theorem C06_uniform_below_in_range :
  forall (hash64 : bytes -> Z) n base counter x counter',
    uniform_below_from_base hash64 n base counter = Ok (x, counter') ->
    0 <= x < n /\ counter < counter' <= 2 ^ 63.
Proof. exact uniform_below_from_base_range. Qed.
Print Assumptions C06_uniform_below_in_range.

(** C06: once the key encodes, a permutation can only fail by exhausting the
    2^63 RNG counters (no index error, no model fuel). *)
Theorem C06_permutation_failure_is_counter_exhaustion :
  forall (hash64 : bytes -> Z) (length : nat) base e,
    Z.of_nat length <= 2 ^ 64 ->
    fisher_yates hash64 (length - 1) base (range length) 0 = Err e -> e = ValueError.
Proof.
  intros hash64 length base e Hl H. refine (fisher_yates_errors [] hash64 base _ _ _ _ H).
  - unfold range. rewrite seq_length. lia.
  - unfold two64. lia.
Qed.
Print Assumptions C06_permutation_failure_is_counter_exhaustion.

Example C06_example :
  deterministic_permutation [1; 2] toy_hash 8 42 (str "domain") (KTuple [KInt 3; KNone])
  = Ok [6; 3; 7; 5; 2; 0; 1; 4]%nat.
Proof. vm_compute. reflexivity. Qed.

(** C07: the key encoding is prefix-free (hence injective). *)
Theorem C07_tlv_prefix_free :
  forall (a b : key) (x y r s : bytes),
    tlv a = Ok x -> tlv b = Ok y -> x ++ r = y ++ s -> a = b /\ r = s.
Proof. intros a b x y r s. exact (tlv_prefix_free_all a b r s). Qed.
Print Assumptions C07_tlv_prefix_free.

(** C07: two RNG requests that feed the same bytes to the hash are the same request. *)
Theorem C07_rng_payload_injective :
  forall domain seed k counter domain' seed' k' counter' payload,
    tlv (KTuple [domain; KInt seed; k; KInt counter]) = Ok payload ->
    tlv (KTuple [domain'; KInt seed'; k'; KInt counter']) = Ok payload ->
    domain = domain' /\ seed = seed' /\ k = k' /\ counter = counter'.
Proof.
  intros domain seed k counter domain' seed' k' counter' payload H1 H2.
  pose proof (tlv_injective _ _ H1 H2) as E. inversion E; auto.
Qed.
Print Assumptions C07_rng_payload_injective.

(** C07: the prefix-cached draw used by Fisher-Yates equals the reference draw. *)
Theorem C07_cached_prefix_equals_reference :
  forall (header : bytes) (hash64 : bytes -> Z) n seed domain k counter base,
    counter_rng_base header seed domain k = Ok base ->
    uniform_below header hash64 n seed domain k counter
    = uniform_below_from_base hash64 n base counter.
Proof. intros; apply uniform_below_base_eq; assumption. Qed.
Print Assumptions C07_cached_prefix_equals_reference.

Example C07_example :
  exists x y, tlv (KTuple [str "ab"; KInt (-1)]) = Ok x /\ tlv (KTuple [str "a"; KInt (-1)]) = Ok y /\ x <> y.
Proof. vm_compute. eexists _, _. repeat split; try reflexivity. discriminate. Qed.

(** C08: among the 2^64 raw values, those accepted with residue [r] are exactly
    [r + n*k] for k = 0 .. 2^64/n - 1: the same number for every residue.
    Acceptance is stated with the model's own loop step. *)
Theorem C08_each_residue_has_equally_many_accepted_values :
  forall n r counter, 1 <= n <= 2 ^ 64 -> 0 <= r < n -> 0 <= counter < 2 ^ 63 ->
  forall v, 0 <= v < 2 ^ 64 ->
    (reject_step n (fun _ => Ok v) counter = inr (Ok (r, counter + 1))
     <-> exists k, 0 <= k < 2 ^ 64 / n /\ v = r + n * k).
Proof.
  intros n r c Hn Hr Hc v Hv. rewrite <- (accepted_residues Hn Hr).
  unfold reject_step. replace ((0 <=? c) && (c <? two63)) with true by (unfold two63; lia).
  cbn [negb]. destruct (Z.ltb_spec v (two64 - two64 mod n)) as [H|H].
  - split.
    + intros E. inversion E. lia.
    + intros [_ ->]. reflexivity.
  - split; [discriminate|lia].
Qed.
Print Assumptions C08_each_residue_has_equally_many_accepted_values.

(** C08: the SplitMix word used by the reservoirs is a bijection of the 64-bit
    base, and distinct counters of one stream give distinct words, so no bias is
    added before the rejection step. *)
Theorem C08_splitmix_injective :
  (forall a b c, 0 <= a < 2 ^ 64 -> 0 <= b < 2 ^ 64 -> splitmix_raw a c = splitmix_raw b c -> a = b)
  /\ (forall base c d, 0 <= c < 2 ^ 64 -> 0 <= d < 2 ^ 64 ->
        splitmix_raw base c = splitmix_raw base d -> c = d)
  /\ (forall base c, 0 <= splitmix_raw base c < 2 ^ 64).
Proof.
  split; [|split].
  - exact splitmix_raw_base_inj.
  - exact splitmix_raw_counter_inj.
  - intros. apply splitmix_finalize_range.
Qed.
Print Assumptions C08_splitmix_injective.

Example C08_example : reject_step 3 (fun _ => Ok 5) 0 = inr (Ok (2, 1)).
Proof. vm_compute. reflexivity. Qed.
