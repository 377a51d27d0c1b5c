(** Property theorems about the shuffle reservoirs: C01-C05. *)
From Verif Require Import Base BaseFacts Rng RngFacts Reservoir ReservoirFacts
  PackedReservoir PackedReservoirFacts Prop_Rng.

Lemma config_ok header hash64 capacity max_bytes seed epoch stream_key cf :
  reservoir_config header hash64 capacity max_bytes seed epoch stream_key = Ok cf ->
  0 < cf_capacity cf /\ (forall m, cf_max_bytes cf = Some m -> 0 < m)
  /\ cf_capacity cf = capacity /\ cf_max_bytes cf = max_bytes.
Proof.
  unfold reservoir_config. intros H. apply guard_Ok in H as [H1 H]. apply guard_Ok in H as [H2 H].
  apply guard_Ok in H as [H3 H]. inv_bind H. inversion H; subst. cbn. conj; auto; try lia.
  intros m Hmm. subst. lia.
Qed.

Lemma exact_once_lemma A header hash64 cf ops (o : reservoir A) out :
  0 < cf_capacity cf -> (forall m, cf_max_bytes cf = Some m -> 0 < m) ->
  run cf header hash64 (reservoir_init A) ops = Ok (o, out) ->
  Permutation (out ++ st_slots (snd (state cf o))) (List.concat (map items_of ops))
  /\ st_offered (snd (state cf o)) = zlen (List.concat (map items_of ops))
  /\ st_emitted (snd (state cf o)) = zlen out.
Proof.
  intros Hc Hm H. pose proof (OInv_init A cf Hc Hm) as HI.
  apply run_spec in H; auto. destruct H as [HI1 [Hp [Ho _]]].
  rewrite state_snapshot by auto. cbn [snapshot st_slots st_offered st_emitted].
  change (slots (core (reservoir_init A))) with (@nil A) in Hp.
  change (offered (core (reservoir_init A))) with 0 in Ho. cbn [app] in Hp.
  split; [symmetry; exact Hp|]. split; [lia|].
  apply zlen_perm in Hp. rewrite zlen_app in Hp.
  generalize (inv_once (proj1 HI1)). lia.
Qed.

(** C01, at any point of any history: emitted + still held = offered, as multisets. *)
Theorem C01_reservoir_never_loses_or_duplicates :
  forall (A : Type) header hash64 capacity max_bytes seed epoch stream_key cf
         (ops : list (rop A)) o out,
    reservoir_config header hash64 capacity max_bytes seed epoch stream_key = Ok cf ->
    run cf header hash64 (reservoir_init A) ops = Ok (o, out) ->
    Permutation (out ++ st_slots (snd (state cf o))) (List.concat (map items_of ops))
    /\ st_offered (snd (state cf o)) = zlen (List.concat (map items_of ops))
    /\ st_emitted (snd (state cf o)) = zlen out.
Proof.
  intros A header hash64 capacity max_bytes seed epoch stream_key cf ops o out Hc H.
  apply config_ok in Hc as [H1 [H2 _]]. eapply exact_once_lemma; eassumption.
Qed.
Print Assumptions C01_reservoir_never_loses_or_duplicates.

(** C01, drained: the outputs of all calls together are a permutation of the inputs. *)
Theorem C01_drained_reservoir_is_exact_once :
  forall (A : Type) header hash64 capacity max_bytes seed epoch stream_key cf
         (ops : list (rop A)) o out,
    reservoir_config header hash64 capacity max_bytes seed epoch stream_key = Ok cf ->
    run cf header hash64 (reservoir_init A) (ops ++ [Drain A]) = Ok (o, out) ->
    Permutation out (List.concat (map items_of ops)) /\ st_slots (snd (state cf o)) = [].
Proof.
  intros A header hash64 capacity max_bytes seed epoch stream_key cf ops o out Hc H.
  pose proof Hc as Hc'. apply config_ok in Hc' as [H1 [H2 _]].
  pose proof H as H'. apply exact_once_lemma in H'; auto. destruct H' as [Hp _].
  rewrite map_app, concat_app in Hp. cbn in Hp. rewrite app_nil_r in Hp.
  pose proof (OInv_init A cf H1 H2) as HI.
  pose proof H as H3. apply run_spec in H3; auto. destruct H3 as [HI3 _].
  rewrite run_app in H. inv_bind H. destruct v as [o1 out1]. inv_bind H. destruct v as [o2 out2].
  inversion H; subst. clear H. apply run_spec in Hm; auto. destruct Hm as [HI1 _].
  cbn [run apply_op] in Hm0. inv_bind Hm0. destruct v as [o3 out3]. cbn in Hm0. inversion Hm0; subst.
  unfold drain in Hm. inv_bind Hm. destruct v as [r x]. inversion Hm; subst.
  apply drain_core_spec in Hm1; [|apply HI1]. destruct Hm1 as [_ [_ [Es _]]].
  rewrite state_snapshot in * by auto. cbn in Hp |- *. rewrite Es in *. rewrite app_nil_r in Hp. auto.
Qed.
Print Assumptions C01_drained_reservoir_is_exact_once.

(** C02: occupancy, byte and peak limits hold after every successful history, and
    the reported peak bounds every earlier occupancy. *)
Theorem C02_reservoir_respects_limits :
  forall (A : Type) header hash64 capacity max_bytes seed epoch stream_key cf
         (ops1 ops2 : list (rop A)) o1 o2 out1 out2,
    reservoir_config header hash64 capacity max_bytes seed epoch stream_key = Ok cf ->
    run cf header hash64 (reservoir_init A) ops1 = Ok (o1, out1) ->
    run cf header hash64 o1 ops2 = Ok (o2, out2) ->
    let s1 := snd (state cf o1) in let s2 := snd (state cf o2) in
    zlen (st_slots s1) <= capacity
    /\ List.length (st_slots s1) = List.length (st_slot_sizes s1)
    /\ zsum (st_slot_sizes s1) = st_resident_bytes s1
    /\ zlen (st_slots s1) <= st_peak_occupancy s2 <= capacity
    /\ st_resident_bytes s1 <= st_peak_resident_bytes s2
    /\ (forall m, max_bytes = Some m -> st_resident_bytes s1 <= m /\ st_peak_resident_bytes s2 <= m).
Proof.
  intros A header hash64 capacity max_bytes seed epoch stream_key cf ops1 ops2 o1 o2 out1 out2 Hc H1 H2.
  cbv zeta. apply config_ok in Hc as [Hc1 [Hc2 [Hc3 Hc4]]].
  pose proof (OInv_init A cf Hc1 Hc2) as HI.
  apply run_spec in H1; auto. destruct H1 as [I1 [_ [_ [P1 [Q1 R1]]]]].
  apply run_spec in H2; auto. destruct H2 as [I2 [_ [_ [P2 [Q2 R2]]]]].
  rewrite !state_snapshot by auto. cbn [snapshot st_slots st_slot_sizes st_resident_bytes st_peak_occupancy st_peak_resident_bytes].
  destruct I1 as [I1 _]. destruct I2 as [I2 _]. subst capacity max_bytes.
  generalize (inv_cap I1) (inv_len I1) (inv_sum I1) (inv_peak I1) (inv_peak_bytes I1) (inv_peak I2).
  intros. conj; auto; try lia.
  intros m Hm. generalize (inv_bytes I1 Hm). intros. split; auto.
  apply R2; auto. apply R1; auto. cbn. specialize (Hc2 m Hm). lia.
Qed.
Print Assumptions C02_reservoir_respects_limits.

(** C02: an item that cannot fit, or a negative size, is rejected (with a
    ValueError before anything is changed), and a closed reservoir accepts nothing. *)
Theorem C02_bad_items_are_rejected :
  forall (A : Type) cf (o : reservoir A) x size,
    (closed (core o) = true -> offer cf o x size = Err RuntimeError)
    /\ (closed (core o) = false ->
        (size < 0 \/ exists m, cf_max_bytes cf = Some m /\ m < size) ->
        offer cf o x size = Err ValueError).
Proof.
  intros A cf o x size. unfold offer, offer_core. split.
  - intros ->. reflexivity.
  - intros -> H. cbn [negb]. replace (size_ok cf size) with false; [reflexivity|].
    unfold size_ok. destruct H as [H|[m [-> H]]]; lia.
Qed.
Print Assumptions C02_bad_items_are_rejected.

(** C02: on a reachable open reservoir an offer can only fail with ValueError
    (bad size, or 2^63 RNG counters used up): no IndexError, no endless loop. *)
Theorem C02_offer_failure_modes :
  forall (A : Type) header hash64 capacity max_bytes seed epoch stream_key cf
         (ops : list (rop A)) o out x size e,
    reservoir_config header hash64 capacity max_bytes seed epoch stream_key = Ok cf ->
    run cf header hash64 (reservoir_init A) ops = Ok (o, out) ->
    offer cf o x size = Err e ->
    (closed (core o) = true /\ e = RuntimeError) \/ (closed (core o) = false /\ e = ValueError).
Proof.
  intros A header hash64 capacity max_bytes seed epoch stream_key cf ops o out x size e Hc H He.
  apply config_ok in Hc as [Hc1 [Hc2 _]].
  pose proof (OInv_init A cf Hc1 Hc2) as HI. apply run_spec in H; auto. destruct H as [[I1 _] _].
  rewrite offer_spec in He.
  destruct (offer_many_core cf (core o) [(x, size)]) as [[r y]|e0] eqn:E; cbn [bind] in He; [discriminate|].
  inversion He; subst. eapply offer_many_core_errors; eassumption.
Qed.
Print Assumptions C02_offer_failure_modes.

(** C03: any two ways of chunking the same sized items through offer, offer_many
    and offer_zero_sized (with state reads in between) emit the same items in the
    same order and leave the same state. *)
Theorem C03_chunking_is_unobservable :
  forall (A : Type) header hash64 capacity max_bytes seed epoch stream_key cf
         (ops0 ops1 ops2 : list (rop A)) o0 out0 o1 out,
    reservoir_config header hash64 capacity max_bytes seed epoch stream_key = Ok cf ->
    run cf header hash64 (reservoir_init A) ops0 = Ok (o0, out0) ->
    closed (core o0) = false ->
    forallb (fun p => negb (is_drain p)) ops1 = true ->
    forallb (fun p => negb (is_drain p)) ops2 = true ->
    List.concat (map sized_items ops1) = List.concat (map sized_items ops2) ->
    run cf header hash64 o0 ops1 = Ok (o1, out) ->
    exists o2, run cf header hash64 o0 ops2 = Ok (o2, out)
               /\ snd (state cf o2) = snd (state cf o1).
Proof.
  intros A header hash64 capacity max_bytes seed epoch stream_key cf ops0 ops1 ops2 o0 out0 o1 out
    Hc H0 Hcl Hd1 Hd2 E H.
  apply config_ok in Hc as [Hc1 [Hc2 _]].
  pose proof (OInv_init A cf Hc1 Hc2) as HI. apply run_spec in H0; auto. destruct H0 as [I0 _].
  eapply chunk_independence with (ops1 := ops1); eauto.
Qed.
Print Assumptions C03_chunking_is_unobservable.

(** C04: a snapshot taken anywhere restores, and any continuation behaves the same
    (same outputs, same errors, same final state).  The side condition excludes
    only the reservoir that has used all 2^63 counters: restore rejects that one. *)
Theorem C04_restore_resumes_exactly :
  forall (A : Type) header hash64 capacity max_bytes seed epoch stream_key cf
         (ops more : list (rop A)) o out,
    reservoir_config header hash64 capacity max_bytes seed epoch stream_key = Ok cf ->
    run cf header hash64 (reservoir_init A) ops = Ok (o, out) ->
    st_rng_counter (snd (state cf o)) < 2 ^ 63 ->
    exists o', restore cf (snd (state cf o)) = Ok o'
      /\ snd (state cf o') = snd (state cf o)
      /\ match run cf header hash64 o more, run cf header hash64 o' more with
         | Ok (a, x), Ok (b, y) => x = y /\ snd (state cf a) = snd (state cf b)
         | Err e, Err e' => e = e'
         | _, _ => False
         end.
Proof.
  intros A header hash64 capacity max_bytes seed epoch stream_key cf ops more o out Hc H Hr.
  apply config_ok in Hc as [Hc1 [Hc2 _]].
  pose proof (OInv_init A cf Hc1 Hc2) as HI. apply run_spec in H; auto. destruct H as [I0 _].
  pose proof Hr as Hr'. rewrite state_snapshot in Hr' by auto. cbn in Hr'.
  destruct (restore_state I0 Hr') as [o' [E [Ec I']]]. exists o'. split; auto.
  split; [rewrite !state_snapshot, Ec by auto; reflexivity|].
  generalize (run_core cf header hash64 more o o' (eq_sym Ec)).
  destruct (run cf header hash64 o more) as [[a x]|e] eqn:Ea,
    (run cf header hash64 o' more) as [[b y]|e'] eqn:Eb; cbn [same_outcome]; auto.
  intros [E1 E2]. split; auto.
  apply run_spec in Ea; auto. apply run_spec in Eb; auto.
  rewrite !state_snapshot, E1; auto; [apply Eb|apply Ea].
Qed.
Print Assumptions C04_restore_resumes_exactly.

(** C04: whatever state is presented, if restore accepts it then it is consistent
    with this reservoir's configuration and all limits. *)
Theorem C04_restore_accepts_only_consistent_states :
  forall (A : Type) cf (s : rstate A) o,
    restore cf s = Ok o ->
    st_algorithm s = RESERVOIR_ALGORITHM
    /\ st_seed s = cf_seed cf /\ st_epoch s = cf_epoch cf
    /\ key_eqb (KTuple (st_stream_key s)) (KTuple (cf_stream_key cf)) = true
    /\ st_capacity s = cf_capacity cf /\ st_max_bytes s = cf_max_bytes cf
    /\ List.length (st_slots s) = List.length (st_slot_sizes s)
    /\ zlen (st_slots s) <= cf_capacity cf
    /\ Forall (fun z => 0 <= z) (st_slot_sizes s)
    /\ (forall m, cf_max_bytes cf = Some m -> zsum (st_slot_sizes s) <= m)
    /\ st_offered s = st_emitted s + zlen (st_slots s)
    /\ 0 <= st_emitted s
    /\ (st_closed s = true -> st_slots s = [])
    /\ 0 <= st_rng_counter s < 2 ^ 63
    /\ snd (state cf o) = s.
Proof.
  intros A cf s o H. pose proof H as H0. apply restore_sound in H.
  destruct H as [HI [Hr [H1 [H2 [H3 [H4 [H5 [H6 [H7 [H8 [H9 [H10 [H11 H12]]]]]]]]]]]]].
  generalize (inv_len HI) (inv_cap HI) (inv_sizes HI) (inv_sum HI) (inv_bytes HI) (inv_once HI)
    (inv_emitted HI) (inv_closed HI) (inv_rng HI).
  rewrite H7, H8, H9, H10, H11, H12. intros K1 K2 K3 K4 K5 K6 K7 K8 K9.
  rewrite H11 in Hr. unfold two63 in *. conj; auto; try lia.
  - unfold restore in H0. repeat apply guard_Ok in H0 as [_ H0]. inversion H0. reflexivity.
Qed.
Print Assumptions C04_restore_accepts_only_consistent_states.

(** C05: whatever the native packed reservoir does, the Python reservoir does the
    same on zero-sized items: same outputs, same final slots and counter. *)
Theorem C05_packed_run_is_a_generic_run :
  forall header hash64 capacity seed epoch stream_key cf ops p out,
    reservoir_config header hash64 capacity None seed epoch stream_key = Ok cf ->
    capacity <= 2 ^ 64 -> zlen (blocks ops) < 2 ^ 64 ->
    p_run header hash64 cf prsv_init ops = Ok (p, out) ->
    exists o, run cf header hash64 (reservoir_init Z) (map generic_op ops) = Ok (o, out)
      /\ p_slots p = st_slots (snd (state cf o))
      /\ p_rng_counter p = st_rng_counter (snd (state cf o))
      /\ p_closed p = st_closed (snd (state cf o)).
Proof.
  intros header hash64 capacity seed epoch stream_key cf ops p out Hc Hcap Hb H.
  apply config_ok in Hc as [Hc1 [Hc2 [Hc3 Hc4]]]. pose proof (OInv_init Z cf Hc1 Hc2) as HI.
  assert (Hcap' : 0 < cf_capacity cf <= two64) by (unfold two64; lia).
  destruct (@p_run_sim cf Hcap' header hash64 ops prsv_init (reservoir_init Z) p out) as [o [E HS]]; auto.
  - apply Sim_init.
  - exists o. split; auto. apply run_spec in E; auto. rewrite state_snapshot by apply E.
    destruct HS. cbn. auto.
Qed.
Print Assumptions C05_packed_run_is_a_generic_run.

(** C05, converse: whatever the Python reservoir does, the native one does, as
    long as fewer than 2^63 counters have been used. *)
Theorem C05_generic_run_is_a_packed_run :
  forall header hash64 capacity seed epoch stream_key cf ops o out,
    reservoir_config header hash64 capacity None seed epoch stream_key = Ok cf ->
    capacity <= 2 ^ 64 -> zlen (blocks ops) < 2 ^ 64 ->
    run cf header hash64 (reservoir_init Z) (map generic_op ops) = Ok (o, out) ->
    st_rng_counter (snd (state cf o)) < 2 ^ 63 ->
    exists p, p_run header hash64 cf prsv_init ops = Ok (p, out)
      /\ p_slots p = st_slots (snd (state cf o)).
Proof.
  intros header hash64 capacity seed epoch stream_key cf ops o out Hc Hcap Hb H Hr.
  apply config_ok in Hc as [Hc1 [Hc2 [Hc3 Hc4]]]. pose proof (OInv_init Z cf Hc1 Hc2) as HI.
  assert (Hcap' : 0 < cf_capacity cf <= two64) by (unfold two64; lia).
  pose proof H as HO. apply run_spec in HO; auto. destruct HO as [HO _].
  rewrite state_snapshot in * by exact HO. cbn in Hr.
  destruct (@p_run_complete cf Hcap' header hash64 ops prsv_init (reservoir_init Z) o out) as [p [E HS]]; auto.
  - apply Sim_init.
  - exists p. split; auto. destruct HS. cbn. auto.
Qed.
Print Assumptions C05_generic_run_is_a_packed_run.

(** C05, the one difference: a native offer whose last draw uses counter 2^63-1
    raises, the Python reservoir still emits (finding F4). *)
Theorem C05_equality_at_the_last_counter_refuted :
  exists cf (r : rsv Z) (p : prsv) r1 out,
    Sim p r /\ Inv cf r
    /\ offer_zero_core cf r [7] = Ok (r1, out) /\ out = [5]
    /\ p_offer (cf_capacity cf) (cf_rng_base cf) p [7] = Err RuntimeError.
Proof.
  exists {| cf_capacity := 1; cf_max_bytes := None; cf_seed := 0; cf_epoch := 0;
            cf_stream_key := []; cf_rng_base := 0 |}.
  exists {| slots := [5]; slot_sizes := [0]; resident_bytes := 0; rng_counter := 2 ^ 63 - 1;
            offered := 1; emitted := 0; peak_occupancy := 1; peak_resident_bytes := 0;
            closed := false |}.
  exists {| p_slots := [5]; p_rng_counter := 2 ^ 63 - 1; p_offered := 1; p_emitted := 0;
            p_peak := 1; p_closed := false |}.
  eexists _, _.
  split; [constructor; reflexivity|].
  split; [constructor; cbn; auto; try (unfold zlen, two63; cbn; lia); try discriminate; repeat constructor; lia|].
  split; [vm_compute; reflexivity|]. split; [reflexivity|vm_compute; reflexivity].
Qed.
Print Assumptions C05_equality_at_the_last_counter_refuted.

(** C05 (supporting): the packed ready buffer is a FIFO over its contents. *)
Theorem C05_ready_buffer_is_fifo :
  (RInv ready_empty /\ contents ready_empty = [])
  /\ (forall b v, RInv b -> RInv (ready_extend b v) /\ contents (ready_extend b v) = contents b ++ v)
  /\ (forall b count, RInv b ->
        if (count <=? List.length (contents b))%nat then
          exists b' values, ready_pop b count = Ok (b', values) /\ RInv b'
            /\ contents b = values ++ contents b' /\ List.length values = count
        else ready_pop b count = Err ValueError)
  /\ (forall b, RInv b -> ready_state b = contents b).
Proof.
  split; [split; [exact RInv_empty|reflexivity]|].
  split; [exact ready_extend_spec|]. split; [exact ready_pop_spec|exact ready_state_spec].
Qed.
Print Assumptions C05_ready_buffer_is_fifo.

(** Non-vacuity: a capacity-2 reservoir with a 10-byte limit really evicts for
    both reasons, and a history of every kind of call succeeds. *)
Definition ex_ops : list (rop nat) :=
  [Offer 1%nat 4; OfferMany [(2%nat, 4); (3%nat, 9)]; ReadState nat; OfferZero [4; 5; 6]%nat; Offer 7%nat 10].
Example reservoir_history_exists :
  exists cf o out,
    reservoir_config [9] toy_hash 2 (Some 10) 5 0 [KInt 1] = Ok cf
    /\ run cf [9] toy_hash (reservoir_init nat) (ex_ops ++ [Drain nat]) = Ok (o, out)
    /\ List.length out = 7%nat /\ out <> [1; 2; 3; 4; 5; 6; 7]%nat.
Proof.
  eexists _, _, _. split; [vm_compute; reflexivity|]. split; [vm_compute; reflexivity|].
  split; [reflexivity|discriminate].
Qed.
Example packed_history_exists :
  exists cf p out,
    reservoir_config [9] toy_hash 3 None 5 0 [KInt 1] = Ok cf
    /\ p_run [9] toy_hash cf prsv_init [POffer [1; 2]; POffer [3; 4; 5; 6; 7]; PDrain] = Ok (p, out)
    /\ List.length out = 7%nat.
Proof.
  eexists _, _, _. split; [vm_compute; reflexivity|]. split; [vm_compute; reflexivity|]. reflexivity.
Qed.
