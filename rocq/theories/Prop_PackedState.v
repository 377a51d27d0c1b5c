(** C37: the state of the packed (uint64) shuffle reservoir. *)
From Verif Require Import Base BaseFacts Rng Reservoir ReservoirFacts PackedReservoir PackedReservoirFacts
  PackedState Prop_Rng Prop_Reservoir Planner PlannerSim PlannerFeed PlannerPacked PlannerUnit.
Set Implicit Arguments.
Unset Strict Implicit.

(** The public calls on a packed reservoir and what each shows to the caller. *)
Inductive pk_call := OfferBlock (block : list Z) | DrainAll | ReadPacked.
Inductive pk_seen := Emitted (ids : list Z) | Saved (s : pkstate).

Definition pk_do header hash64 cf (o : pkobj) (c : pk_call) : res (pkobj * pk_seen) :=
  match c with
  | OfferBlock b => '(o1, out) <- pk_offer cf o b ;; Ok (o1, Emitted out)
  | DrainAll => '(o1, out) <- pk_drain cf header hash64 o ;; Ok (o1, Emitted out)
  | ReadPacked => let (o1, s) := pk_state cf o in Ok (o1, Saved s)
  end.

Fixpoint pk_calls header hash64 cf (o : pkobj) (cs : list pk_call) : res (pkobj * list pk_seen) :=
  match cs with
  | [] => Ok (o, [])
  | c :: cs' =>
      '(o1, s) <- pk_do header hash64 cf o c ;;
      '(o2, ss) <- pk_calls header hash64 cf o1 cs' ;;
      Ok (o2, s :: ss)
  end.

Definition offered_ids (cs : list pk_call) : list Z :=
  flat_map (fun c => match c with OfferBlock b => b | _ => [] end) cs.
Definition seen_of {A B} (r : res (A * B)) : res B := '(_, b) <- r ;; Ok b.

Section Calls.
  Variable header : bytes.
  Variable hash64 : bytes -> Z.
  Variable cf : rconfig.
  Hypothesis Hcap : 0 < cf_capacity cf < two64.
  Hypothesis Hmax : cf_max_bytes cf = None.

  Definition cached (o : pkobj) : Prop := forall s, pk_cache o = Some s -> s = pk_snapshot cf (pk_core o).

  Lemma Sim_core p q r : Sim p r -> Sim q r -> p = q.
  Proof.
    intros [A1 A2 A3 A4 A5 A6 A7] [B1 B2 B3 B4 B5 B6 B7]. destruct p, q; cbn in *. congruence.
  Qed.

  Lemma offer_nil_core o r o1 out : stands cf o r -> pk_offer cf o [] = Ok (o1, out) -> pk_core o1 = pk_core o.
  Proof.
    intros Hs H. unfold pk_offer in H. inv_bind H. destruct v as [p out']. injection H as <- <-. cbn [pk_core].
    assert (Hcap' : 0 < cf_capacity cf <= two64) by lia.
    destruct (p_offer_sim Hcap' [] (sd_sim Hs) (sd_inv Hs) Hm) as (r1 & E & S1 & _).
    unfold offer_zero_core in E. destruct (negb (closed r)); [|discriminate]. injection E as <-.
    eapply Sim_core; [exact S1|apply (sd_sim Hs)].
  Qed.

  (** One call. *)
  Lemma do_stands o r c o1 s : stands cf o r -> Forall u64 (offered_ids [c]) ->
    offered r + zlen (offered_ids [c]) < two64 -> pk_do header hash64 cf o c = Ok (o1, s) ->
    exists r1, stands cf o1 r1 /\ offered r1 = offered r + zlen (offered_ids [c]).
  Proof.
    intros Hs Hu Hlim H. destruct c as [b| |]; cbn [pk_do offered_ids flat_map] in *.
    - rewrite app_nil_r in *. inv_bind H. destruct v as [o2 out]. injection H as <- <-.
      destruct b as [|x b].
      { pose proof (offer_nil_core Hs Hm) as Ec. exists r. unfold pk_offer in Hm. inv_bind Hm. destruct v as [p out'].
        injection Hm as <- <-. cbn [pk_core] in Ec. subst p. split; [|unfold zlen; cbn; lia].
        destruct Hs as [S1 S2 S3 S4 S5 S6]. constructor; cbn [pk_core pk_cache]; auto. }
      unfold pk_offer in Hm. inv_bind Hm. destruct v as [p out']. injection Hm as <- <-.
      assert (Hcap' : 0 < cf_capacity cf <= two64) by lia.
      destruct (p_offer_sim Hcap' (x :: b) (sd_sim Hs) (sd_inv Hs) Hm0) as (r1 & E & S1 & S2).
      pose proof E as E'. rewrite offer_zero_core_many in E' by (auto; try lia; apply (sd_inv Hs)).
      pose proof (@offer_many_core_spec Z cf r _ r1 out' (proj1 Hcap) (sd_inv Hs) E') as (I1 & _ & _ & P1 & O1 & _).
      change (fun x0 : Z => (x0, 0)) with zero in *. rewrite (zero_fst (x :: b)) in P1.
      assert (Hz : zlen (map zero (x :: b)) = zlen (x :: b)) by (unfold zlen; rewrite map_length; reflexivity).
      exists r1. split; [|lia]. constructor; cbn [pk_core pk_cache]; auto; try lia; [|discriminate].
      assert (Ha : Forall u64 (slots r ++ x :: b)) by (apply Forall_app; split; [apply (sd_u64 Hs)|exact Hu]).
      apply (Permutation_Forall P1) in Ha. apply Forall_app in Ha. tauto.
    - inv_bind H. destruct v as [o2 out]. injection H as <- <-. unfold pk_drain in Hm.
      destruct (p_closed (pk_core o)) eqn:Ec.
      + injection Hm as <- <-. exists r. split; [exact Hs|unfold zlen; cbn; lia].
      + inv_bind Hm. destruct v as [p out']. injection Hm as <- <-.
        assert (Hcap' : 0 < cf_capacity cf <= two64) by lia.
        destruct (w_drain_sim Hcap' header hash64 (sd_sim Hs) (sd_inv Hs) (sd_off Hs) Hm0) as (r1 & E & S1 & S2).
        pose proof (@drain_core_spec Z cf header hash64 r r1 out' (sd_inv Hs) E) as (I1 & C1 & Z1 & P1 & O1 & _).
        exists r1. split; [|rewrite O1; unfold zlen; cbn; lia].
        constructor; cbn [pk_core pk_cache]; auto; try discriminate.
        * rewrite Z1. constructor.
        * rewrite O1. apply (sd_off Hs).
        * rewrite S2. apply (sd_rng Hs).
    - exists r. split; [|unfold zlen; cbn; lia]. unfold pk_state in H.
      destruct (pk_cache o) as [s0|] eqn:Ec; injection H as <- <-; [exact Hs|].
      destruct Hs as [S1 S2 S3 S4 S5 S6]. constructor; cbn [pk_core pk_cache]; auto.
      intros s Hs. injection Hs as <-. reflexivity.
  Qed.

  Lemma calls_stands : forall cs o r o1 ss, stands cf o r -> Forall u64 (offered_ids cs) ->
    offered r + zlen (offered_ids cs) < two64 -> pk_calls header hash64 cf o cs = Ok (o1, ss) ->
    exists r1, stands cf o1 r1 /\ offered r1 = offered r + zlen (offered_ids cs).
  Proof.
    induction cs as [|c cs IH]; intros o r o1 ss Hs Hu Hlim H; cbn [pk_calls] in H.
    - injection H as <- <-. exists r. split; auto. unfold zlen; cbn; lia.
    - inv_bind H. destruct v as [o2 s]. inv_bind H. destruct v as [o3 ss']. injection H as <- <-.
      assert (Eo : offered_ids (c :: cs) = offered_ids [c] ++ offered_ids cs).
      { cbn [offered_ids flat_map]. rewrite app_nil_r. reflexivity. }
      rewrite Eo in *. rewrite zlen_app in *. apply Forall_app in Hu as [Hu1 Hu2]. pose proof (zlen_nonneg (offered_ids cs)).
      destruct (do_stands Hs Hu1 ltac:(lia) Hm) as (r2 & S2 & O2).
      destruct (IH o2 r2 o3 ss' S2 Hu2 ltac:(lia) Hm0) as (r3 & S3 & O3). exists r3. split; auto. lia.
  Qed.

  (** Two objects with the same contents show the same. *)
  Lemma do_same o o' r c : stands cf o r -> pk_core o' = pk_core o -> cached o' ->
    match pk_do header hash64 cf o c with
    | Ok (o1, s) => exists o1', pk_do header hash64 cf o' c = Ok (o1', s) /\ pk_core o1' = pk_core o1 /\ cached o1'
    | Err e => pk_do header hash64 cf o' c = Err e
    end.
  Proof.
    intros Hs Ec Hc. destruct c as [b| |]; cbn [pk_do].
    - destruct (pk_offer cf o b) as [[o1 out]|e] eqn:E; cbn [bind].
      + pose proof (fun H => offer_nil_core Hs (o1 := o1) (out := out) H) as Hnil.
        pose proof E as E0. unfold pk_offer in *. rewrite Ec. inv_bind E. destruct v as [p out']. rewrite Hm. cbn [bind].
        injection E as <- <-. cbn [pk_core] in *. eexists. split; [reflexivity|]. split; [reflexivity|].
        destruct b as [|x b]; intros s Hs'; cbn [pk_cache] in Hs'; [|discriminate]. cbn [pk_core].
        rewrite (Hnil E0), <- Ec. apply Hc. exact Hs'.
      + unfold pk_offer in *. rewrite Ec. destruct (p_offer _ _ _ b) as [[p out]|e']; cbn [bind] in *; congruence.
    - unfold pk_drain. rewrite Ec. destruct (p_closed (pk_core o)) eqn:Ecl.
      + cbn [bind]. eauto.
      + destruct (w_drain header hash64 cf (pk_core o)) as [[p out]|e]; cbn [bind]; [|reflexivity].
        eexists. split; [reflexivity|]. split; [reflexivity|]. intros s. discriminate.
    - assert (E1 : snd (pk_state cf o) = pk_snapshot cf (pk_core o)).
      { unfold pk_state. destruct (pk_cache o) eqn:E; [|reflexivity]. apply (sd_cache Hs). exact E. }
      assert (E2 : snd (pk_state cf o') = pk_snapshot cf (pk_core o)).
      { unfold pk_state. destruct (pk_cache o') eqn:E; [|cbn; congruence]. rewrite <- Ec. apply Hc. exact E. }
      destruct (pk_state cf o) as [o1 s1] eqn:G1. destruct (pk_state cf o') as [o2 s2] eqn:G2. cbn [snd] in E1, E2.
      subst s1 s2. exists o2. split; [reflexivity|].
      unfold pk_state in G1, G2.
      assert (K1 : pk_core o1 = pk_core o) by (destruct (pk_cache o); inversion G1; reflexivity).
      assert (K2 : pk_core o2 = pk_core o') by (destruct (pk_cache o'); inversion G2; reflexivity).
      split; [congruence|]. intros s Hs'. rewrite K2.
      destruct (pk_cache o') eqn:E; inversion G2; subst o2.
      * apply Hc. congruence.
      * cbn [pk_cache] in Hs'. congruence.
  Qed.

  Lemma calls_same : forall cs o o' r, stands cf o r -> pk_core o' = pk_core o -> cached o' ->
    Forall u64 (offered_ids cs) -> offered r + zlen (offered_ids cs) < two64 ->
    seen_of (pk_calls header hash64 cf o' cs) = seen_of (pk_calls header hash64 cf o cs).
  Proof.
    induction cs as [|c cs IH]; intros o o' r Hs Ec Hc Hu Hlim; cbn [pk_calls]; [reflexivity|].
    assert (Eo : offered_ids (c :: cs) = offered_ids [c] ++ offered_ids cs).
    { cbn [offered_ids flat_map]. rewrite app_nil_r. reflexivity. }
    rewrite Eo in *. rewrite zlen_app in *. apply Forall_app in Hu as [Hu1 Hu2]. pose proof (zlen_nonneg (offered_ids cs)).
    pose proof (do_same c Hs Ec Hc) as Hd. destruct (pk_do header hash64 cf o c) as [[o1 s]|e] eqn:E.
    - destruct Hd as (o1' & -> & Ec1 & Hc1). cbn [bind].
      destruct (do_stands Hs Hu1 ltac:(lia) E) as (r1 & S1 & O1).
      specialize (IH o1 o1' r1 S1 Ec1 Hc1 Hu2 ltac:(lia)). unfold seen_of in *.
      destruct (pk_calls header hash64 cf o1' cs) as [[]|]; destruct (pk_calls header hash64 cf o1 cs) as [[]|]; cbn [bind] in *; congruence.
    - rewrite Hd. reflexivity.
  Qed.
End Calls.

(** C37: after any history of calls on a packed reservoir (uint64 ids, fewer than
    2^64 of them), the state it saves is accepted by a fresh reservoir of the same
    configuration, and from then on the two show exactly the same, call by call:
    emitted ids, saved states and exceptions. *)
Theorem C37_packed_reservoir_state_roundtrip :
  forall header hash64 capacity seed epoch stream_key cf before o seen after,
    reservoir_config header hash64 capacity None seed epoch stream_key = Ok cf -> capacity < 2 ^ 64 ->
    Forall u64 (offered_ids (before ++ after)) -> zlen (offered_ids (before ++ after)) < 2 ^ 64 ->
    pk_calls header hash64 cf pk_init before = Ok (o, seen) ->
    exists o', pk_restore cf (snd (pk_state cf o)) = Ok o'
      /\ seen_of (pk_calls header hash64 cf o' after) = seen_of (pk_calls header hash64 cf o after).
Proof.
  intros header hash64 capacity seed epoch skey cf before o seen after Hc Hcap Hu Hl H.
  pose proof Hc as Hc'. apply config_ok in Hc' as (K1 & K2 & K3 & K4).
  assert (Hcap' : 0 < cf_capacity cf < two64) by (change two64 with (2 ^ 64); lia).
  assert (Eo : offered_ids (before ++ after) = offered_ids before ++ offered_ids after) by apply flat_map_app.
  rewrite Eo, zlen_app in *. apply Forall_app in Hu as [Hu1 Hu2].
  pose proof (zlen_nonneg (offered_ids before)). pose proof (zlen_nonneg (offered_ids after)).
  assert (Hi : stands cf pk_init (rsv_init Z)).
  { constructor; cbn [pk_init pk_core pk_cache].
    - apply Sim_init.
    - apply (@OInv_init Z cf K1 K2).
    - constructor.
    - reflexivity.
    - reflexivity.
    - discriminate. }
  change (2 ^ 64) with two64 in *.
  destruct (calls_stands Hcap' Hi Hu1 ltac:(cbn [rsv_init offered]; lia) H) as (r & Hs & Ho).
  cbn [rsv_init offered] in Ho.
  destruct (pk_restore_state (proj2 Hcap') (stands_PInv Hs)) as (o' & E & Ec & HP).
  exists o'. split; [exact E|]. eapply calls_same; eauto; [exact (pi_cache HP)|lia].
Qed.
Print Assumptions C37_packed_reservoir_state_roundtrip.

(** C37: a state the restore accepts describes a legal reservoir of the same
    configuration: the slots fit the capacity, the counters balance, a closed
    reservoir is empty, and algorithm, seed, epoch, capacity and stream key match. *)
Theorem C37_restore_accepts_only_consistent_states :
  forall cf s o, pk_restore cf s = Ok o ->
    pk_algorithm s = PACKED_RESERVOIR_ALGORITHM
    /\ pk_seed s = cf_seed cf /\ pk_epoch s = cf_epoch cf /\ pk_capacity s = cf_capacity cf
    /\ key_eqb (KTuple (pk_stream_key s)) (KTuple (cf_stream_key cf)) = true
    /\ zlen (p_slots (pk_core o)) <= cf_capacity cf
    /\ p_offered (pk_core o) = p_emitted (pk_core o) + zlen (p_slots (pk_core o))
    /\ (p_closed (pk_core o) = true -> p_slots (pk_core o) = [])
    /\ 0 <= p_rng_counter (pk_core o) < 2 ^ 63.
Proof.
  intros cf s o H. destruct (pk_restore_sound H) as (H1 & H2 & H3 & H4 & H5 & H6 & H7 & H8 & H9 & H10). conj; auto; apply H1.
Qed.
Print Assumptions C37_restore_accepts_only_consistent_states.

Example C37_example :
  exists cf o seen o', reservoir_config [9] toy_hash 3 None 5 0 [KInt 1] = Ok cf
    /\ pk_calls [9] toy_hash cf pk_init [OfferBlock [1; 2]; ReadPacked; OfferBlock [3; 4; 5]] = Ok (o, seen)
    /\ List.length (p_slots (pk_core o)) = 3%nat
    /\ pk_restore cf (snd (pk_state cf o)) = Ok o'
    /\ seen_of (pk_calls [9] toy_hash cf o' [OfferBlock [6; 7]; DrainAll])
       = seen_of (pk_calls [9] toy_hash cf o [OfferBlock [6; 7]; DrainAll]).
Proof.
  do 4 eexists. split; [vm_compute; reflexivity|]. split; [vm_compute; reflexivity|].
  split; [vm_compute; reflexivity|]. split; [vm_compute; reflexivity|]. vm_compute. reflexivity.
Qed.
