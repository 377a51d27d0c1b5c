(** The packed feed of the planner: a source giving blocks of uint64 record ids and
    the PackedUInt64ShuffleReservoir, planner.py:262-304, 336-342, 439-449, 671-694,
    751-760, and the proof that it meets the contracts of PlannerSim.v. *)
From Verif Require Import Base BaseFacts Rng Reservoir ReservoirFacts PackedReservoir PackedReservoirFacts
  PackedState Prop_Reservoir Planner PlannerSim PlannerFeed.
Set Implicit Arguments.
Unset Strict Implicit.

Local Arguments offer_many_core_spec {A cf r items r1 out} _ _ _.
Local Arguments drain_core_spec {A cf header hash64 r r1 out} _ _.

(** A source with next_packed_records (npz_source.py:386-449, 1123-1186). *)
Record packed_source (C D : Type) := {
  ks_next : C -> nat -> res (list Z * C);
  ks_start : Z -> Z -> res C;
  ks_save : C -> res D;
  ks_restore : D -> res C
}.

(** Contract: from the cursor exactly the ids [l] are still to come. *)
Definition serves_packed {C D} (ks : packed_source C D) (RS : C -> list Z -> Prop) : Prop :=
  forall c l limit, RS c l -> (0 < limit)%nat ->
    exists chunk rest c', ks_next ks c limit = Ok (chunk, c') /\ l = chunk ++ rest /\ RS c' rest
      /\ (chunk = [] -> l = []).

Section PackedFeed.
  Variables C D : Type.
  Variable header : bytes.
  Variable hash64 : bytes -> Z.
  Variable ks : packed_source C D.
  Variable fc : fconfig.

  (** planner.py:290-296, packed.py:232-263; the native constructor takes a uint64
      capacity.  shuffle_buffer_bytes is not used for packed ids. *)
  Definition new_packed (epoch cycle : Z) : res rconfig :=
    cf <- reservoir_config header hash64 (fc_capacity fc) None (fc_seed fc) epoch (stream_key fc cycle) ;;
    guard fc_capacity fc <? two64 else TypeError ;;
    Ok cf.

  Record pfeed := { pf_cursor : C; pf_config : rconfig; pf_rsv : pkobj }.

  Definition pf_start (epoch cycle : Z) : res pfeed :=
    c <- ks_start ks epoch cycle ;;
    cf <- new_packed epoch cycle ;;
    Ok {| pf_cursor := c; pf_config := cf; pf_rsv := pk_init |}.

  (** one round of planner.py:439-449. *)
  Definition pf_pull (x : pfeed) : res (list Z * bool * pfeed) :=
    '(block, c) <- ks_next ks (pf_cursor x) SOURCE_CHUNK_SIZE ;;
    match block with
    | [] =>
        '(o, out) <- pk_drain (pf_config x) header hash64 (pf_rsv x) ;;
        Ok (out, true, {| pf_cursor := c; pf_config := pf_config x; pf_rsv := o |})
    | _ =>
        '(o, out) <- pk_offer (pf_config x) (pf_rsv x) block ;;
        Ok (out, false, {| pf_cursor := c; pf_config := pf_config x; pf_rsv := o |})
    end.

  (** planner.py:337-338. *)
  Definition pf_drain (x : pfeed) : res pfeed :=
    if p_closed (pk_core (pf_rsv x)) then Ok x
    else '(o, _) <- pk_drain (pf_config x) header hash64 (pf_rsv x) ;;
         Ok {| pf_cursor := pf_cursor x; pf_config := pf_config x; pf_rsv := o |}.

  Definition pf_save (x : pfeed) : res (D * pkstate) :=
    s <- ks_save ks (pf_cursor x) ;;
    Ok (s, snd (pk_state (pf_config x) (pf_rsv x))).

  (** planner.py:751-760. *)
  Definition pf_restore (epoch cycle : Z) (s : D * pkstate) : res pfeed :=
    c <- ks_restore ks (fst s) ;;
    cf <- new_packed epoch cycle ;;
    o <- pk_restore cf (snd s) ;;
    Ok {| pf_cursor := c; pf_config := cf; pf_rsv := o |}.

  Definition packed_feed : feed pfeed Z (D * pkstate) := {|
    fd_start := pf_start;
    fd_pull := pf_pull;
    fd_offered := fun x => p_offered (pk_core (pf_rsv x));
    fd_drain := pf_drain;
    fd_save := pf_save;
    fd_closed := fun s => pk_closed (snd s);
    fd_restore := pf_restore
  |}.

  (** The stream of one cycle, as the Python reservoir would shuffle it. *)
  Definition zero (v : Z) : Z * Z := (v, 0).
  Definition packed_shuffled (cf : rconfig) (l : list Z) : res (list Z) :=
    '(r, out) <- offer_many_core cf (rsv_init Z) (map zero l) ;;
    '(_, rest) <- drain_core cf header hash64 r ;;
    Ok (out ++ rest).

  Section Contract.
    Variable records : Z -> Z -> list Z.
    Variable RS : Z -> Z -> C -> list Z -> Prop.
    Hypothesis Hserves : forall ep cy, serves_packed ks (RS ep cy).
    Hypothesis Hstart : forall ep cy, 0 <= ep -> 0 <= cy ->
      match ks_start ks ep cy with Ok c => RS ep cy c (records ep cy) | Err _ => True end.
    (** Record ids are uint64 and there are fewer than 2^64 of them. *)
    Hypothesis Hids : forall ep cy, Forall u64 (records ep cy) /\ zlen (records ep cy) < two64.

    (** No draw reaches the end of the counter range (2^63 draws). *)
    Definition packed_cycle_ok : Prop := forall ep cy c cf, 0 <= ep -> 0 <= cy ->
      ks_start ks ep cy = Ok c -> new_packed ep cy = Ok cf ->
      forall done todo, records ep cy = done ++ todo ->
      exists r out r' rest, offer_many_core cf (rsv_init Z) (map zero done) = Ok (r, out)
        /\ rng_counter r < two63
        /\ drain_core cf header hash64 r = Ok (r', rest).
    Hypothesis Hcycle : packed_cycle_ok.

    Definition packed_stream (ep cy : Z) : res (list Z) :=
      _ <- ks_start ks ep cy ;;
      cf <- new_packed ep cy ;;
      packed_shuffled cf (records ep cy).

    (** The packed object [o] stands for the Python reservoir [r]. *)
    Record stands (cf : rconfig) (o : pkobj) (r : rsv Z) : Prop := {
      sd_sim : Sim (pk_core o) r;
      sd_inv : Inv cf r;
      sd_u64 : Forall u64 (slots r);
      sd_off : offered r < two64;
      sd_rng : rng_counter r < two63;
      sd_cache : forall s, pk_cache o = Some s -> s = pk_snapshot cf (pk_core o)
    }.

    Lemma stands_PInv cf o r : stands cf o r -> PInv cf o.
    Proof.
      clear. intros [[S1 S2 S3 S4 S5 S6 S7] [I1 I2 I3 I4 I5 I6 I7 I8 I9 I10 I11] H1 H2 H3 H4].
      assert (Hz := zlen_nonneg (slots r)).
      assert (E1 : p_offered (pk_core o) = offered r) by (rewrite S4; apply Z.mod_small; lia).
      assert (E2 : p_emitted (pk_core o) = emitted r) by (rewrite S5; apply Z.mod_small; lia).
      constructor; rewrite ?S1, ?S3, ?S6, ?S7, ?E1, ?E2; auto; try lia.
    Qed.

    Record preading (ep cy : Z) (x : pfeed) (cf : rconfig) (r : rsv Z) (done todo : list Z) : Prop := {
      rd_pos : 0 <= ep /\ 0 <= cy;
      rd_started : exists c, ks_start ks ep cy = Ok c;
      rd_config : new_packed ep cy = Ok cf;
      rd_x : pf_config x = cf;
      rd_records : records ep cy = done ++ todo;
      rd_cursor : RS ep cy (pf_cursor x) todo;
      rd_rsv : stands cf (pf_rsv x) r
    }.

    Definition PR (ep cy : Z) (st : status) (n : nat) (x : pfeed) (l : list Z) : Prop :=
      exists cf r done todo, preading ep cy x cf r done todo
        /\ match st with
           | Open => exists out,
               offer_many_core cf (rsv_init Z) (map zero done) = Ok (r, out)
               /\ packed_stream ep cy = Ok (out ++ l) /\ (List.length todo < n)%nat
           | Ended => closed r = true /\ l = [] /\ offered r = zlen (records ep cy)
           | Dropped => closed r = true /\ l = []
           end.

    Lemma pfresh ep cy cf : new_packed ep cy = Ok cf ->
      0 < cf_capacity cf < two64 /\ cf_max_bytes cf = None /\ Inv cf (rsv_init Z).
    Proof.
      clear Hserves Hstart Hids Hcycle records RS. intros H. unfold new_packed in H. inv_bind H. apply guard_Ok in H as [Hg H]. injection H as <-.
      apply config_ok in Hm as [K1 [K2 [K3 K4]]]. conj; auto; try lia.
      apply (@OInv_init Z v K1 K2).
    Qed.

    Lemma zero_fst l : map fst (map zero l) = l.
    Proof. rewrite map_map. cbn [zero fst]. apply map_id. Qed.

    Lemma packed_stream_perm ep cy c cf l : ks_start ks ep cy = Ok c -> new_packed ep cy = Ok cf ->
      packed_stream ep cy = Ok l -> Permutation (records ep cy) l.
    Proof.
      intros Hs Hc H. unfold packed_stream in H. rewrite Hs, Hc in H. cbn [bind] in H.
      unfold packed_shuffled in H. inv_bind H. destruct v as [r out]. inv_bind H. destruct v as [r' rest].
      inversion H; subst. destruct (pfresh Hc) as [K [_ I]].
      pose proof (offer_many_core_spec (proj1 K) I Hm) as [I1 [_ [_ [Pm _]]]].
      pose proof (drain_core_spec I1 Hm0) as [_ [_ [_ [Pd _]]]].
      rewrite zero_fst in Pm. cbn [rsv_init slots app] in Pm.
      etransitivity; [exact Pm|]. apply Permutation_app_head. exact Pd.
    Qed.

    Lemma psplit ep cy c cf done todo : 0 <= ep -> 0 <= cy ->
      ks_start ks ep cy = Ok c -> new_packed ep cy = Ok cf -> records ep cy = done ++ todo ->
      exists r out r1 out1 r2 rest,
        offer_many_core cf (rsv_init Z) (map zero done) = Ok (r, out)
        /\ offer_many_core cf r (map zero todo) = Ok (r1, out1)
        /\ drain_core cf header hash64 r1 = Ok (r2, rest)
        /\ packed_stream ep cy = Ok (out ++ out1 ++ rest).
    Proof.
      intros He Hy Hs Hc Hr. destruct (pfresh Hc) as [[K K'] [_ I]].
      destruct (Hcycle He Hy Hs Hc (done := records ep cy) (todo := [])) as [r [out [r' [rest [H1 [H2 H3]]]]]];
        [rewrite app_nil_r; reflexivity|].
      pose proof H1 as H1'. rewrite Hr, map_app in H1'. apply offer_many_core_app in H1'; auto.
      inv_bind H1'. destruct v as [ra oa]. inv_bind H1'. destruct v as [rb ob].
      inversion H1'; subst. exists ra, oa, r, ob, r', rest.
      conj; auto. unfold packed_stream. rewrite Hs, Hc. cbn [bind]. unfold packed_shuffled. rewrite H1.
      cbn [bind]. rewrite H3. cbn [bind]. rewrite app_assoc. reflexivity.
    Qed.

    (** A state reached by offering [done] is within all limits. *)
    Lemma offered_ok ep cy c cf done todo r out : 0 <= ep -> 0 <= cy ->
      ks_start ks ep cy = Ok c -> new_packed ep cy = Ok cf -> records ep cy = done ++ todo ->
      offer_many_core cf (rsv_init Z) (map zero done) = Ok (r, out) ->
      Inv cf r /\ closed r = false /\ Forall u64 (slots r) /\ offered r = zlen done /\ offered r < two64
      /\ rng_counter r < two63 /\ exists r' rest, drain_core cf header hash64 r = Ok (r', rest).
    Proof.
      intros He Hy Hs Hc Hr Ho. destruct (pfresh Hc) as [[K K'] [_ I]].
      pose proof (offer_many_core_spec K I Ho) as [I1 [_ [C1 [P1 [O1 _]]]]].
      destruct (Hcycle He Hy Hs Hc Hr) as [r0 [ou [r' [re [F1 [F2 F3]]]]]].
      rewrite Ho in F1. apply Ok_pair in F1 as [<- <-].
      rewrite zero_fst in P1. cbn [rsv_init slots app offered] in *.
      destruct (Hids ep cy) as [U1 U2]. rewrite Hr in U1, U2. apply Forall_app in U1 as [U1 _].
      rewrite zlen_app in U2. pose proof (zlen_nonneg todo).
      assert (zlen (map zero done) = zlen done) by (unfold zlen; rewrite map_length; reflexivity).
      conj; auto; try lia; eauto.
      apply (Permutation_Forall P1) in U1. apply Forall_app in U1. tauto.
    Qed.

    Lemma drained_rng cf (r r' : rsv Z) out : drain_core cf header hash64 r = Ok (r', out) ->
      rng_counter r' = rng_counter r.
    Proof.
      unfold drain_core. destruct (closed r); intros H; [inversion H; reflexivity|].
      inv_bind H. inv_bind H. inversion H; reflexivity.
    Qed.

    (** Draining the packed object. *)
    Lemma pk_drain_ok cf o r r' out : 0 < cf_capacity cf < two64 -> stands cf o r -> closed r = false ->
      drain_core cf header hash64 r = Ok (r', out) ->
      exists o', pk_drain cf header hash64 o = Ok (o', out) /\ stands cf o' r'.
    Proof.
      intros Hcap [S1 S2 S3 S4 S5 S6] Hc Hd.
      assert (Hcap' : 0 < cf_capacity cf <= two64) by lia.
      destruct (w_drain_complete Hcap' header hash64 S1 S2 S4 Hd) as [p1 Hp].
      destruct (w_drain_sim Hcap' header hash64 S1 S2 S4 Hp) as [r1 [E1 [E2 E3]]].
      rewrite Hd in E1. apply Ok_pair in E1 as [<- _].
      pose proof (drain_core_spec S2 Hd) as [I2 [C2 [Z2 [P2 [O2 _]]]]].
      unfold pk_drain. rewrite (s_closed S1), Hc, Hp. cbn [bind].
      eexists; split; [reflexivity|]. constructor; cbn [pk_core pk_cache]; auto; try congruence.
      rewrite Z2. constructor.
    Qed.

    Lemma pk_offer_ok cf o r block r' out : 0 < cf_capacity cf < two64 -> cf_max_bytes cf = None ->
      stands cf o r -> closed r = false -> block <> [] ->
      offer_many_core cf r (map zero block) = Ok (r', out) ->
      rng_counter r' < two63 -> Forall u64 (slots r') -> offered r' < two64 ->
      exists o', pk_offer cf o block = Ok (o', out) /\ stands cf o' r'.
    Proof.
      intros Hcap Hmb [S1 S2 S3 S4 S5 S6] Hc Hne Ho Hr Hu Hoff.
      assert (Hcap' : 0 < cf_capacity cf <= two64) by lia.
      assert (Hz : offer_zero_core cf r block = Ok (r', out)).
      { rewrite offer_zero_core_many by (auto; lia). exact Ho. }
      destruct (p_offer_complete Hcap' block S1 S2 Hc Hz Hr) as [p1 Hp].
      destruct (p_offer_sim Hcap' block S1 S2 Hp) as [r1 [E1 [E2 E3]]].
      rewrite Hz in E1. apply Ok_pair in E1 as [<- _].
      unfold pk_offer. rewrite Hp. cbn [bind]. eexists; split; [reflexivity|].
      constructor; cbn [pk_core pk_cache]; auto.
      - apply (offer_many_core_spec (proj1 Hcap) S2 Ho).
      - destruct block; [congruence|discriminate].
    Qed.

    Lemma packed_feeds : feeds packed_feed packed_stream PR.
    Proof.
      constructor.
      - intros ep cy He Hy. cbn [packed_feed fd_start]. unfold pf_start.
        destruct (ks_start ks ep cy) as [c|e] eqn:Hs.
        2:{ unfold packed_stream. rewrite Hs. reflexivity. }
        destruct (new_packed ep cy) as [cf|e] eqn:Hc.
        2:{ unfold packed_stream. rewrite Hs, Hc. reflexivity. }
        destruct (psplit He Hy Hs Hc (done := []) (todo := records ep cy) eq_refl)
          as [r [o1 [r1 [o2 [r2 [re [E1 [E2 [E3 E4]]]]]]]]].
        pose proof (offered_ok He Hy Hs Hc (done := []) (todo := records ep cy) eq_refl E1)
          as [I1 [C1 [U1 [O1 [O1' [R1 _]]]]]].
        assert (Ea : rsv_init Z = r /\ [] = o1).
        { cbn [map] in E1. unfold offer_many_core in E1. cbn in E1. apply Ok_pair in E1. exact E1. }
        destruct Ea as [<- <-].
        rewrite E4. cbn [bind]. eexists; exists (S (List.length (records ep cy))).
        split; [reflexivity|].
        pose proof (Hstart He Hy) as HR. rewrite Hs in HR.
        exists cf, (rsv_init Z), [], (records ep cy). split.
        + constructor; eauto. constructor; auto; [apply Sim_init|discriminate].
        + exists []. conj; auto.
      - intros ep cy n x l [cf [r [done [todo [Hrd [out [Ho [Hst Hn]]]]]]]].
        destruct Hrd as [[He Hy] [c0 Hs] Hc Hx Hr Hcur Hrsv].
        destruct (pfresh Hc) as [K [Kb I]].
        destruct (offered_ok He Hy Hs Hc Hr Ho) as [I1 [C1 [U1 [O1 [O1' [R1 [rd [dout Hd]]]]]]]].
        cbn [packed_feed fd_pull]. unfold pf_pull.
        destruct (Hserves Hcur (limit := SOURCE_CHUNK_SIZE)) as [chunk [rest [c' [H1 [H2 [H3 H5]]]]]];
          [unfold SOURCE_CHUNK_SIZE; lia|].
        rewrite H1. cbn [bind]. rewrite Hx. destruct chunk as [|e chunk].
        + specialize (H5 eq_refl). rewrite H5 in *. cbn [app] in H2. subst rest.
          destruct (pk_drain_ok K Hrsv C1 Hd) as [o' [E1 E2]]. rewrite E1. cbn [bind].
          destruct (psplit He Hy Hs Hc Hr) as [ra [oa [rb [ob [rc [oc [F1 [F2 [F3 F4]]]]]]]]].
          rewrite Ho in F1. apply Ok_pair in F1 as [<- <-].
          cbn [map] in F2. unfold offer_many_core in F2. rewrite C1 in F2. cbn in F2.
          apply Ok_pair in F2 as [<- <-]. rewrite Hd in F3. apply Ok_pair in F3 as [<- <-].
          rewrite Hst in F4. injection F4 as F4. apply app_inv_head in F4. cbn [app] in F4. subst l.
          do 4 eexists. split; [reflexivity|]. split; [symmetry; apply app_nil_r|]. split; [reflexivity|].
          pose proof (drain_core_spec I1 Hd) as [I2 [C2 [Z2 [P2 [O2 _]]]]].
          exists cf, rd, done, []. split; [constructor; eauto|]. conj; auto.
          rewrite O2, O1, Hr, app_nil_r. reflexivity.
        + subst todo. rewrite app_assoc in Hr.
          destruct (psplit He Hy Hs Hc Hr) as [ra [oa [rb [ob [rc [oc [F1 [F2 [F3 F4]]]]]]]]].
          pose proof (offered_ok He Hy Hs Hc Hr F1) as [J1 [J2 [J3 [J4 [J5 [J6 _]]]]]].
          pose proof F1 as F1'. rewrite map_app in F1'. apply offer_many_core_app in F1'; auto; [|lia].
          inv_bind F1'. destruct v as [r1 o1]. inv_bind F1'. destruct v as [r2 o2].
          rewrite Ho in Hm. apply Ok_pair in Hm as [<- <-]. apply Ok_pair in F1' as [-> <-].
          destruct (pk_offer_ok K Kb Hrsv C1 (block := e :: chunk) ltac:(discriminate) Hm0 J6 J3 J5) as [o' [E1 E2]].
          rewrite E1. cbn [bind]. do 3 eexists. exists (ob ++ oc). split; [reflexivity|].
          rewrite Hst in F4. injection F4 as F4. rewrite <- app_assoc in F4. apply app_inv_head in F4.
          split; [exact F4|]. exists (S (List.length rest)).
          split; [rewrite app_length in Hn; cbn [List.length] in Hn; lia|].
          exists cf, ra, (done ++ e :: chunk), rest. split; [constructor; eauto|].
          exists (out ++ o2). conj; auto. rewrite <- app_assoc. congruence.
      - intros ep cy n x l all [cf [r [done [todo [Hrd [Hcl [-> Ho]]]]]]] Hst. split; [reflexivity|].
        destruct Hrd as [[He Hy] [c0 Hs] Hc Hx Hr Hcur Hrsv]. cbn [packed_feed fd_offered].
        destruct Hrsv as [S1 S2 S3 S4 S5 S6]. rewrite (s_off S1), Z.mod_small.
        + rewrite Ho. unfold zlen. f_equal. apply Permutation_length. eapply packed_stream_perm; eauto.
        + split; [|lia]. rewrite Ho. apply zlen_nonneg.
      - intros ep cy st n x l [cf [r [done [todo [Hrd Hst]]]]]. cbn [packed_feed fd_drain]. unfold pf_drain.
        pose proof (rd_rsv Hrd) as Hrsv. rewrite (s_closed (sd_sim Hrsv)).
        destruct st.
        + destruct Hst as [out [Ho [Hs Hn]]].
          destruct Hrd as [[He Hy] [c0 Hs0] Hc Hx Hr Hcur _].
          destruct (pfresh Hc) as [K [Kb I]].
          destruct (offered_ok He Hy Hs0 Hc Hr Ho) as [I1 [C1 [U1 [O1 [O1' [R1 [rd [dout Hd]]]]]]]].
          rewrite C1, Hx. destruct (pk_drain_ok K Hrsv C1 Hd) as [o' [E1 E2]]. rewrite E1. cbn [bind].
          eexists; split; [reflexivity|]. cbn [is_open].
          exists cf, rd, done, todo. split; [constructor; eauto|]. split; [|reflexivity].
          apply (drain_core_spec I1 Hd).
        + destruct Hst as [Hcl [-> Ho]]. rewrite Hcl. eexists; split; [reflexivity|].
          cbn [is_open]. exists cf, r, done, todo. auto.
        + destruct Hst as [Hcl ->]. rewrite Hcl. eexists; split; [reflexivity|].
          cbn [is_open]. exists cf, r, done, todo. auto.
    Qed.

    Hypothesis Hresume : forall ep cy c l, RS ep cy c l ->
      exists d c', ks_save ks c = Ok d /\ ks_restore ks d = Ok c' /\ RS ep cy c' l.

    Lemma packed_resumes : resumes packed_feed PR.
    Proof.
      intros ep cy st n x l [cf [r [done [todo [Hrd Hst]]]]].
      destruct (Hresume (rd_cursor Hrd)) as [d [c' [H1 [H2 H3]]]].
      cbn [packed_feed fd_save fd_closed fd_restore]. unfold pf_save, pf_restore. rewrite H1. cbn [bind].
      destruct Hrd as [[He Hy] [c0 Hs0] Hc Hx Hr Hcur Hrsv]. rewrite Hx.
      destruct (pfresh Hc) as [K [Kb I]].
      assert (HP := stands_PInv Hrsv).
      destruct (pk_restore_state (proj2 K) HP) as [o' [G1 [G2 G3]]].
      assert (Hcl : closed r = negb (is_open st)).
      { destruct st; cbn [is_open negb]; [|tauto|tauto]. destruct Hst as [out [Ho _]].
        apply (offered_ok He Hy Hs0 Hc Hr Ho). }
      exists (d, snd (pk_state cf (pf_rsv x))), {| pf_cursor := c'; pf_config := cf; pf_rsv := o' |}, n.
      cbn [fst snd]. conj; auto.
      - rewrite pk_state_snapshot by auto. cbn [pk_snapshot pk_closed]. rewrite (s_closed (sd_sim Hrsv)). exact Hcl.
      - rewrite H2. cbn [bind]. rewrite Hc. cbn [bind]. rewrite G1. reflexivity.
      - exists cf, r, done, todo. split; auto. constructor; eauto.
        destruct Hrsv as [S1 S2 S3 S4 S5 S6]. constructor; cbn [pf_rsv]; auto; [rewrite G2; exact S1|apply G3].
    Qed.
  End Contract.
End PackedFeed.

(** ** What the planner needs of a packed source, in one place *)
Record packed_ok {C D} header hash64 (ks : packed_source C D) (fc : fconfig)
    (records : Z -> Z -> list Z) (RS : Z -> Z -> C -> list Z -> Prop) : Prop := {
  po_serves : forall ep cy, serves_packed ks (RS ep cy);
  po_start : forall ep cy, 0 <= ep -> 0 <= cy ->
    match ks_start ks ep cy with Ok c => RS ep cy c (records ep cy) | Err e => e <> OutOfFuel end;
  po_ids : forall ep cy, Forall u64 (records ep cy) /\ zlen (records ep cy) < two64;
  po_cycle : packed_cycle_ok header hash64 ks fc records
}.

Definition packed_resumes_ok {C D} (ks : packed_source C D) (RS : Z -> Z -> C -> list Z -> Prop) : Prop :=
  forall ep cy c l, RS ep cy c l ->
    exists d c', ks_save ks c = Ok d /\ ks_restore ks d = Ok c' /\ RS ep cy c' l.

Section Ok.
  Variables C D : Type.
  Variable header : bytes.
  Variable hash64 : bytes -> Z.
  Variable ks : packed_source C D.
  Variable fc : fconfig.
  Variable records : Z -> Z -> list Z.
  Variable RS : Z -> Z -> C -> list Z -> Prop.
  Hypothesis Hok : packed_ok header hash64 ks fc records RS.

  Lemma po_start' ep cy : 0 <= ep -> 0 <= cy ->
    match ks_start ks ep cy with Ok c => RS ep cy c (records ep cy) | Err _ => True end.
  Proof. intros He Hy. pose proof (po_start Hok He Hy). destruct (ks_start ks ep cy); auto. Qed.

  Lemma packed_source_feeds : feeds (packed_feed header hash64 ks fc) (packed_stream header hash64 ks fc records)
      (PR header hash64 ks fc records RS).
  Proof. apply packed_feeds; [apply (po_serves Hok)|apply po_start'|apply (po_ids Hok)|apply (po_cycle Hok)]. Qed.

  Lemma packed_source_resumes : packed_resumes_ok ks RS ->
    resumes (packed_feed header hash64 ks fc) (PR header hash64 ks fc records RS).
  Proof. intros H. apply packed_resumes; auto; try exact (po_serves Hok); try exact (po_ids Hok); try exact (po_cycle Hok); exact po_start'. Qed.

  Lemma packed_stream_records ep cy l : packed_stream header hash64 ks fc records ep cy = Ok l ->
    Permutation (records ep cy) l.
  Proof.
    intros H. pose proof H as H'. unfold packed_stream in H'. inv_bind H'. inv_bind H'. eapply packed_stream_perm; eauto.
  Qed.

  Lemma packed_stream_order ep cy l : fc_capacity fc = 1 -> packed_stream header hash64 ks fc records ep cy = Ok l ->
    l = records ep cy.
  Proof.
    intros Hc H. unfold packed_stream in H. inv_bind H. inv_bind H. unfold packed_shuffled in H. inv_bind H. destruct v1 as [r out].
    inv_bind H. destruct v1 as [r1 rest]. injection H as <-.
    destruct (pfresh Hm0) as (K & _ & I). unfold new_packed in Hm0. inv_bind Hm0. apply guard_Ok in Hm0 as [_ Hm0].
    injection Hm0 as <-. apply config_ok in Hm3 as (_ & _ & Hcap & _).
    eapply shuffled_unit; [|rewrite Hcap; exact Hc|exact I|exact Hm1|exact Hm2]. reflexivity.
  Qed.

  Lemma packed_no_fuel ep cy : 0 <= ep -> 0 <= cy -> packed_stream header hash64 ks fc records ep cy <> Err OutOfFuel.
  Proof.
    intros He Hy. pose proof (po_start Hok He Hy) as Hs. unfold packed_stream. destruct (ks_start ks ep cy) as [c|e] eqn:Es; cbn [bind]; [|congruence].
    pose proof (@reservoir_config_no_fuel header hash64 (fc_capacity fc) None (fc_seed fc) ep (stream_key fc cy)) as Hr.
    assert (Hn : new_packed header hash64 fc ep cy <> Err OutOfFuel).
    { unfold new_packed. destruct (reservoir_config _ _ _ _ _ _ _) as [cf|e]; cbn [bind]; [|congruence].
      destruct (fc_capacity fc <? two64); discriminate. }
    destruct (new_packed header hash64 fc ep cy) as [cf|e] eqn:Ec; cbn [bind]; [|congruence].
    destruct (po_cycle Hok He Hy Es Ec (done := records ep cy) (todo := [])) as [r [out [r' [rest [H1 [H2 H3]]]]]];
      [rewrite app_nil_r; reflexivity|].
    unfold packed_shuffled. rewrite H1. cbn [bind]. rewrite H3. cbn [bind]. discriminate.
  Qed.
End Ok.
