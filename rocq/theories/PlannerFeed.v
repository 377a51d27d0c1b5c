(** The object feed of the planner: a record source and the
    StreamingShuffleReservoir, planner.py:262-304, 318-342, 404-437, 671-694,
    751-760, and the proof that it meets the contracts of PlannerSim.v. *)
From Verif Require Import Base BaseFacts Rng Reservoir ReservoirFacts Prop_Reservoir Source Planner PlannerSim.
Set Implicit Arguments.
Unset Strict Implicit.

Local Arguments offer_many_core_spec {A cf r items r1 out} _ _ _.
Local Arguments drain_core_spec {A cf header hash64 r r1 out} _ _.
Local Arguments serves_many {C P src R} _ {f c l limit} _ _ _.
Local Arguments serves_next {C P src R} _ {c l} _.
Local Arguments restore_state {A cf o} _ _.

(** source.py: a source with its cursor life cycle.  [ss_start epoch cycle] is
    start_epoch (cycle 0) or start_cycle of this rank; [ss_zero] is
    zero_resident_envelopes. *)
Record resumable (C P D : Type) := {
  ss_src : source C P;
  ss_start : Z -> Z -> res C;
  ss_save : C -> res D;
  ss_restore : D -> res C;
  ss_zero : bool
}.

(** What the planner passes to its reservoirs: shuffle_buffer_size if shuffle else
    1, shuffle_buffer_bytes, the seed and the manifest digest (planner.py:283-304). *)
Record fconfig := {
  fc_capacity : Z;
  fc_max_bytes : option Z;
  fc_seed : Z;
  fc_digest : string
}.

Definition SOURCE_CHUNK_SIZE : nat := 1024.  (* planner.py:30 *)

Section ObjectFeed.
  Variables C P D : Type.
  Variable header : bytes.
  Variable hash64 : bytes -> Z.
  Variable sr : resumable C P D.
  Variable fc : fconfig.

  Local Notation env := (envelope P).

  (** planner.py:283-290: the stream key. *)
  Definition stream_key (cycle : Z) : list key :=
    if cycle =? 0 then [str (fc_digest fc)]
    else [str (fc_digest fc); str "source-cycle"; KInt cycle].

  (** planner.py:283-304 _new_reservoir (the unpacked branch). *)
  Definition new_reservoir (epoch cycle : Z) : res rconfig :=
    reservoir_config header hash64 (fc_capacity fc) (fc_max_bytes fc) (fc_seed fc) epoch
      (stream_key cycle).

  Record ofeed := { of_cursor : C; of_config : rconfig; of_rsv : reservoir env }.

  Definition of_start (epoch cycle : Z) : res ofeed :=
    c <- ss_start sr epoch cycle ;;
    cf <- new_reservoir epoch cycle ;;
    Ok {| of_cursor := c; of_config := cf; of_rsv := reservoir_init env |}.

  (** one round of planner.py:408-437. *)
  Definition of_pull (x : ofeed) : res (list env * bool * ofeed) :=
    let cf := of_config x in
    match s_many (ss_src sr) with
    | Some many =>
        '(envelopes, c) <- many (of_cursor x) SOURCE_CHUNK_SIZE ;;
        match envelopes with
        | [] =>
            '(o, out) <- drain cf header hash64 (of_rsv x) ;;
            Ok (out, true, {| of_cursor := c; of_config := cf; of_rsv := o |})
        | _ =>
            '(o, out) <- (if ss_zero sr then offer_zero_sized cf (of_rsv x) envelopes
                          else offer_many cf (of_rsv x) (map (fun e => (e, e_bytes e)) envelopes)) ;;
            Ok (out, false, {| of_cursor := c; of_config := cf; of_rsv := o |})
        end
    | None =>
        '(next, c) <- s_next (ss_src sr) (of_cursor x) ;;
        match next with
        | None =>
            '(o, out) <- drain cf header hash64 (of_rsv x) ;;
            Ok (out, true, {| of_cursor := c; of_config := cf; of_rsv := o |})
        | Some e =>
            '(o, out) <- offer cf (of_rsv x) e (e_bytes e) ;;
            Ok (out, false, {| of_cursor := c; of_config := cf; of_rsv := o |})
        end
    end.

  (** planner.py:337-338. *)
  Definition of_drain (x : ofeed) : res ofeed :=
    if closed (core (of_rsv x)) then Ok x
    else '(o, _) <- drain (of_config x) header hash64 (of_rsv x) ;;
         Ok {| of_cursor := of_cursor x; of_config := of_config x; of_rsv := o |}.

  (** planner.py:682-690 (the reservoir's cache fill is not observable, C04). *)
  Definition of_save (x : ofeed) : res (D * rstate env) :=
    s <- ss_save sr (of_cursor x) ;;
    Ok (s, snd (state (of_config x) (of_rsv x))).

  (** planner.py:751-760. *)
  Definition of_restore (epoch cycle : Z) (s : D * rstate env) : res ofeed :=
    c <- ss_restore sr (fst s) ;;
    cf <- new_reservoir epoch cycle ;;
    o <- restore cf (snd s) ;;
    Ok {| of_cursor := c; of_config := cf; of_rsv := o |}.

  Definition object_feed : feed ofeed env (D * rstate env) := {|
    fd_start := of_start;
    fd_pull := of_pull;
    fd_offered := fun x => offered (core (of_rsv x));
    fd_drain := of_drain;
    fd_save := of_save;
    fd_closed := fun s => st_closed (snd s);
    fd_restore := of_restore
  |}.

  (** ** The stream of one cycle, from outside: the source's records offered in
      order to a fresh reservoir, then what the final drain gives. *)
  Definition charge (e : env) : env * Z :=
    (e, match s_many (ss_src sr) with Some _ => if ss_zero sr then 0 else e_bytes e | None => e_bytes e end).

  Definition shuffled (cf : rconfig) (l : list env) : res (list env) :=
    '(r, out) <- offer_many_core cf (rsv_init env) (map charge l) ;;
    '(_, rest) <- drain_core cf header hash64 r ;;
    Ok (out ++ rest).

  Section Contract.
    (** The records of each cycle, and what it means for a cursor to have [l] left. *)
    Variable records : Z -> Z -> list env.
    Variable RS : Z -> Z -> C -> list env -> Prop.
    Hypothesis Hserves : forall ep cy, serves (ss_src sr) (RS ep cy).
    Hypothesis Hstart : forall ep cy, 0 <= ep -> 0 <= cy ->
      match ss_start sr ep cy with Ok c => RS ep cy c (records ep cy) | Err _ => True end.

    (** No reservoir call fails in a started cycle: record sizes are within the byte
        budget and no draw reaches the end of the counter range (2^63 draws). *)
    Definition cycle_ok : Prop := forall ep cy c cf, 0 <= ep -> 0 <= cy ->
      ss_start sr ep cy = Ok c -> new_reservoir ep cy = Ok cf ->
      forall done todo, records ep cy = done ++ todo ->
      exists r out r' rest, offer_many_core cf (rsv_init env) (map charge done) = Ok (r, out)
        /\ rng_counter r < two63
        /\ drain_core cf header hash64 r = Ok (r', rest).
    Hypothesis Hcycle : cycle_ok.

    Definition stream (ep cy : Z) : res (list env) :=
      _ <- ss_start sr ep cy ;;
      cf <- new_reservoir ep cy ;;
      shuffled cf (records ep cy).

    Record reading (ep cy : Z) (x : ofeed) (cf : rconfig) (done todo : list env) : Prop := {
      rd_pos : 0 <= ep /\ 0 <= cy;
      rd_started : exists c, ss_start sr ep cy = Ok c;
      rd_config : new_reservoir ep cy = Ok cf;
      rd_x : of_config x = cf;
      rd_records : records ep cy = done ++ todo;
      rd_cursor : RS ep cy (of_cursor x) todo;
      rd_inv : OInv cf (of_rsv x)
    }.

    Definition R (ep cy : Z) (st : status) (n : nat) (x : ofeed) (l : list env) : Prop :=
      exists cf done todo, reading ep cy x cf done todo
        /\ match st with
           | Open => exists out,
               offer_many_core cf (rsv_init env) (map charge done) = Ok (core (of_rsv x), out)
               /\ stream ep cy = Ok (out ++ l) /\ (List.length todo < n)%nat
           | Ended => closed (core (of_rsv x)) = true /\ l = []
               /\ offered (core (of_rsv x)) = zlen (records ep cy)
               /\ rng_counter (core (of_rsv x)) < two63
           | Dropped => closed (core (of_rsv x)) = true /\ l = []
               /\ rng_counter (core (of_rsv x)) < two63
           end.

    Lemma fresh ep cy cf : new_reservoir ep cy = Ok cf ->
      0 < cf_capacity cf /\ OInv cf (reservoir_init env) /\ Inv cf (rsv_init env).
    Proof.
      intros H. unfold new_reservoir in H. apply config_ok in H as [K1 [K2 _]].
      split; [exact K1|]. pose proof (@OInv_init env cf K1 K2) as O. split; [exact O|]. apply O.
    Qed.

    Lemma charge_fst l : map fst (map charge l) = l.
    Proof. rewrite map_map. cbn [charge fst]. apply map_id. Qed.

    Lemma stream_perm ep cy c cf l : ss_start sr ep cy = Ok c -> new_reservoir ep cy = Ok cf ->
      stream ep cy = Ok l -> Permutation (records ep cy) l.
    Proof.
      intros Hs Hc H. unfold stream in H. rewrite Hs, Hc in H. cbn [bind] in H.
      unfold shuffled in H. inv_bind H. destruct v as [r out]. inv_bind H. destruct v as [r' rest].
      inversion H; subst. destruct (fresh Hc) as [K [O I]].
      pose proof (offer_many_core_spec K I Hm) as [I1 [_ [_ [Pm _]]]].
      pose proof (drain_core_spec I1 Hm0) as [_ [_ [_ [Pd _]]]].
      rewrite charge_fst in Pm. cbn [rsv_init slots app] in Pm.
      etransitivity; [exact Pm|]. apply Permutation_app_head. exact Pd.
    Qed.

    (** After offering [done], what remains is what offering [todo] and draining gives. *)
    Lemma split_stream ep cy c cf done todo : 0 <= ep -> 0 <= cy ->
      ss_start sr ep cy = Ok c -> new_reservoir ep cy = Ok cf -> records ep cy = done ++ todo ->
      exists r out r1 out1 r2 rest,
        offer_many_core cf (rsv_init env) (map charge done) = Ok (r, out)
        /\ offer_many_core cf r (map charge todo) = Ok (r1, out1)
        /\ drain_core cf header hash64 r1 = Ok (r2, rest)
        /\ stream ep cy = Ok (out ++ out1 ++ rest).
    Proof.
      intros He Hy Hs Hc Hr. destruct (fresh Hc) as [K [O I]].
      destruct (Hcycle He Hy Hs Hc (done := records ep cy) (todo := [])) as [r [out [r' [rest [H1 [H2 H3]]]]]];
        [rewrite app_nil_r; reflexivity|].
      pose proof H1 as H1'. rewrite Hr, map_app in H1'. apply offer_many_core_app in H1'; auto.
      inv_bind H1'. destruct v as [ra oa]. inv_bind H1'. destruct v as [rb ob].
      inversion H1'; subst. exists ra, oa, r, ob, r', rest.
      conj; auto. unfold stream. rewrite Hs, Hc. cbn [bind]. unfold shuffled. rewrite H1.
      cbn [bind]. rewrite H3. cbn [bind]. rewrite app_assoc. reflexivity.
    Qed.

    Lemma Ok_pair {U V} (a c : U) (b d : V) : Ok (a, b) = Ok (c, d) -> a = c /\ b = d.
    Proof. intros H. inversion H. auto. Qed.

    Lemma pull_drain ep cy n x l : R ep cy Open n x l ->
      forall cf done, reading ep cy x cf done [] -> 
      (exists out, offer_many_core cf (rsv_init env) (map charge done) = Ok (core (of_rsv x), out)
         /\ stream ep cy = Ok (out ++ l)) ->
      exists o, drain cf header hash64 (of_rsv x) = Ok (o, l)
        /\ forall c, RS ep cy c [] ->
             R ep cy Ended 0 {| of_cursor := c; of_config := cf; of_rsv := o |} [].
    Proof.
      intros _ cf done [[He Hy] [c0 Hs] Hc Hx Hr Hcur Hinv] [out [Ho Hst]].
      destruct (split_stream He Hy Hs Hc Hr) as [r [o1 [r1 [o2 [r2 [rest [E1 [E2 [E3 E4]]]]]]]]].
      rewrite Ho in E1. apply Ok_pair in E1 as [<- <-].
      destruct (fresh Hc) as [K [O I]].
      pose proof (offer_many_core_spec K I Ho) as [I1 [_ [C1 [P1 [O1 _]]]]].
      cbn [map] in E2. unfold offer_many_core in E2. rewrite C1 in E2. cbn in E2.
      apply Ok_pair in E2 as [<- <-]. rewrite Hst in E4. inversion E4 as [E5].
      apply app_inv_head in E5. cbn [app] in E5. subst l.
      unfold drain. rewrite E3. cbn [bind].
      eexists; split; [reflexivity|]. intros c Hc2. rewrite C1.
      pose proof (drain_core_spec I1 E3) as [I2 [C2 [S2 [P2 [O2 _]]]]].
      exists cf, done, []. split.
      - constructor; auto; [eauto|]. split; [exact I2|discriminate].
      - cbn [of_rsv core]. conj; auto.
        + rewrite O2, O1. cbn [rsv_init offered]. unfold zlen. rewrite map_length, Hr, app_nil_r. lia.
        + destruct (Hcycle He Hy Hs Hc (done := done) (todo := []) Hr) as [r [ou [r' [re [F1 [F2 F3]]]]]].
          rewrite Ho in F1. apply Ok_pair in F1 as [<- <-].
          unfold drain_core in E3. rewrite C1 in E3. inv_bind E3. inv_bind E3. inversion E3; subst. exact F2.
    Qed.

    Lemma pull_offer ep cy x l cf done chunk rest out : reading ep cy x cf done (chunk ++ rest) ->
      chunk <> [] ->
      offer_many_core cf (rsv_init env) (map charge done) = Ok (core (of_rsv x), out) ->
      stream ep cy = Ok (out ++ l) ->
      exists r out1 l', offer_many_core cf (core (of_rsv x)) (map charge chunk) = Ok (r, out1)
        /\ l = out1 ++ l'
        /\ forall c, RS ep cy c rest ->
             R ep cy Open (S (List.length rest))
               {| of_cursor := c; of_config := cf; of_rsv := {| core := r; cache := None |} |} l'.
    Proof.
      intros [[He Hy] [c0 Hs] Hc Hx Hr Hcur Hinv] Hne Ho Hst.
      rewrite app_assoc in Hr.
      destruct (split_stream He Hy Hs Hc Hr) as [r [o1 [r1 [o2 [r2 [re [E1 [E2 [E3 E4]]]]]]]]].
      destruct (fresh Hc) as [K [O I]].
      pose proof E1 as E1'. rewrite map_app in E1'. apply offer_many_core_app in E1'; auto.
      inv_bind E1'. destruct v as [ra oa]. inv_bind E1'. destruct v as [rb ob].
      rewrite Ho in Hm. apply Ok_pair in Hm as [<- <-]. apply Ok_pair in E1' as [<- <-].
      exists rb, ob, (o2 ++ re). conj; auto.
      - rewrite Hst in E4. inversion E4 as [E5]. rewrite <- app_assoc in E5.
        apply app_inv_head in E5. exact E5.
      - intros c Hcr. exists cf, (done ++ chunk), rest. split.
        + constructor; auto; [eauto|]. split; [|discriminate].
          apply (offer_many_core_spec K I E1).
        + exists (out ++ ob). cbn [of_rsv core]. conj; auto.
    Qed.

    Lemma object_feeds : feeds object_feed stream R.
    Proof.
      constructor.
      - intros ep cy He Hy. cbn [object_feed fd_start]. unfold of_start.
        destruct (ss_start sr ep cy) as [c|e] eqn:Hs.
        2:{ unfold stream. rewrite Hs. reflexivity. }
        destruct (new_reservoir ep cy) as [cf|e] eqn:Hc.
        2:{ unfold stream. rewrite Hs, Hc. reflexivity. }
        destruct (split_stream He Hy Hs Hc (done := []) (todo := records ep cy) eq_refl)
          as [r [o1 [r1 [o2 [r2 [re [E1 [E2 [E3 E4]]]]]]]]].
        assert (Ea : rsv_init env = r /\ [] = o1).
        { cbn [map] in E1. unfold offer_many_core in E1. cbn in E1. apply Ok_pair in E1. exact E1. }
        destruct Ea as [<- <-].
        rewrite E4. cbn [bind]. eexists; exists (S (List.length (records ep cy))).
        split; [reflexivity|].
        pose proof (Hstart He Hy) as HR. rewrite Hs in HR. destruct (fresh Hc) as [K [O I]].
        exists cf, [], (records ep cy). split; [constructor; eauto|].
        exists []. cbn [of_rsv core reservoir_init]. conj; auto.
      - intros ep cy n x l HR. pose proof HR as HR'.
        destruct HR as [cf [done [todo [Hrd [out [Ho [Hst Hn]]]]]]].
        pose proof (rd_cursor Hrd) as Hcur. pose proof (rd_x Hrd) as Hx. pose proof (rd_inv Hrd) as Hinv.
        destruct (fresh (rd_config Hrd)) as [K [O I]].
        cbn [object_feed fd_pull]. unfold of_pull. rewrite Hx.
        destruct (s_many (ss_src sr)) as [many|] eqn:Em.
        + destruct (serves_many (Hserves ep cy) Em Hcur (limit := SOURCE_CHUNK_SIZE)) as
            [chunk [rest [c' [H1 [H2 [H3 [H4 H5]]]]]]]; [unfold SOURCE_CHUNK_SIZE; lia|].
          rewrite H1. cbn [bind]. destruct chunk as [|e chunk].
          * specialize (H5 eq_refl). subst todo. cbn [app] in H5. subst rest.
            destruct (pull_drain HR' Hrd) as [o [Hd HE]]; [eauto|].
            rewrite Hd. cbn [bind]. exists l, true, {| of_cursor := c'; of_config := cf; of_rsv := o |}, [].
            rewrite app_nil_r. auto.
          * subst todo. destruct (@pull_offer ep cy x l cf done (e :: chunk) rest out Hrd) as
              [r [out1 [l' [Hq [-> HQ]]]]]; [discriminate|auto|auto|].
            assert (Ed : (if ss_zero sr then offer_zero_sized cf (of_rsv x) (e :: chunk)
                          else offer_many cf (of_rsv x) (map (fun e0 => (e0, e_bytes e0)) (e :: chunk)))
                         = Ok ({| core := r; cache := None |}, out1)).
            { destruct (ss_zero sr) eqn:Ez.
              - unfold offer_zero_sized. rewrite offer_zero_core_many by (auto; apply Hinv).
                rewrite (map_ext charge (fun x0 => (x0, 0))) in Hq
                  by (intros a; unfold charge; rewrite Em, Ez; reflexivity).
                rewrite Hq. reflexivity.
              - unfold offer_many.
                rewrite (map_ext charge (fun e0 => (e0, e_bytes e0))) in Hq
                  by (intros a; unfold charge; rewrite Em, Ez; reflexivity).
                rewrite Hq. reflexivity. }
            rewrite Ed. cbn [bind].
            do 4 eexists. split; [reflexivity|]. split; [reflexivity|].
            exists (S (List.length rest)). split; [|apply HQ; exact H3].
            rewrite app_length in Hn. cbn [List.length] in Hn. lia.
        + destruct (serves_next (Hserves ep cy) Hcur) as [c' [H1 H2]]. rewrite H1. cbn [bind].
          destruct todo as [|e rest]; cbn [hd_error tl] in *.
          * destruct (pull_drain HR' Hrd) as [o [Hd HE]]; [eauto|].
            rewrite Hd. cbn [bind]. exists l, true, {| of_cursor := c'; of_config := cf; of_rsv := o |}, [].
            rewrite app_nil_r. auto.
          * destruct (@pull_offer ep cy x l cf done [e] rest out Hrd) as
              [r [out1 [l' [Hq [-> HQ]]]]]; [discriminate|auto|auto|].
            rewrite offer_spec. cbn [map] in Hq. unfold charge in Hq. rewrite Em in Hq. rewrite Hq.
            cbn [bind]. do 4 eexists. split; [reflexivity|]. split; [reflexivity|].
            exists (S (List.length rest)). split; [|apply HQ; exact H2]. cbn [List.length] in Hn. lia.
      - intros ep cy n x l all [cf [done [todo [Hrd [Hcl [-> [Ho Hr]]]]]]] Hst. split; [reflexivity|].
        cbn [object_feed fd_offered]. rewrite Ho. destruct (rd_started Hrd) as [c Hs].
        unfold zlen. f_equal. apply Permutation_length. eapply stream_perm; eauto. apply (rd_config Hrd).
      - intros ep cy st n x l [cf [done [todo [Hrd Hst]]]]. cbn [object_feed fd_drain]. unfold of_drain.
        destruct st.
        + destruct Hst as [out [Ho [Hs Hn]]].
          destruct Hrd as [[He Hy] [c0 Hs0] Hc Hx Hr Hcur Hinv].
          destruct (fresh Hc) as [K [O I]].
          pose proof (offer_many_core_spec K I Ho) as [I1 [_ [C1 _]]]. rewrite C1, Hx.
          destruct (Hcycle He Hy Hs0 Hc Hr) as [r [ou [r' [re [F1 [F2 F3]]]]]].
          rewrite Ho in F1. apply Ok_pair in F1 as [<- <-].
          unfold drain. rewrite F3, C1. cbn [bind]. eexists; split; [reflexivity|].
          cbn [is_open]. pose proof (drain_core_spec I1 F3) as [I2 [C2 _]].
          exists cf, done, todo. split; [constructor; eauto; split; [exact I2|discriminate]|].
          cbn [of_rsv core]. conj; auto.
          unfold drain_core in F3. rewrite C1 in F3. inv_bind F3. inv_bind F3. inversion F3; subst. exact F2.
        + destruct Hst as [Hcl [-> [Ho Hr]]]. rewrite Hcl. eexists; split; [reflexivity|].
          cbn [is_open]. exists cf, done, todo. auto.
        + destruct Hst as [Hcl [-> Hr]]. rewrite Hcl. eexists; split; [reflexivity|].
          cbn [is_open]. exists cf, done, todo. auto.
    Qed.

    (** Saving and restoring a cursor continues with the same records. *)
    Hypothesis Hresume : forall ep cy c l, RS ep cy c l ->
      exists d c', ss_save sr c = Ok d /\ ss_restore sr d = Ok c' /\ RS ep cy c' l.

    Lemma object_resumes : resumes object_feed R.
    Proof.
      intros ep cy st n x l [cf [done [todo [Hrd Hst]]]].
      destruct (Hresume (rd_cursor Hrd)) as [d [c' [H1 [H2 H3]]]].
      cbn [object_feed fd_save fd_closed fd_restore]. unfold of_save, of_restore. rewrite H1. cbn [bind].
      destruct Hrd as [[He Hy] [c0 Hs0] Hc Hx Hr Hcur Hinv]. rewrite Hx.
      destruct (fresh Hc) as [K [O I]].
      assert (Hlt : rng_counter (core (of_rsv x)) < two63 /\ closed (core (of_rsv x)) = negb (is_open st)).
      { destruct st; cbn [is_open negb].
        - destruct Hst as [out [Ho _]]. destruct (Hcycle He Hy Hs0 Hc Hr) as [r [ou [r' [re [F1 [F2 F3]]]]]].
          rewrite Ho in F1. apply Ok_pair in F1 as [<- <-]. split; [exact F2|].
          apply (offer_many_core_spec K I Ho).
        - tauto.
        - tauto. }
      destruct Hlt as [Hlt Hcl]. destruct (restore_state Hinv Hlt) as [o' [G1 [G2 G3]]].
      exists (d, snd (state cf (of_rsv x))), {| of_cursor := c'; of_config := cf; of_rsv := o' |}, n.
      cbn [fst snd]. conj; auto.
      - rewrite state_snapshot by auto. exact Hcl.
      - rewrite H2. cbn [bind]. rewrite Hc. cbn [bind]. rewrite G1. reflexivity.
      - exists cf, done, todo. split; [constructor; eauto|]. cbn [of_rsv]. rewrite G2. exact Hst.
    Qed.
  End Contract.
End ObjectFeed.

(** ** Starting never runs out of fuel *)
Lemma tlv_no_fuel k : tlv k <> Err OutOfFuel.
Proof.
  assert (Hp : forall n, pack_u32 n <> Err OutOfFuel) by (intros n; unfold pack_u32; destruct (_ && _); discriminate).
  revert k. fix IH 1. intros k. destruct k as [|b|z|s|s|l]; cbn [tlv]; try discriminate.
  - destruct (_ && _); discriminate.
  - specialize (Hp (zlen s)). destruct (pack_u32 (zlen s)); cbn [bind]; congruence.
  - specialize (Hp (zlen s)). destruct (pack_u32 (zlen s)); cbn [bind]; congruence.
  - pose proof (Hp (zlen l)) as Hl. destruct (pack_u32 (zlen l)) as [n|e]; cbn [bind]; [|congruence].
    match goal with |- context [bind (?f l)] => assert (Hg : f l <> Err OutOfFuel) end.
    { clear Hl n. induction l as [|h t IHt]; [discriminate|]. specialize (IH h).
      destruct (tlv h) as [a|e]; cbn [bind]; [|congruence].
      match goal with |- context [bind ?m] => destruct m as [b|e] end; cbn [bind]; congruence. }
    match goal with |- context [bind ?m] => destruct m as [b|e] end; cbn [bind]; congruence.
Qed.

Lemma reservoir_config_no_fuel header hash64 capacity max_bytes seed epoch skey :
  reservoir_config header hash64 capacity max_bytes seed epoch skey <> Err OutOfFuel.
Proof.
  unfold reservoir_config. destruct (0 <? capacity); [|discriminate].
  destruct (match max_bytes with None => true | Some m => 0 <? m end); [|discriminate].
  destruct (0 <=? epoch); [|discriminate]. unfold rng_u64.
  match goal with |- context [if ?c then _ else Err ValueError] => destruct c; [|discriminate] end.
  pose proof (@tlv_no_fuel (KTuple [str "shuffle_reservoir"; KInt seed;
     KTuple [str RESERVOIR_ALGORITHM; KInt epoch; KTuple skey]; KInt 0])) as H.
  destruct (tlv _) as [p|e]; cbn [bind]; [discriminate|congruence].
Qed.

(** ** Without shuffling the reservoir has one slot and keeps the source order. *)
Lemma evict_loop_unit {A} cf (r : rsv A) size r1 out : cf_capacity cf = 1 -> Inv cf r ->
  evict_loop cf (S (List.length (slots r))) r size = Ok (r1, out) ->
  slots r1 = [] /\ out = slots r /\ Inv cf r1 /\ closed r1 = closed r.
Proof.
  intros Hc HI H. apply evict_loop_spec in H; auto. destruct H as (I1 & Pm & _ & Hcl & _ & _ & Hn & _).
  assert (E : slots r1 = []).
  { unfold needs_evict in Hn. destruct (slots r1) as [|x t]; [reflexivity|]. cbn [andb] in Hn.
    rewrite Hc in Hn. unfold zlen in Hn. cbn [List.length] in Hn.
    apply orb_false_iff in Hn as [Hn _]. lia. }
  rewrite E, app_nil_r in Pm. conj; auto.
  pose proof (inv_cap HI) as Hcap. rewrite Hc in Hcap. unfold zlen in Hcap.
  destruct (slots r) as [|x [|y t]]; cbn [List.length] in *; [|apply Permutation_length_1_inv in Pm; auto|lia].
  apply Permutation_nil in Pm. auto.
Qed.

Lemma offer_many_loop_unit {A} cf : cf_capacity cf = 1 -> forall items (r r1 : rsv A) out, Inv cf r -> closed r = false ->
  forallb (fun it => size_ok cf (snd it)) items = true ->
  offer_many_loop cf r items = Ok (r1, out) -> out ++ slots r1 = slots r ++ map fst items.
Proof.
  intros Hc. induction items as [|[x z] items IH]; intros r r1 out HI Hcl Hs H; cbn [offer_many_loop] in H.
  - injection H as <- <-. rewrite app_nil_r. reflexivity.
  - inv_bind H. destruct v as [ra oa]. inv_bind H. destruct v as [rb ob]. injection H as <- <-.
    cbn [forallb snd] in Hs. apply andb_true_iff in Hs as [Hs1 Hs2].
    pose proof Hm as Hm'. apply evict_loop_spec in Hm'; auto. destruct Hm' as (_ & _ & _ & _ & _ & _ & Hn & _).
    destruct (evict_loop_unit Hc HI Hm) as (E1 & E2 & E3 & E4).
    assert (Ha : Inv cf (admit ra x z)) by (apply admit_inv; auto; [lia|congruence]).
    assert (Hca : closed (admit ra x z) = false) by (cbn; congruence).
    pose proof (IH (admit ra x z) rb ob Ha Hca Hs2 Hm0) as K. rewrite <- app_assoc, K, E2. cbn [admit slots map fst]. rewrite E1. reflexivity.
Qed.

Lemma drain_core_unit {A} cf header hash64 (r r1 : rsv A) out : cf_capacity cf = 1 -> Inv cf r -> closed r = false ->
  drain_core cf header hash64 r = Ok (r1, out) -> out = slots r.
Proof.
  intros Hc HI Hcl H. pose proof (drain_core_spec HI H) as (_ & _ & _ & Pm & _).
  pose proof (inv_cap HI) as Hcap. rewrite Hc in Hcap. unfold zlen in Hcap.
  destruct (slots r) as [|x [|y t]]; cbn [List.length] in *; [|apply Permutation_length_1_inv in Pm; auto|lia].
  apply Permutation_nil in Pm. auto.
Qed.

Lemma shuffled_unit {A} cf header hash64 (ch : A -> A * Z) l r out r1 rest :
  (forall x, fst (ch x) = x) -> cf_capacity cf = 1 -> Inv cf (rsv_init A) ->
  offer_many_core cf (rsv_init A) (map ch l) = Ok (r, out) ->
  drain_core cf header hash64 r = Ok (r1, rest) -> out ++ rest = l.
Proof.
  intros Hch Hc HI Ho Hd. assert (K : 0 < cf_capacity cf) by lia.
  pose proof (offer_many_core_spec K HI Ho) as (I1 & _ & C1 & _).
  rewrite (drain_core_unit Hc I1 C1 Hd).
  unfold offer_many_core in Ho. cbn [rsv_init closed negb] in Ho. apply guard_Ok in Ho as [Hs Ho].
  rewrite (offer_many_loop_unit Hc HI eq_refl Hs Ho). cbn [rsv_init slots app].
  rewrite map_map. erewrite map_ext; [apply map_id|]. exact Hch.
Qed.

(** ** What the planner needs of its source, in one place *)
Record source_ok {C P D} header hash64 (sr : resumable C P D) (fc : fconfig)
    (records : Z -> Z -> list (envelope P)) (RS : Z -> Z -> C -> list (envelope P) -> Prop) : Prop := {
  so_serves : forall ep cy, serves (ss_src sr) (RS ep cy);
  so_start : forall ep cy, 0 <= ep -> 0 <= cy ->
    match ss_start sr ep cy with Ok c => RS ep cy c (records ep cy) | Err e => e <> OutOfFuel end;
  so_cycle : cycle_ok header hash64 sr fc records
}.

(** Saving and restoring a cursor continues with the same records. *)
Definition source_resumes {C P D} (sr : resumable C P D) (RS : Z -> Z -> C -> list (envelope P) -> Prop) : Prop :=
  forall ep cy c l, RS ep cy c l ->
    exists d c', ss_save sr c = Ok d /\ ss_restore sr d = Ok c' /\ RS ep cy c' l.

Section Ok.
  Variables C P D : Type.
  Variable header : bytes.
  Variable hash64 : bytes -> Z.
  Variable sr : resumable C P D.
  Variable fc : fconfig.
  Variable records : Z -> Z -> list (envelope P).
  Variable RS : Z -> Z -> C -> list (envelope P) -> Prop.
  Hypothesis Hok : source_ok header hash64 sr fc records RS.

  Lemma so_start' ep cy : 0 <= ep -> 0 <= cy ->
    match ss_start sr ep cy with Ok c => RS ep cy c (records ep cy) | Err _ => True end.
  Proof. intros He Hy. pose proof (so_start Hok He Hy). destruct (ss_start sr ep cy); auto. Qed.

  Lemma source_feeds : feeds (object_feed header hash64 sr fc) (stream header hash64 sr fc records)
      (R header hash64 sr fc records RS).
  Proof. apply object_feeds; [apply (so_serves Hok)|apply so_start'|apply (so_cycle Hok)]. Qed.

  Lemma source_feed_resumes : source_resumes sr RS ->
    resumes (object_feed header hash64 sr fc) (R header hash64 sr fc records RS).
  Proof. intros H. apply object_resumes; [apply (so_cycle Hok)|exact H]. Qed.

  Lemma stream_records ep cy l : stream header hash64 sr fc records ep cy = Ok l -> Permutation (records ep cy) l.
  Proof.
    intros H. pose proof H as H'. unfold stream in H'. inv_bind H'. inv_bind H'. eapply stream_perm; eauto.
  Qed.

  Lemma stream_order ep cy l : fc_capacity fc = 1 -> stream header hash64 sr fc records ep cy = Ok l -> l = records ep cy.
  Proof.
    intros Hc H. unfold stream in H. inv_bind H. inv_bind H. unfold shuffled in H. inv_bind H. destruct v1 as [r out].
    inv_bind H. destruct v1 as [r1 rest]. injection H as <-.
    destruct (@fresh P header hash64 fc ep cy v0 Hm0) as (K & _ & I). unfold new_reservoir in Hm0. apply config_ok in Hm0 as (_ & _ & Hcap & _).
    eapply shuffled_unit; [|rewrite Hcap; exact Hc|exact I|exact Hm1|exact Hm2]. reflexivity.
  Qed.

  Lemma stream_no_fuel ep cy : 0 <= ep -> 0 <= cy -> stream header hash64 sr fc records ep cy <> Err OutOfFuel.
  Proof.
    intros He Hy. pose proof (so_start Hok He Hy) as Hs. unfold stream. destruct (ss_start sr ep cy) as [c|e] eqn:Es; cbn [bind]; [|congruence].
    pose proof (@reservoir_config_no_fuel header hash64 (fc_capacity fc) (fc_max_bytes fc) (fc_seed fc) ep (stream_key fc cy)) as Hr.
    fold (new_reservoir header hash64 fc ep cy) in Hr.
    destruct (new_reservoir header hash64 fc ep cy) as [cf|e] eqn:Ec; cbn [bind]; [|congruence].
    destruct (so_cycle Hok He Hy Es Ec (done := records ep cy) (todo := [])) as [r [out [r' [rest [H1 [H2 H3]]]]]];
      [rewrite app_nil_r; reflexivity|].
    unfold shuffled. rewrite H1. cbn [bind]. rewrite H3. cbn [bind]. discriminate.
  Qed.
End Ok.
