(** Without shuffling (one reservoir slot) the reservoir never fails on fewer than
    2^63 records within the byte budget, so [cycle_ok] holds. *)
From Verif Require Import Base BaseFacts Rng RngFacts Reservoir ReservoirFacts PackedReservoir Prop_Reservoir Source
  Planner PackedState PlannerFeed PlannerPacked.
Set Implicit Arguments.
Unset Strict Implicit.

Lemma reject_one raw c v : 0 <= c < two63 -> raw c = Ok v -> v < two64 -> reject_loop 1 raw c = Ok (0, c + 1).
Proof.
  intros Hc Hr Hv. unfold reject_loop. rewrite loop_pos_nat.
  assert (exists k, Pos.to_nat loop_bound = S k) as [k ->].
  { destruct (Pos2Nat.is_succ loop_bound) as [k E]. eauto. }
  cbn [loop_nat]. unfold reject_step. replace ((0 <=? c) && (c <? two63)) with true by lia. cbn [negb]. rewrite Hr.
  rewrite Z.mod_1_r, Z.sub_0_r. replace (v <? two64) with true by lia. rewrite Z.mod_1_r. reflexivity.
Qed.

Section Unit.
  Variable A : Type.
  Variable cf : rconfig.
  Hypothesis Hcap : cf_capacity cf = 1.

  Lemma evict_unit_ok (r : rsv A) size : Inv cf r -> rng_counter r < two63 ->
    exists r1 out, evict_loop cf (S (List.length (slots r))) r size = Ok (r1, out)
      /\ rng_counter r1 <= rng_counter r + 1.
  Proof.
    intros HI Hr. pose proof (inv_cap HI) as Hc. rewrite Hcap in Hc. unfold zlen in Hc.
    pose proof (inv_rng HI) as Hg. destruct r as [sl sz rb rc off em po pb cl]. cbn [slots rng_counter] in *.
    pose proof (inv_len HI) as HL. cbn [slots slot_sizes] in HL.
    destruct sl as [|x [|y sl]]; cbn [List.length] in Hc, HL; [| |lia].
    - cbn [List.length evict_loop slots andb]. eexists _, _. split; [reflexivity|]. cbn. lia.
    - destruct sz as [|z [|z' sz]]; cbn [List.length] in HL; try lia.
      cbn [List.length evict_loop slots]. rewrite Hcap. change (zlen [x]) with 1. change (1 <=? 1) with true. cbn [orb andb].
      unfold evict_random at 1. unfold random_slot. cbn [slots rng_counter]. change (zlen [x]) with 1.
      rewrite (@reject_one (fun c => Ok (splitmix_raw (cf_rng_base cf) c)) rc (splitmix_raw (cf_rng_base cf) rc) ltac:(lia) eq_refl) by apply splitmix_finalize_range.
      cbn [bind]. unfold evict_slot at 1. cbn [slots slot_sizes py_get nth_error Z.to_nat bind py_pop List.length Nat.ltb Nat.leb andb].
      eexists _, _. split; [reflexivity|]. cbn. lia.
  Qed.

  Lemma offer_unit_ok : forall items (r : rsv A), Inv cf r -> closed r = false ->
    forallb (fun it => size_ok cf (snd it)) items = true -> rng_counter r + zlen items < two63 ->
    exists r1 out, offer_many_loop cf r items = Ok (r1, out) /\ rng_counter r1 <= rng_counter r + zlen items.
  Proof.
    induction items as [|[x z] items IH]; intros r HI Hcl Hs Hr; cbn [offer_many_loop].
    - eexists _, _. split; [reflexivity|]. unfold zlen; cbn; lia.
    - cbn [forallb snd] in Hs. apply andb_true_iff in Hs as [Hs1 Hs2]. rewrite zlen_cons in *.
      pose proof (zlen_nonneg items).
      destruct (@evict_unit_ok r z HI) as (r1 & o1 & E1 & G1); [lia|]. rewrite E1. cbn [bind].
      pose proof (evict_loop_unit Hcap HI E1) as (U1 & U2 & U3 & U4).
      pose proof E1 as E1'. apply evict_loop_spec in E1'; auto. destruct E1' as (_ & _ & _ & _ & _ & _ & Hn & _).
      assert (Ha : Inv cf (admit r1 x z)) by (apply admit_inv; auto; [lia|congruence]).
      assert (Hca : closed (admit r1 x z) = false) by (cbn; congruence).
      destruct (IH _ Ha Hca Hs2) as (r2 & o2 & E2 & G2); [cbn [admit rng_counter]; lia|].
      rewrite E2. cbn [bind]. eexists _, _. split; [reflexivity|]. cbn [admit rng_counter] in G2. lia.
  Qed.
End Unit.

(** Encoding keys *)
Lemma tlv_tuple l b : tlv (KTuple l) = Ok b -> Forall (fun k => exists b, tlv k = Ok b) l /\ zlen l < 2 ^ 32.
Proof.
  cbn [tlv]. unfold pack_u32. destruct ((0 <=? zlen l) && (zlen l <? 2 ^ 32)) eqn:E; cbn [bind]; [|discriminate].
  intros H. split; [|lia]. clear E. inv_bind H. clear H. revert v Hm.
  induction l as [|h t IH]; intros v Hm; [constructor|]. inv_bind Hm. inv_bind Hm. constructor; eauto.
Qed.

Lemma tlv_tuple_ok l : Forall (fun k => exists b, tlv k = Ok b) l -> zlen l < 2 ^ 32 -> exists b, tlv (KTuple l) = Ok b.
Proof.
  intros H Hl. cbn [tlv]. unfold pack_u32. pose proof (zlen_nonneg l).
  replace ((0 <=? zlen l) && (zlen l <? 2 ^ 32)) with true by lia. cbn [bind].
  match goal with |- context [bind (?f l)] => assert (E : exists b, f l = Ok b) end.
  { clear Hl H0. induction H as [|h t [b Hb] Ht IH]; [eauto|]. destruct IH as [b' IH]. rewrite Hb. cbn [bind].
    rewrite IH. cbn [bind]. eauto. }
  destruct E as [b E]. rewrite E. cbn [bind]. eauto.
Qed.

Lemma tlv_int z : - two63 <= z < two63 -> exists b, tlv (KInt z) = Ok b.
Proof. intros H. cbn [tlv]. replace ((- two63 <=? z) && (z <? two63)) with true by lia. eauto. Qed.

Lemma drain_ok {A} header hash64 capacity max_bytes seed epoch skey cf (r : rsv A) :
  reservoir_config header hash64 capacity max_bytes seed epoch skey = Ok cf ->
  Inv cf r -> closed r = false -> rng_counter r < two63 -> 0 <= offered r < two63 ->
  (forall base, exists order out,
     fisher_yates hash64 (List.length (slots r) - 1) base (range (List.length (slots r))) 0 = Ok order
     /\ mapM (py_get (slots r)) order = Ok out) ->
  exists r' out, drain_core cf header hash64 r = Ok (r', out).
Proof.
  intros Hc HI Hcl Hr Ho Hfy. pose proof Hc as Hc'. apply config_ok in Hc' as (_ & _ & Hcap & _).
  unfold reservoir_config in Hc. apply guard_Ok in Hc as [_ Hc]. apply guard_Ok in Hc as [_ Hc]. apply guard_Ok in Hc as [_ Hc].
  inv_bind Hc. injection Hc as <-. unfold rng_u64 in Hm. apply guard_Ok in Hm as [_ Hm]. inv_bind Hm. clear Hm.
  apply tlv_tuple in Hm0 as [Hm0 _]. inversion Hm0 as [|? ? _ H2]; subst. inversion H2 as [|? ? Hseed H3]; subst.
  inversion H3 as [|? ? Hk _]; subst. destruct Hk as [bk Hk]. apply tlv_tuple in Hk as [Hk _].
  inversion Hk as [|? ? K1 Hk1]; subst. inversion Hk1 as [|? ? K2 Hk2]; subst. inversion Hk2 as [|? ? K3 _]; subst.
  unfold drain_core. rewrite Hcl. cbn [cf_seed cf_epoch cf_stream_key].
  unfold deterministic_permutation, counter_rng_base.
  assert (Ed : exists b, tlv (str "shuffle_reservoir_drain") = Ok b) by (vm_compute; eauto).
  destruct Ed as [bd ->]. destruct Hseed as [bs ->]. cbn [bind].
  match goal with |- context [tlv (KTuple ?l)] => destruct (@tlv_tuple_ok l) as [bt ->] end.
  { pose proof (inv_rng HI). repeat (constructor; [auto; try (apply tlv_int; lia)|]). constructor. }
  { unfold zlen. cbn. lia. }
  cbn [bind]. match goal with |- context [fisher_yates _ _ ?b _ _] => destruct (Hfy b) as (order & out & -> & E) end.
  cbn [bind]. rewrite E. cbn [bind]. eauto.
Qed.

Lemma drain_unit_ok {A} header hash64 capacity max_bytes seed epoch skey cf (r : rsv A) :
  reservoir_config header hash64 capacity max_bytes seed epoch skey = Ok cf -> capacity = 1 ->
  Inv cf r -> closed r = false -> rng_counter r < two63 -> 0 <= offered r < two63 ->
  exists r' out, drain_core cf header hash64 r = Ok (r', out).
Proof.
  intros Hc H1 HI Hcl Hr Ho. eapply drain_ok; eauto. apply config_ok in Hc as (_ & _ & Hcap & _). intros base.
  pose proof (inv_cap HI) as Hlen. rewrite Hcap, H1 in Hlen. unfold zlen in Hlen.
  destruct (slots r) as [|x [|y l]]; cbn [List.length] in Hlen; [| |lia].
  - exists [], []. split; reflexivity.
  - exists [0%nat], [x]. split; reflexivity.
Qed.

Section Feeds.
  Variable header : bytes.
  Variable hash64 : bytes -> Z.
  Variable fc : fconfig.
  Hypothesis Hcap : fc_capacity fc = 1.

  Definition within (z : Z) : Prop := 0 <= z /\ forall m, fc_max_bytes fc = Some m -> z <= m.

  Lemma unit_run {A} max_bytes ep cy cf (items : list (A * Z)) :
    reservoir_config header hash64 (fc_capacity fc) max_bytes (fc_seed fc) ep (stream_key fc cy) = Ok cf ->
    forallb (fun it => size_ok cf (snd it)) items = true -> zlen items < two63 ->
    exists r out r' rest, offer_many_core cf (rsv_init A) items = Ok (r, out)
        /\ rng_counter r < two63 /\ drain_core cf header hash64 r = Ok (r', rest).
  Proof.
    intros Hc Hs Hl. pose proof Hc as Hc'. apply config_ok in Hc' as (K1 & K2 & K3 & K4).
    pose proof (proj1 (@OInv_init A cf K1 K2)) as I. cbn [core reservoir_init] in I.
    destruct (@offer_unit_ok A cf ltac:(congruence) items (rsv_init A) I eq_refl Hs) as (r & out & E & G); [exact Hl|].
    assert (Ho : offer_many_core cf (rsv_init A) items = Ok (r, out)).
    { unfold offer_many_core. cbn [rsv_init closed negb]. rewrite Hs. exact E. }
    pose proof (@offer_many_core_spec A cf (rsv_init A) items r out K1 I Ho) as (I1 & _ & C1 & _ & O1 & _).
    cbn [rsv_init rng_counter offered] in *. pose proof (zlen_nonneg items).
    destruct (@drain_unit_ok A header hash64 _ _ _ _ _ cf r Hc Hcap I1 C1) as (r' & rest & D); [lia|lia|].
    exists r, out, r', rest. conj; auto. lia.
  Qed.

  Theorem unit_cycle_ok {C P D} (sr : resumable C P D) records :
    (forall ep cy, Forall (fun e => within (snd (charge sr e))) (records ep cy) /\ zlen (records ep cy) < two63) ->
    cycle_ok header hash64 sr fc records.
  Proof.
    intros H ep cy c cf He Hy Hs Hc done todo Hr. destruct (H ep cy) as [H1 H2]. rewrite Hr in H1, H2.
    apply Forall_app in H1 as [H1 _]. rewrite zlen_app in H2. pose proof (zlen_nonneg todo).
    eapply unit_run; [exact Hc| |unfold zlen in *; rewrite map_length; lia].
    unfold new_reservoir in Hc. apply config_ok in Hc as (_ & _ & _ & K4).
    apply forallb_forall. intros it Hin. apply in_map_iff in Hin as (e & <- & Hin).
    rewrite Forall_forall in H1. destruct (H1 e Hin) as [W1 W2].
    unfold size_ok. rewrite K4. destruct (fc_max_bytes fc) as [m|]; [specialize (W2 m eq_refl)|]; lia.
  Qed.

  Theorem packed_unit_cycle_ok {C D} (ks : packed_source C D) records :
    (forall ep cy, zlen (records ep cy) < two63) -> packed_cycle_ok header hash64 ks fc records.
  Proof.
    intros H ep cy c cf He Hy Hs Hc done todo Hr. specialize (H ep cy). rewrite Hr, zlen_app in H.
    pose proof (zlen_nonneg todo). unfold new_packed in Hc. inv_bind Hc. apply guard_Ok in Hc as [_ Hc]. injection Hc as <-.
    eapply unit_run; [exact Hm| |unfold zlen in *; rewrite map_length; lia].
    apply config_ok in Hm as (_ & _ & _ & K4).
    apply forallb_forall. intros it Hin. apply in_map_iff in Hin as (e & <- & Hin). unfold size_ok. rewrite K4. reflexivity.
  Qed.
End Feeds.
