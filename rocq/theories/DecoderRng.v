(** The symmetry generators of Decoder.v: every row is drawn independently, and the
    packed form draws the same values. *)
From Verif Require Import Base BaseFacts Rng RngFacts Symmetry Checkpoint Decoder DecoderFacts.
Set Implicit Arguments.
Unset Strict Implicit.

Lemma base_key_eqb_eq a b : base_key_eqb a b = true <-> a = b.
Proof.
  destruct a as [[[a1 a2] a3] a4], b as [[[b1 b2] b3] b4]. unfold base_key_eqb.
  rewrite !andb_true_iff, !zlist_eqb_eq, Z.eqb_eq. split; [|intros H; injection H; tauto].
  intros [[[-> ->] ->] ->]. reflexivity.
Qed.

Lemma tlv_int z : tlv (KInt z) = if (- two63 <=? z) && (z <? two63) then Ok (2 :: le_bytes 8 z) else Err ValueError.
Proof. reflexivity. Qed.

Ltac norm := rewrite ?app_nil_r; repeat first [rewrite <- app_assoc | progress cbn [app]]; rewrite ?app_nil_r.

Section Rng.
  Variable header : bytes.
  Variable hash64 : bytes -> Z.
  Variable junk_index : nat -> Z.

  (** ** the hashed stream *)
  Lemma pack_ints_tlv l x : pack_ints l = Ok x <-> tlv_join (map KInt l) = Ok x.
  Proof.
    revert x; induction l as [|v r IH]; intros x; cbn [pack_ints map tlv_join]; [tauto|].
    rewrite tlv_int. unfold pack_s64. destruct ((- two63 <=? v) && (v <? two63)); cbn [bind]; [|split; intros; discriminate].
    destruct (pack_ints r) as [y|] eqn:E; cbn [bind].
    - rewrite (proj1 (IH y) eq_refl). cbn [bind]. tauto.
    - destruct (tlv_join (map KInt r)) as [z|] eqn:F; cbn [bind]; [|split; intros; discriminate].
      exfalso. pose proof (proj2 (IH z) eq_refl). congruence.
  Qed.

  Definition prefix_of (domain : bytes) (seed epoch : Z) : res bytes :=
    d <- tlv (KStr domain) ;; s <- tlv (KInt seed) ;; e <- tlv (KInt epoch) ;;
    Ok (header ++ 5 :: le_bytes 4 4 ++ d ++ s ++ 5 :: le_bytes 4 3 ++ e).

  Definition full_key (domain : bytes) (seed epoch occurrence counter : Z) (k : sample_key) : key :=
    KTuple [KStr domain; KInt seed; KTuple [KInt epoch; key_of k; KInt occurrence]; KInt counter].

  Lemma payload_eq domain seed epoch occurrence counter k payload :
    address_ok k = true ->
    tlv (full_key domain seed epoch occurrence counter k) = Ok payload <->
    exists prefix base ints,
      prefix_of domain seed epoch = Ok prefix /\ processed_base prefix k = Ok base /\
      pack_ints (sk_address k ++ [occurrence; counter]) = Ok ints /\ header ++ payload = base ++ ints.
  Proof.
    intros Ha. unfold full_key, key_of, prefix_of, processed_base.
    rewrite !tlv_tuple.
    change (pack_u32 (zlen [KStr domain; KInt seed; KTuple [KInt epoch; KTuple [KStr (sk_ns k); KBytes (sk_digest k); KStr (sk_kind k); KTuple (map KInt (sk_address k))]; KInt occurrence]; KInt counter])) with (Ok (le_bytes 4 4)).
    cbn [bind tlv_join]. rewrite !tlv_tuple.
    change (pack_u32 (zlen [KInt epoch; KTuple [KStr (sk_ns k); KBytes (sk_digest k); KStr (sk_kind k); KTuple (map KInt (sk_address k))]; KInt occurrence])) with (Ok (le_bytes 4 3)).
    cbn [bind tlv_join]. rewrite !tlv_tuple.
    change (pack_u32 (zlen [KStr (sk_ns k); KBytes (sk_digest k); KStr (sk_kind k); KTuple (map KInt (sk_address k))])) with (Ok (le_bytes 4 4)).
    cbn [bind tlv_join]. rewrite !tlv_tuple.
    assert (Hl : zlen (map KInt (sk_address k)) = zlen (sk_address k)) by (unfold zlen; now rewrite map_length).
    rewrite Hl. cbn [bind].
    change (tlv (KStr domain)) with (n <- pack_u32 (zlen domain) ;; Ok (3 :: n ++ domain)).
    change (tlv (KStr (sk_ns k))) with (n <- pack_u32 (zlen (sk_ns k)) ;; Ok (3 :: n ++ sk_ns k)).
    change (tlv (KStr (sk_kind k))) with (n <- pack_u32 (zlen (sk_kind k)) ;; Ok (3 :: n ++ sk_kind k)).
    change (tlv (KBytes (sk_digest k))) with (n <- pack_u32 (zlen (sk_digest k)) ;; Ok (4 :: n ++ sk_digest k)).
    assert (Hi : forall ints, pack_ints (sk_address k ++ [occurrence; counter]) = Ok ints <->
               exists a b c, tlv_join (map KInt (sk_address k)) = Ok a /\ tlv (KInt occurrence) = Ok b /\
                             tlv (KInt counter) = Ok c /\ ints = a ++ b ++ c).
    { intros ints. rewrite pack_ints_tlv, map_app. rewrite tlv_join_app. cbn [map tlv_join]. split.
      - intros (a & b & H1 & H2 & ->). inv_bind H2. inv_bind H2. inv_bind Hm0. injection Hm0 as <-. injection H2 as <-.
        exists a, v, v1. rewrite app_nil_r. auto.
      - intros (a & b & c & H1 & H2 & H3 & ->). exists a, (b ++ c). split; [exact H1|]. rewrite H2, H3. cbn [bind].
        rewrite app_nil_r. auto. }
    split.
    - intros H. repeat (let v := fresh "v" in let Hm := fresh "Hm" in
        match type of H with bind ?m _ = Ok _ => destruct m as [v|] eqn:Hm; cbn [bind] in H; [|discriminate] end).
      injection H as <-.
      repeat match goal with
      | Hx : bind ?m _ = Ok _ |- _ => let v := fresh "w" in let E := fresh "E" in
          destruct m as [v|] eqn:E; cbn [bind] in Hx; [|discriminate]
      | Hx : Ok _ = Ok _ |- _ => injection Hx as <-
      end.
      cbn [bind].
      do 3 eexists. split; [reflexivity|]. split; [reflexivity|]. split; [apply Hi; do 3 eexists; repeat (split; [first [eassumption|reflexivity]|]); reflexivity|].
      norm. reflexivity.
    - intros (prefix & base & ints & H1 & H2 & H3 & H4). apply Hi in H3 as (a & b & c & Ea & Eb & Ec & ->).
      repeat match goal with
      | Hx : bind ?m _ = Ok _ |- _ => let v := fresh "w" in let E := fresh "E" in
          destruct m as [v|] eqn:E; cbn [bind] in Hx; [|discriminate]
      | Hx : Ok _ = Ok _ |- _ => injection Hx as <-
      end.
      rewrite Ea, Eb, Ec. cbn [bind]. f_equal. apply (app_inv_head header). rewrite H4.
      norm. reflexivity.
  Qed.

  Lemma pack_ints_app l m x :
    pack_ints (l ++ m) = Ok x <-> exists a b, pack_ints l = Ok a /\ pack_ints m = Ok b /\ x = a ++ b.
  Proof.
    rewrite pack_ints_tlv, map_app, tlv_join_app. split; intros (a & b & H1 & H2 & H3); exists a, b;
      rewrite pack_ints_tlv in *; rewrite ?pack_ints_tlv; auto.
    all: rewrite pack_ints_tlv in H2; auto.
  Qed.

  Definition hashed_key (epoch occurrence : Z) (k : sample_key) : key :=
    KTuple [KInt epoch; key_of k; KInt occurrence].

  Lemma raw_eq domain seed epoch occurrence k prefix base ints0 c0 :
    address_ok k = true -> prefix_of domain seed epoch = Ok prefix -> processed_base prefix k = Ok base ->
    pack_ints (sk_address k ++ [occurrence; c0]) = Ok ints0 ->
    forall j, 0 <= j < two63 ->
      rng_u64 header hash64 seed (KStr domain) (hashed_key epoch occurrence k) j =
      (ints <- pack_ints (sk_address k ++ [occurrence; j]) ;; Ok (hash64 (base ++ ints))).
  Proof.
    intros Ha Hp Hb Hi j Hj. unfold rng_u64.
    replace ((0 <=? j) && (j <? two63)) with true by lia.
    assert (exists ints, pack_ints (sk_address k ++ [occurrence; j]) = Ok ints) as [ints Ei].
    { apply pack_ints_app in Hi as (a & b & H1 & H2 & _). cbn [pack_ints] in H2.
      destruct (pack_s64 occurrence) as [o|] eqn:Eo; [|discriminate].
      assert (E2 : pack_ints [occurrence; j] = Ok (2 :: o ++ 2 :: le_bytes 8 j)).
      { cbn [pack_ints]. rewrite Eo. unfold pack_s64. replace ((- two63 <=? j) && (j <? two63)) with true by lia.
        cbn [bind]. now rewrite app_nil_r. }
      eexists. apply pack_ints_app. exists a, (2 :: o ++ 2 :: le_bytes 8 j). split; [exact H1|]. split; [exact E2|reflexivity]. }
    rewrite Ei. cbn [bind].
    destruct (tlv (full_key domain seed epoch occurrence j k)) as [payload|e] eqn:Et.
    - pose proof Et as Et'. apply payload_eq in Et' as (p2 & b2 & i2 & H1 & H2 & H3 & H4); [|exact Ha].
      rewrite Hp in H1. injection H1 as <-. rewrite Hb in H2. injection H2 as <-. rewrite Ei in H3. injection H3 as <-.
      unfold full_key in Et. unfold hashed_key. rewrite Et. cbn [bind]. now rewrite H4.
    - exfalso.
      assert (Hl : exists payload, header ++ payload = base ++ ints).
      { unfold prefix_of in Hp. unfold processed_base in Hb.
        repeat match goal with
        | Hx : bind ?m _ = Ok _ |- _ => let v := fresh "w" in let E := fresh "E" in
            destruct m as [v|] eqn:E; cbn [bind] in Hx; [|discriminate]
        end. injection Hp as <-. injection Hb as <-. eexists. rewrite <- !app_assoc. reflexivity. }
      destruct Hl as [payload Hl].
      assert (X : tlv (full_key domain seed epoch occurrence j k) = Ok payload).
      { apply payload_eq; [exact Ha|]. exists prefix, base, ints. auto. }
      congruence.
  Qed.

  (** the draw of one key on the hashed stream *)
  Definition hashed_draw (n : Z) (prefix : bytes) (occurrence : Z) (k : sample_key) : res Z :=
    guard address_ok k else ValueError ;;
    base <- processed_base prefix k ;;
    '(v, _) <- reject_loop n (fun counter =>
                  ints <- pack_ints (sk_address k ++ [occurrence; counter]) ;; Ok (hash64 (base ++ ints))) 0 ;;
    Ok v.

  Definition reference_draw (n seed : Z) (domain : bytes) (epoch occurrence : Z) (k : sample_key) : res Z :=
    guard address_ok k else ValueError ;;
    '(v, _) <- uniform_below header hash64 n seed (KStr domain) (hashed_key epoch occurrence k) 0 ;;
    Ok v.

  Lemma processed_base_key prefix k1 k2 :
    base_key_of k1 = base_key_of k2 -> processed_base prefix k1 = processed_base prefix k2.
  Proof. unfold base_key_of, processed_base. intros H. injection H as -> -> -> ->. reflexivity. Qed.

  Lemma processed_loop_spec n prefix occurrence keys : forall cache,
    (forall bk b, cache = Some (bk, b) -> forall k, base_key_of k = bk -> processed_base prefix k = Ok b) ->
    processed_loop hash64 n prefix occurrence cache keys = mapM (hashed_draw n prefix occurrence) keys.
  Proof.
    induction keys as [|k rest IH]; intros cache Hc; [reflexivity|].
    cbn [processed_loop mapM]. unfold hashed_draw at 1. destruct (address_ok k); [|reflexivity].
    assert (Hb : match cache with
                 | Some (bk, b) => if base_key_eqb (base_key_of k) bk then Ok b else processed_base prefix k
                 | None => processed_base prefix k
                 end = processed_base prefix k).
    { destruct cache as [[bk b]|]; [|reflexivity]. destruct (base_key_eqb (base_key_of k) bk) eqn:E; [|reflexivity].
      apply base_key_eqb_eq in E. symmetry. exact (Hc bk b eq_refl k E). }
    rewrite Hb. destruct (processed_base prefix k) as [base|] eqn:Eb; cbn [bind]; [|reflexivity].
    destruct (reject_loop _ _ _) as [[v c]|]; cbn [bind]; [|reflexivity].
    rewrite IH; [reflexivity|]. intros bk b E k2 Hk2. injection E as <- <-.
    rewrite <- Eb. apply processed_base_key. exact Hk2.
  Qed.

  Lemma mapM_equiv A C (f g : A -> res C) l out :
    (forall a v, In a l -> f a = Ok v <-> g a = Ok v) -> mapM f l = Ok out <-> mapM g l = Ok out.
  Proof.
    revert out; induction l as [|a r IH]; intros out H; cbn [mapM]; [tauto|].
    assert (Hr : forall o, mapM f r = Ok o <-> mapM g r = Ok o) by (intros o; apply IH; intros; apply H; now right).
    assert (Ha : forall v, f a = Ok v <-> g a = Ok v) by (intros; apply H; now left).
    destruct (f a) as [v|e] eqn:Ef.
    - rewrite (proj1 (Ha v) eq_refl). cbn [bind]. destruct (mapM f r) as [o|] eqn:Er.
      + rewrite (proj1 (Hr o) eq_refl). tauto.
      + destruct (mapM g r) as [o|] eqn:Eg; cbn [bind]; [|split; intros; discriminate].
        pose proof (proj2 (Hr o) eq_refl). discriminate.
    - destruct (g a) as [v|] eqn:Eg; [pose proof (proj2 (Ha v) eq_refl); discriminate|].
      cbn [bind]. split; intros; discriminate.
  Qed.

  Lemma hashed_draw_reference n seed domain epoch occurrence prefix k v :
    bound_ok n = true -> prefix_of domain seed epoch = Ok prefix ->
    hashed_draw n prefix occurrence k = Ok v <-> reference_draw n seed domain epoch occurrence k = Ok v.
  Proof.
    intros Hn Hp. unfold hashed_draw, reference_draw. destruct (address_ok k) eqn:Ha; [|split; intros; discriminate].
    unfold uniform_below. rewrite Hn. split.
    - intros H. inv_bind H. rename v0 into base. destruct (reject_loop _ _ _) as [[v1 c1]|] eqn:E; cbn [bind] in H; [|discriminate].
      injection H as ->. pose proof E as E'. apply reject_loop_Ok in E' as (Hc & _ & (w & Hw & _) & _).
      inv_bind Hw.
      rewrite (@reject_loop_raw_ext n _ (fun counter => ints <- pack_ints (sk_address k ++ [occurrence; counter]) ;; Ok (hash64 (base ++ ints)))).
      + rewrite E. reflexivity.
      + intros j Hj. eapply raw_eq; eauto.
    - intros H. destruct (reject_loop _ _ _) as [[v1 c1]|] eqn:E; cbn [bind] in H; [|discriminate].
      injection H as ->. pose proof E as E'. apply reject_loop_Ok in E' as (Hc & _ & (w & Hw & _) & _).
      unfold rng_u64 in Hw. apply guard_Ok in Hw as [_ Hw]. inv_bind Hw.
      change (tlv (full_key domain seed epoch occurrence (c1 - 1) k) = Ok v0) in Hm.
      apply payload_eq in Hm as (p2 & base & ints & H1 & H2 & H3 & _); [|exact Ha].
      rewrite Hp in H1. injection H1 as <-. rewrite H2. cbn [bind].
      rewrite <- (@reject_loop_raw_ext n (fun c => rng_u64 header hash64 seed (KStr domain) (hashed_key epoch occurrence k) c)).
      + rewrite E. reflexivity.
      + intros j Hj. eapply raw_eq; eauto.
  Qed.

  Lemma processed_sample_keys_reference n seed domain epoch occurrence keys l :
    keys <> [] ->
    processed_sample_keys header hash64 n seed domain epoch keys occurrence = Ok l <->
    bound_ok n = true /\ mapM (reference_draw n seed domain epoch occurrence) keys = Ok l.
  Proof.
    intros Hne. unfold processed_sample_keys. destruct (bound_ok n) eqn:Hn; [|split; [discriminate|intros [? _]; discriminate]].
    assert (Hpe : forall (f : bytes -> res (list Z)),
      (d <- tlv (KStr domain) ;; s <- tlv (KInt seed) ;; e <- tlv (KInt epoch) ;;
       f (header ++ 5 :: le_bytes 4 4 ++ d ++ s ++ 5 :: le_bytes 4 3 ++ e)) = (p <- prefix_of domain seed epoch ;; f p)).
    { intros f. unfold prefix_of. destruct (tlv (KStr domain)); cbn [bind]; [|reflexivity].
      destruct (tlv (KInt seed)); cbn [bind]; [|reflexivity]. now destruct (tlv (KInt epoch)). }
    rewrite (Hpe (fun prefix => processed_loop hash64 n prefix occurrence None keys)).
    destruct (prefix_of domain seed epoch) as [prefix|e] eqn:Hp; cbn [bind].
    - rewrite processed_loop_spec by discriminate.
      rewrite (@mapM_equiv _ _ (hashed_draw n prefix occurrence) (reference_draw n seed domain epoch occurrence)).
      + tauto.
      + intros a v _. now apply hashed_draw_reference.
    - split; [discriminate|]. intros [_ H]. exfalso. destruct keys as [|k rest]; [congruence|]. cbn [mapM] in H.
      destruct (reference_draw n seed domain epoch occurrence k) as [v|] eqn:E; [|discriminate].
      unfold reference_draw in E. apply guard_Ok in E as [Ha E].
      destruct (uniform_below _ _ _ _ _ _ _) as [[v1 c1]|] eqn:Eu; [|discriminate].
      unfold uniform_below in Eu. rewrite Hn in Eu. apply reject_loop_Ok in Eu as (Hc & _ & (w & Hw & _) & _).
      unfold rng_u64 in Hw. apply guard_Ok in Hw as [_ Hw]. inv_bind Hw.
      change (tlv (full_key domain seed epoch occurrence (c1 - 1) k) = Ok v0) in Hm.
      apply payload_eq in Hm as (p2 & base & ints & H1 & _); [|exact Ha]. congruence.
  Qed.

  (** ** the splitmix stream *)
  Definition cycle_of (k : sample_key) : Z := match sk_address k with [c; _] => c | _ => 0 end.
  Definition row_of (k : sample_key) : Z := match sk_address k with [r] => r | [_; r] => r | _ => 0 end.
  Definition u64 (v : Z) : bool := (0 <=? v) && (v <? two64).

  Definition splitmix_draw (n seed : Z) (domain : bytes) (epoch occurrence : Z) (k : sample_key) : res Z :=
    guard address_ok k else ValueError ;;
    base <- splitmix_base header hash64 seed domain epoch (base_key_of k) occurrence ;;
    guard u64 (row_of k) && u64 (cycle_of k) else OverflowError ;;
    Ok (splitmix_value n base (cycle_of k) (row_of k)).

  Definition group_ok (keys : list sample_key) (g : row_group) : Prop :=
    snd g <> [] /\
    forall p c r, In (p, c, r) (snd g) ->
      exists k, nth_error keys p = Some k /\ address_ok k = true /\ base_key_of k = fst g /\ cycle_of k = c /\ row_of k = r.
  Definition in_groups (p : nat) (groups : list row_group) : Prop :=
    exists g c r, In g groups /\ In (p, c, r) (snd g).

  Lemma add_to_group_ok keys p k groups :
    nth_error keys p = Some k -> address_ok k = true -> Forall (group_ok keys) groups ->
    Forall (group_ok keys) (add_to_group (base_key_of k) (p, cycle_of k, row_of k) groups) /\
    (forall q, in_groups q (add_to_group (base_key_of k) (p, cycle_of k, row_of k) groups) <-> q = p \/ in_groups q groups).
  Proof.
    intros Hk Ha HF. induction HF as [|[b es] r Hg HF IH]; cbn [add_to_group].
    - split.
      + repeat constructor; [discriminate|]. cbn [snd fst]. intros q c r [E|[]]. injection E as <- <- <-. exists k. auto.
      + intros q. unfold in_groups. split.
        * intros (g & c & r & [<-|[]] & [E|[]]). left. congruence.
        * intros [->|(g & c & r & [] & _)]. exists (base_key_of k, [(p, cycle_of k, row_of k)]), (cycle_of k), (row_of k). split; now left.
    - destruct IH as [IH1 IH2]. destruct (base_key_eqb b (base_key_of k)) eqn:E.
      + apply base_key_eqb_eq in E. split.
        * constructor; [|exact HF]. destruct Hg as [_ Hg]. split; [cbn; now destruct es|].
          cbn [snd fst] in *. intros q c r0 Hin. apply in_app_iff in Hin as [Hin|[Ei|[]]]; [exact (Hg _ _ _ Hin)|].
          injection Ei as <- <- <-. exists k. repeat split; auto.
        * intros q. unfold in_groups. split.
          -- intros (g & c & r0 & [<-|Hin] & Hq); cbn [snd] in Hq.
             ++ apply in_app_iff in Hq as [Hq|[Ei|[]]]; [right; exists (b, es), c, r0; split; [now left|exact Hq]|].
                left. congruence.
             ++ right. exists g, c, r0. split; [now right|exact Hq].
          -- intros [->|(g & c & r0 & [<-|Hin] & Hq)].
             ++ exists (b, es ++ [(p, cycle_of k, row_of k)]), (cycle_of k), (row_of k). split; [now left|]. cbn. apply in_app_iff. right; now left.
             ++ exists (b, es ++ [(p, cycle_of k, row_of k)]), c, r0. split; [now left|]. cbn in *. apply in_app_iff. now left.
             ++ exists g, c, r0. split; [now right|exact Hq].
      + split; [constructor; assumption|]. intros q. specialize (IH2 q). unfold in_groups in *. split.
        * intros (g & c & r0 & [<-|Hin] & Hq); [right; exists (b, es), c, r0; split; [now left|exact Hq]|].
          destruct (proj1 IH2) as [->|(g' & c' & r' & H1 & H2)]; [exists g, c, r0; auto|now left|].
          right. exists g', c', r'. split; [now right|exact H2].
        * intros [->|(g & c & r0 & [<-|Hin] & Hq)].
          -- destruct (proj2 IH2 (or_introl eq_refl)) as (g & c & r0 & H1 & H2). exists g, c, r0. split; [now right|exact H2].
          -- exists (b, es), c, r0. split; [now left|exact Hq].
          -- destruct (proj2 IH2) as (g' & c' & r' & H1 & H2); [right; exists g, c, r0; auto|]. exists g', c', r'. split; [now right|exact H2].
  Qed.

  Lemma group_entry (p : nat) k : address_ok k = true ->
    match sk_address k with [row] => (p, 0, row) | cycle :: row :: _ => (p, cycle, row) | [] => (p, 0, 0) end
    = (p, cycle_of k, row_of k).
  Proof.
    unfold address_ok, cycle_of, row_of, zlen. destruct (sk_address k) as [|a [|b [|c r]]]; cbn [List.length]; intros H; try reflexivity.
    exfalso; lia.
  Qed.

  Lemma group_keys_spec keys : forall done rest groups out,
    keys = done ++ rest -> Forall (group_ok keys) groups ->
    (forall q, in_groups q groups <-> (q < List.length done)%nat) ->
    group_keys (List.length done) rest groups = Ok out ->
    Forall (group_ok keys) out /\ (forall q, in_groups q out <-> (q < List.length keys)%nat).
  Proof.
    intros done rest. revert done. induction rest as [|k rest IH]; intros done groups out Hk HF Hc H; cbn [group_keys] in H.
    - injection H as <-. rewrite app_nil_r in Hk. subst done. auto.
    - apply guard_Ok in H as [Ha H]. cbv zeta in H. rewrite group_entry in H by exact Ha.
      assert (Hn : nth_error keys (List.length done) = Some k).
      { rewrite Hk, nth_error_app2, Nat.sub_diag by lia. reflexivity. }
      destruct (add_to_group_ok Hn Ha HF) as [H1 H2].
      assert (Hl : List.length (done ++ [k]) = S (List.length done)) by (rewrite app_length; cbn; lia).
      apply (IH (done ++ [k]) (add_to_group (base_key_of k) (List.length done, cycle_of k, row_of k) groups)).
      + rewrite <- app_assoc. exact Hk.
      + exact H1.
      + intros q. rewrite H2, Hc, Hl. lia.
      + rewrite Hl. exact H.
  Qed.

  Lemma group_keys_ok p keys groups :
    (forall k, In k keys -> address_ok k = true) -> exists out, group_keys p keys groups = Ok out.
  Proof.
    revert p groups. induction keys as [|k rest IH]; intros p groups H; cbn [group_keys]; [eauto|].
    rewrite (H k (or_introl eq_refl)). apply IH. intros; apply H; now right.
  Qed.
  Lemma group_keys_addresses p keys groups out :
    group_keys p keys groups = Ok out -> forall k, In k keys -> address_ok k = true.
  Proof.
    revert p groups. induction keys as [|k rest IH]; intros p groups H; cbn [group_keys] in H; [intros ? []|].
    apply guard_Ok in H as [Ha H]. intros k2 [<-|Hin]; [exact Ha|]. eapply IH; eauto.
  Qed.

  Lemma as_u64_Ok l out : as_u64 l = Ok out <-> out = l /\ forall v, In v l -> u64 v = true.
  Proof.
    revert out. induction l as [|v r IH]; intros out; unfold as_u64 in *; cbn [mapM].
    - split; [intros H; injection H as <-; split; [reflexivity|intros ? []]|intros [-> _]; reflexivity].
    - fold (u64 v). destruct (u64 v) eqn:E; cbn [bind].
      + destruct (mapM _ r) as [o|e] eqn:Em; cbn [bind].
        * destruct (proj1 (IH o) eq_refl) as [-> Hu]. split.
          -- intros H. injection H as <-. split; [reflexivity|]. intros w [<-|Hw]; auto.
          -- intros [-> _]. reflexivity.
        * split; [discriminate|]. intros [-> H]. exfalso.
          pose proof (proj2 (IH r)) as X. discriminate X. split; [reflexivity|]. intros; apply H; now right.
      + split; [discriminate|]. intros [_ H]. rewrite (H v (or_introl eq_refl)) in E. discriminate.
  Qed.

  Lemma combine_map_pair A C D (f : A -> C) (g : A -> D) l : combine (map f l) (map g l) = map (fun a => (f a, g a)) l.
  Proof. induction l; cbn; congruence. Qed.

  Lemma fill_groups_forward n seed domain epoch occurrence tgt groups : forall out D,
    (forall g p c r, In g groups -> In (p, c, r) (snd g) ->
       exists base, splitmix_base header hash64 seed domain epoch (fst g) occurrence = Ok base /\
                    u64 r = true /\ u64 c = true /\ nth_error tgt p = Some (splitmix_value n base c r)) ->
    (forall g, In g groups -> snd g <> []) ->
    agree out tgt D ->
    exists out', fill_groups header hash64 n seed domain epoch occurrence groups out = Ok out' /\
                 agree out' tgt (fun i => D i \/ in_groups i groups).
  Proof.
    induction groups as [|[bk es] rest IH]; intros out D H Hne HA; cbn [fill_groups].
    - exists out. split; [reflexivity|]. eapply agree_weaken; [exact HA|]. intros i [Hi|(g & c & r & [] & _)]. exact Hi.
    - assert (exists base, splitmix_base header hash64 seed domain epoch bk occurrence = Ok base) as [base Eb].
      { destruct es as [|[[p c] r] es']; [destruct (Hne (bk, []) (or_introl eq_refl)); reflexivity|].
        destruct (H (bk, (p, c, r) :: es') p c r (or_introl eq_refl) (or_introl eq_refl)) as (base & Hb & _). cbn in Hb. eauto. }
      rewrite Eb. cbn [bind].
      assert (Hes : forall p c r, In (p, c, r) es -> u64 r = true /\ u64 c = true /\ nth_error tgt p = Some (splitmix_value n base c r)).
      { intros p c r Hin. destruct (H (bk, es) p c r (or_introl eq_refl) Hin) as (b2 & Hb & H1 & H2 & H3). cbn [fst] in Hb.
        rewrite Eb in Hb. injection Hb as <-. auto. }
      rewrite (proj2 (as_u64_Ok (map snd es) (map snd es))); cycle 1.
      { split; [reflexivity|]. intros v Hv. apply in_map_iff in Hv as ([[p c] r] & <- & Hin). exact (proj1 (Hes _ _ _ Hin)). }
      rewrite (proj2 (as_u64_Ok (map (fun e => snd (fst e)) es) (map (fun e => snd (fst e)) es))); cycle 1.
      { split; [reflexivity|]. intros v Hv. apply in_map_iff in Hv as ([[p c] r] & <- & Hin). exact (proj1 (proj2 (Hes _ _ _ Hin))). }
      cbn [bind]. rewrite combine_map_pair, map_map.
      destruct (@put_agree _ tgt (map (fun e => fst (fst e)) es)
                  (map (fun e => splitmix_value n base (snd (fst e)) (snd e)) es) out D) as (out1 & E1 & A1).
      + clear -Hes. induction es as [|[[p c] r] es IHe]; [reflexivity|]. cbn [map mapM fst snd]. unfold py_get at 1.
        rewrite (proj2 (proj2 (Hes p c r (or_introl eq_refl)))). cbn [bind]. rewrite IHe; [reflexivity|].
        intros; apply Hes; now right.
      + exact HA.
      + rewrite E1. cbn [bind].
        destruct (IH out1 (fun i => D i \/ In i (map (fun e => fst (fst e)) es))) as (out' & E2 & A2).
        * intros; eapply H; [right; eassumption|eassumption].
        * intros; apply Hne; now right.
        * exact A1.
        * exists out'. split; [exact E2|]. eapply agree_weaken; [exact A2|]. intros i [Hi|(g & c & r & [<-|Hg] & Hin)].
          -- now left; left.
          -- left; right. cbn [snd] in Hin. apply in_map_iff. exists (i, c, r). auto.
          -- right. exists g, c, r. auto.
  Qed.

  Lemma fill_groups_backward n seed domain epoch occurrence groups : forall out out',
    fill_groups header hash64 n seed domain epoch occurrence groups out = Ok out' ->
    forall g p c r, In g groups -> In (p, c, r) (snd g) ->
      (exists base, splitmix_base header hash64 seed domain epoch (fst g) occurrence = Ok base) /\ u64 r = true /\ u64 c = true.
  Proof.
    induction groups as [|[bk es] rest IH]; intros out out' H g p c r Hg Hin; [destruct Hg|].
    cbn [fill_groups] in H. inv_bind H. inv_bind H. inv_bind H. inv_bind H.
    destruct Hg as [<-|Hg]; [|eapply IH; eauto]. cbn [fst snd] in *.
    apply as_u64_Ok in Hm0 as [-> H0]. apply as_u64_Ok in Hm1 as [-> H1].
    split; [eauto|]. split; [apply H0; apply in_map_iff; exists (p, c, r); auto|].
    apply H1. apply in_map_iff. exists (p, c, r). auto.
  Qed.

  Lemma splitmix_draw_Ok n seed domain epoch occurrence k v :
    splitmix_draw n seed domain epoch occurrence k = Ok v <->
    address_ok k = true /\ (exists base, splitmix_base header hash64 seed domain epoch (base_key_of k) occurrence = Ok base /\
      v = splitmix_value n base (cycle_of k) (row_of k)) /\ u64 (row_of k) = true /\ u64 (cycle_of k) = true.
  Proof.
    unfold splitmix_draw. split.
    - intros H. apply guard_Ok in H as [Ha H]. inv_bind H. apply guard_Ok in H as [Hu H]. injection H as <-.
      apply andb_true_iff in Hu as [H1 H2]. split; [exact Ha|]. split; [eauto|]. auto.
    - intros (Ha & (base & Hb & ->) & H1 & H2). rewrite Ha, Hb. cbn [bind]. rewrite H1, H2. reflexivity.
  Qed.

  Lemma keys_v2_splitmix n seed domain epoch occurrence keys l :
    keys <> [] -> is_pow2_bound n = true ->
    sample_keys_v2 header hash64 junk_index n seed domain epoch keys occurrence = Ok l <->
    bound_ok n = true /\ mapM (splitmix_draw n seed domain epoch occurrence) keys = Ok l.
  Proof.
    intros Hne Hp. unfold sample_keys_v2. destruct (bound_ok n); [|split; [discriminate|intros [? _]; discriminate]].
    rewrite Hp. cbn [negb].
    assert (Hm : forall (X : Type) (x y : X), match keys with [] => x | _ => y end = y) by (destruct keys; congruence).
    rewrite Hm.
    assert (Hf : forall groups, group_keys 0 keys [] = Ok groups ->
       Forall (group_ok keys) groups /\ (forall q, in_groups q groups <-> (q < List.length keys)%nat)).
    { intros groups Hg. apply (@group_keys_spec keys [] keys []) with (out := groups); auto.
      - intros q. cbn. split; [intros (g & c & r & [] & _)|lia]. }
    assert (Hfwd : forall groups l, group_keys 0 keys [] = Ok groups ->
       mapM (splitmix_draw n seed domain epoch occurrence) keys = Ok l ->
       fill_groups header hash64 n seed domain epoch occurrence groups (np_empty junk_index (List.length keys)) = Ok l).
    { intros groups l0 Hg Hl. destruct (Hf _ Hg) as [HF HC]. rewrite Forall_forall in HF.
      destruct (@fill_groups_forward n seed domain epoch occurrence l0 groups (np_empty junk_index (List.length keys)) (fun _ => False)) as (out' & E & A).
      - intros g p c r Hg1 Hin. destruct (proj2 (HF g Hg1) p c r Hin) as (k & H1 & H2 & H3 & H4 & H5).
        destruct (mapM_nth Hl H1) as (v & Hv & Hn). apply splitmix_draw_Ok in Hv as (_ & (base & Hb & ->) & Hr & Hc).
        rewrite H3 in Hb. subst c r. exists base. auto.
      - intros g Hg1. exact (proj1 (HF g Hg1)).
      - apply agree_empty. symmetry. exact (mapM_len Hl).
      - rewrite E. f_equal. eapply agree_all; [exact A|]. intros i Hi. right. apply HC. rewrite <- (mapM_len Hl). exact Hi. }
    split.
    - intros H. split; [reflexivity|]. inv_bind H. rename v into groups. destruct (Hf _ Hm0) as [HF HC]. rewrite Forall_forall in HF.
      destruct (@mapM_total _ _ (splitmix_draw n seed domain epoch occurrence) keys) as [l0 Hl0].
      { intros k Hk. apply In_nth_error in Hk as [p Hpk].
        assert (Hin : in_groups p groups) by (apply HC; apply nth_error_Some; congruence).
        destruct Hin as (g & c & r & Hg1 & Hg2). destruct (proj2 (HF g Hg1) p c r Hg2) as (k2 & H1 & H2 & H3 & H4 & H5).
        rewrite Hpk in H1. injection H1 as <-.
        destruct (fill_groups_backward H Hg1 Hg2) as ([base Hb] & Hr & Hc). subst c r. rewrite <- H3 in Hb.
        eexists. apply splitmix_draw_Ok. split; [exact H2|]. split; [exists base; split; [exact Hb|reflexivity]|]. auto. }
      pose proof (Hfwd _ _ Hm0 Hl0) as X. rewrite H in X. injection X as ->. exact Hl0.
    - intros [_ H]. destruct (@group_keys_ok 0 keys []) as [groups Hg].
      { intros k Hk. apply In_nth_error in Hk as [p Hpk]. destruct (mapM_nth H Hpk) as (v & Hv & _).
        apply splitmix_draw_Ok in Hv. tauto. }
      rewrite Hg. cbn [bind]. now apply Hfwd.
  Qed.

  (** the draw of one row, whichever stream the bound selects *)
  Definition row_draw (n seed : Z) (domain : bytes) (epoch occurrence : Z) (k : sample_key) : res Z :=
    if is_pow2_bound n then splitmix_draw n seed domain epoch occurrence k
    else reference_draw n seed domain epoch occurrence k.

  Lemma keys_v2_rows n seed domain epoch occurrence keys l :
    keys <> [] ->
    sample_keys_v2 header hash64 junk_index n seed domain epoch keys occurrence = Ok l <->
    bound_ok n = true /\ mapM (row_draw n seed domain epoch occurrence) keys = Ok l.
  Proof.
    intros Hne. unfold row_draw. destruct (is_pow2_bound n) eqn:Hp; [now apply keys_v2_splitmix|].
    unfold sample_keys_v2. rewrite Hp. cbn [negb].
    pose proof (@processed_sample_keys_reference n seed domain epoch occurrence keys l Hne) as X.
    destruct (bound_ok n) eqn:Hb; [exact X|]. split; [discriminate|intros [? _]; discriminate].
  Qed.

  Lemma keys_v2_one n seed domain epoch occurrence k v :
    (exists l, sample_keys_v2 header hash64 junk_index n seed domain epoch [k] occurrence = Ok l /\ py_get l 0 = Ok v) <->
    bound_ok n = true /\ row_draw n seed domain epoch occurrence k = Ok v.
  Proof.
    split.
    - intros (l & H & Hv). apply keys_v2_rows in H as [Hb H]; [|discriminate]. cbn [mapM] in H. inv_bind H. injection H as <-.
      cbn in Hv. injection Hv as <-. auto.
    - intros [Hb H]. exists [v]. split; [|reflexivity]. apply keys_v2_rows; [discriminate|]. split; [exact Hb|]. cbn [mapM]. now rewrite H.
  Qed.

  (** ** the packed form *)
  Lemma fill_files_forward n seed domain epoch occurrence digests fi rows tgt files : forall out D,
    List.length rows = List.length fi ->
    (forall p f r, In f files -> nth_error fi p = Some f -> nth_error rows p = Some r ->
       exists d base, nth_error digests f = Some d /\
         splitmix_base header hash64 seed domain epoch (bytes_root, d, bytes_npz_row, 1) occurrence = Ok base /\
         nth_error tgt p = Some (splitmix_value n base 0 r)) ->
    (forall f, In f files -> In f fi) ->
    agree out tgt D -> List.length tgt = List.length rows ->
    exists out', fill_files header hash64 n seed domain epoch occurrence digests fi rows files out = Ok out' /\
                 agree out' tgt (fun i => D i \/ exists f, In f files /\ nth_error fi i = Some f).
  Proof.
    induction files as [|f rest IH]; intros out D HL H Hin HA HT; cbn [fill_files].
    - exists out. split; [reflexivity|]. eapply agree_weaken; [exact HA|]. intros i [Hi|(f & [] & _)]. exact Hi.
    - destruct (In_nth_error _ _ (Hin f (or_introl eq_refl))) as [p0 Hp0].
      destruct (@nth_error_in_range _ rows p0) as [r0 Hr0]; [rewrite HL; apply nth_error_Some; congruence|].
      destruct (H p0 f r0 (or_introl eq_refl) Hp0 Hr0) as (d & base & Hd & Hb & _).
      rewrite Hd. cbn [bind]. rewrite Hb. cbn [bind].
      assert (Hsel : forall p, In p (flatnonzero (map (Nat.eqb f) fi)) <-> nth_error fi p = Some f).
      { intros p. rewrite in_flat_map. split; [intros (a & E & Ea); apply Nat.eqb_eq in Ea; congruence|].
        intros E. exists f. split; [exact E|apply Nat.eqb_refl]. }
      destruct (@take_total _ rows (flatnonzero (map (Nat.eqb f) fi))) as [mine Hm].
      { intros p Hp. apply Hsel in Hp. rewrite HL. apply nth_error_Some. congruence. }
      rewrite Hm. cbn [bind].
      destruct (@put_agree _ tgt (flatnonzero (map (Nat.eqb f) fi)) (map (fun row => splitmix_value n base 0 row) mine) out D) as (out1 & E1 & A1).
      { apply mapM_intro; [rewrite map_length; exact (mapM_len Hm)|]. intros i p v Hp Hv.
        rewrite nth_error_map in Hv. destruct (nth_error mine i) as [r|] eqn:Er; [|discriminate]. cbn in Hv. injection Hv as <-.
        destruct (mapM_nth Hm Hp) as (r2 & Hr2 & Hr3). rewrite Er in Hr3. injection Hr3 as <-.
        apply nth_error_In in Hp. apply Hsel in Hp. unfold py_get in Hr2.
        destruct (nth_error rows p) as [r3|] eqn:Erp; [|discriminate]. injection Hr2 as ->.
        destruct (H p f r (or_introl eq_refl) Hp Erp) as (d2 & b2 & Hd2 & Hb2 & Ht).
        rewrite Hd in Hd2. injection Hd2 as <-. rewrite Hb in Hb2. injection Hb2 as <-. unfold py_get. now rewrite Ht. }
      { exact HA. }
      rewrite E1. cbn [bind].
      destruct (IH out1 (fun i => D i \/ In i (flatnonzero (map (Nat.eqb f) fi)))) as (out' & E2 & A2); auto.
      { intros; eapply H; eauto. now right. }
      { intros; apply Hin; now right. }
      exists out'. split; [exact E2|]. eapply agree_weaken; [exact A2|]. intros i [Hi|(g & [<-|Hg] & Hi)].
      + now left; left.
      + left; right. now apply Hsel.
      + right. eauto.
  Qed.

  Lemma fill_files_backward n seed domain epoch occurrence digests fi rows files : forall out out',
    fill_files header hash64 n seed domain epoch occurrence digests fi rows files out = Ok out' ->
    forall f, In f files -> exists d base, nth_error digests f = Some d /\
         splitmix_base header hash64 seed domain epoch (bytes_root, d, bytes_npz_row, 1) occurrence = Ok base.
  Proof.
    induction files as [|g rest IH]; intros out out' H f Hf; [destruct Hf|]. cbn [fill_files] in H.
    destruct (nth_error digests g) as [d|] eqn:Ed; [|discriminate]. cbn [bind] in H. inv_bind H. inv_bind H. inv_bind H.
    destruct Hf as [<-|Hf]; [eauto|]. eapply IH; eauto.
  Qed.

  Lemma packed_rows_keys n seed domain epoch occurrence digests fi rows keys l :
    List.length rows = List.length fi -> rows <> [] -> is_pow2_bound n = true ->
    mapM (fun '(f, r) => packed_key digests f r) (combine fi rows) = Ok keys ->
    packed_rows_v2 header hash64 junk_index n seed domain epoch digests fi rows occurrence = Ok l <->
    sample_keys_v2 header hash64 junk_index n seed domain epoch keys occurrence = Ok l.
  Proof.
    intros HL Hne Hp Hk.
    assert (Hlen : List.length keys = List.length rows).
    { rewrite (mapM_len Hk), combine_length. lia. }
    assert (Hkne : keys <> []) by (destruct keys, rows; cbn in *; congruence).
    rewrite keys_v2_splitmix by assumption. unfold packed_rows_v2. rewrite Hp, andb_true_r.
    destruct (bound_ok n); [|split; [discriminate|intros [? _]; discriminate]].
    assert (Hkey : forall p f r, nth_error fi p = Some f -> nth_error rows p = Some r ->
              exists d, nth_error digests f = Some d /\
                nth_error keys p = Some {| sk_ns := bytes_root; sk_digest := d; sk_kind := bytes_npz_row; sk_address := [r] |}).
    { intros p f r H1 H2. assert (Hc : nth_error (combine fi rows) p = Some (f, r)) by (rewrite combine_nth_error, H1, H2; reflexivity).
      destruct (mapM_nth Hk Hc) as (k & Hkk & Hkp). unfold packed_key, py_get in Hkk.
      destruct (nth_error digests f) as [d|]; [|discriminate]. cbn in Hkk. injection Hkk as <-. eauto. }
    assert (Hfwd : forall l0, mapM (splitmix_draw n seed domain epoch occurrence) keys = Ok l0 ->
       fill_files header hash64 n seed domain epoch occurrence digests fi rows (np_unique fi) (np_empty junk_index (List.length rows)) = Ok l0).
    { intros l0 Hl0. assert (Hl0len : List.length l0 = List.length rows) by (rewrite (mapM_len Hl0); exact Hlen).
      destruct (@fill_files_forward n seed domain epoch occurrence digests fi rows l0 (np_unique fi) (np_empty junk_index (List.length rows)) (fun _ => False)) as (out' & E & A).
      - exact HL.
      - intros p f r _ H1 H2. destruct (Hkey p f r H1 H2) as (d & Hd & Hkp). destruct (mapM_nth Hl0 Hkp) as (v & Hv & Hn).
        apply splitmix_draw_Ok in Hv as (_ & (base & Hb & ->) & _). exists d, base. auto.
      - intros f Hf. now apply in_unique.
      - now apply agree_empty.
      - exact Hl0len.
      - rewrite E. f_equal. eapply agree_all; [exact A|]. intros i Hi. right.
        destruct (@nth_error_in_range _ fi i) as [f Hf]; [lia|]. exists f. split; [|exact Hf]. apply in_unique. eapply nth_error_In; eauto. }
    split.
    - intros H. split; [reflexivity|]. inv_bind H. apply as_u64_Ok in Hm as [-> Hu]. apply guard_Ok in H as [_ H].
      destruct (@mapM_total _ _ (splitmix_draw n seed domain epoch occurrence) keys) as [l0 Hl0].
      { intros k Hin. apply In_nth_error in Hin as [p Hpk].
        assert (Hpl : (p < List.length rows)%nat) by (rewrite <- Hlen; apply nth_error_Some; congruence).
        destruct (nth_error_in_range Hpl) as [r Hr]. destruct (@nth_error_in_range _ fi p) as [f Hf]; [lia|].
        destruct (Hkey p f r Hf Hr) as (d & Hd & Hkp). rewrite Hpk in Hkp. injection Hkp as ->.
        destruct (fill_files_backward H (f := f)) as (d2 & base & Hd2 & Hb); [apply in_unique; eapply nth_error_In; eauto|].
        rewrite Hd in Hd2. injection Hd2 as <-.
        eexists. apply splitmix_draw_Ok. split; [reflexivity|]. split; [exists base; split; [exact Hb|reflexivity]|].
        split; [apply Hu; eapply nth_error_In; eauto|reflexivity]. }
      pose proof (Hfwd _ Hl0) as X. rewrite H in X. injection X as ->. exact Hl0.
    - intros [_ H]. rewrite (proj2 (as_u64_Ok rows rows)).
      + cbn [bind]. rewrite HL, Nat.eqb_refl. rewrite <- HL. now apply Hfwd.
      + split; [reflexivity|]. intros v Hv. apply In_nth_error in Hv as [p Hpr].
        assert (Hpl : (p < List.length rows)%nat) by (apply nth_error_Some; congruence).
        destruct (@nth_error_in_range _ fi p) as [f Hf]; [lia|]. destruct (Hkey p f v Hf Hpr) as (d & _ & Hkp).
        destruct (mapM_nth H Hkp) as (w & Hw & _). apply splitmix_draw_Ok in Hw as (_ & _ & Hr & _). exact Hr.
  Qed.
End Rng.
