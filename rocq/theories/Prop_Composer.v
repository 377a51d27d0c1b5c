(** * C45: batch pipelines add their declared fields, and nothing else changes.
    Specification vocabulary: ComposerSpec.v (declared fields, what a stage does, the
    chain, what a blob stores) and FieldDigestSpec.v (kinds of values). *)
From Verif Require Import Base BaseFacts Rng RngFacts Checkpoint Json JsonFacts StateCodec StateCodecSpec StateCodecFacts
  DecoderFacts DecoderBatch FieldDigest FieldDigestSpec FieldDigestFacts Composer ComposerSpec ComposerFacts ComposerChain Prop_StateCodec.
Set Implicit Arguments. Unset Strict Implicit.

Section C45.
(** [W]: whatever pipelines can change; [K], [R]: sample keys and rng keys.  The theorems
    hold for every behaviour of numpy on lists, every repr, float(), int() and hash. *)
Variables W K R : Type.
Notation pipeline := (pipeline W K R).
Variable asarray : fv -> res (list Z * Z).
Variable int_pairs : fv -> list (Z * Z).
Variable row_equal : fv -> nat -> bool.
Variable printable : Z -> bool.
Variable float_text : Z -> ustr.
Variable float_of : ustr -> Z.
Variable int_of_other : json -> res Z.
Variable float_is : Z -> Z -> bool.
Variable sha256 : bytes -> bytes.
Notation encode := (canonical_pipeline_state_bytes float_text).
Notation decode := (decode_canonical_pipeline_state float_text float_of int_of_other).
Notation digest := (field_value_digest printable float_text sha256).
Notation feed := (feed printable float_text).
Notation does := (@does W K R asarray int_pairs row_equal printable float_text sha256).
Notation ran := (@ran W K R asarray int_pairs row_equal printable float_text sha256).
Notation entry_for := (@entry_for W K R float_text).
Notation stores := (@stores W K R float_text).
Notation valid_chain := (@valid_chain W K R float_text).
Notation extends := (extends printable float_text sha256).
Notation fields_ok := (fields_ok asarray int_pairs row_equal).
Notation build := (@build W K R float_text sha256).
Notation compose := (@compose W K R float_text sha256).
Notation decode_entry := (@decode_entry W K R float_text float_of int_of_other float_is).
Notation decode_blob := (@decode_blob W K R float_text float_of int_of_other float_is).
Notation run_all := (@run_all W K R asarray int_pairs row_equal printable float_text float_of int_of_other sha256).
Notation prepare_batch := (@prepare_batch W K R asarray int_pairs row_equal printable float_text float_of int_of_other float_is sha256).

(** ** Building the chain *)
Definition one_ok (w : W) (p : pipeline) : Prop :=
  p_id p <> [] /\ (exists v, p_version p = Some v) /\
  (forall k, In k (names (p_outputs p)) -> ~ In k (names (p_inputs p))) /\
  encodable float_text (p_signature p w) /\ encodable float_text (initial_of p).
Definition all_outs (ps : list pipeline) : list ustr := flat_map (fun p => names (p_outputs p)) ps.

Lemma NoDup_app_iff (A : Type) (a b : list A) : NoDup (a ++ b) <-> NoDup a /\ NoDup b /\ forall x, In x a -> ~ In x b.
Proof.
  induction a as [|x a IH]; cbn [app].
  - split; [intros H; repeat split; [constructor|exact H|tauto]|intros (_ & H & _); exact H].
  - split.
    + intros H. inversion H as [|? ? H1 H2]; subst. apply IH in H2. destruct H2 as (Ha & Hb & Hd). rewrite in_app_iff in H1.
      split; [constructor; tauto|]. split; [exact Hb|]. intros y [<-|Hy]; [tauto|auto].
    + intros (Ha & Hb & Hd). inversion Ha as [|? ? H1 H2]; subst. constructor; [rewrite in_app_iff; intros [H|H]; [tauto|apply (Hd x (or_introl eq_refl) H)]|].
      apply IH. split; [exact H2|]. split; [exact Hb|]. intros y Hy. apply Hd. right. exact Hy.
Qed.
Lemma build_inv w ps : forall produced l, build w ps produced = Ok l ->
  List.length l = List.length ps /\
  (forall i p fe, nth_error ps i = Some p -> nth_error l i = Some fe ->
     (exists b, encode (p_signature p w) = Ok b /\ fst fe = sha256 b) /\ entry_for p (initial_of p) (snd fe)) /\
  Forall (one_ok w) ps /\ NoDup (all_outs ps) /\ (forall k, In k (all_outs ps) -> ~ In k produced).
Proof.
  clear asarray int_pairs row_equal printable float_of int_of_other float_is. induction ps as [|p ps IH]; intros produced l H; cbn [Composer.build] in H.
  - injection H as <-. split; [reflexivity|]. split; [intros [|i] p fe E; discriminate|]. split; [constructor|]. split; [constructor|]. intros k [].
  - apply guard_Ok in H. destruct H as [H1 H]. inv_bind H. inv_bind H. apply guard_Ok in H. destruct H as [H2 H]. apply guard_Ok in H. destruct H as [H3 H].
    apply guard_Ok in H. destruct H as [H4 H]. inv_bind H. inv_bind H. injection H as <-.
    destruct (IH _ _ Hm2) as (L & E & F & N & D). apply negb_true_iff in H1, H3, H4. apply ustr_eqb_neq in H1. apply distinct_NoDup in H2.
    pose proof (proj1 (no_common _ _) H3) as D3. pose proof (proj1 (no_common _ _) H4) as D4.
    destruct (p_version p) as [ver|] eqn:V; [|discriminate]. injection Hm as <-.
    unfold entry in Hm1. inv_bind Hm1. injection Hm1 as <-. change (match p_initial p with Some s => s | None => VNone end) with (initial_of p) in *.
    split; [cbn; lia|]. split; [|split; [|split]].
    + intros [|i] q fe Eq Ef; cbn [nth_error] in Eq, Ef; [|apply (E i q fe Eq Ef)]. injection Eq as <-. injection Ef as <-. cbn [fst snd].
      split; [eauto|]. constructor; assumption.
    + constructor; [|exact F]. split; [exact H1|]. split; [eauto|]. split; [exact D4|]. split; eexists; eassumption.
    + unfold all_outs. cbn [flat_map]. fold (all_outs ps). apply NoDup_app_iff. split; [exact H2|]. split; [exact N|]. intros k Hk Hk'. apply (D k Hk'). apply in_or_app. right. exact Hk.
    + intros k Hk. unfold all_outs in Hk. cbn [flat_map] in Hk. apply in_app_iff in Hk. destruct Hk as [Hk|Hk]; [apply D3; exact Hk|].
      intros Hp. apply (D k Hk). apply in_or_app. left. exact Hp.
Qed.
Lemma build_total w ps : forall produced, Forall (one_ok w) ps -> NoDup (all_outs ps) -> (forall k, In k (all_outs ps) -> ~ In k produced) ->
  exists l, build w ps produced = Ok l.
Proof.
  clear asarray int_pairs row_equal printable float_of int_of_other float_is. induction ps as [|p ps IH]; intros produced F N D; [exists []; reflexivity|]. inversion F as [|? ? (H1 & (ver & V) & H3 & (sg & Hs) & (ib & Hi)) F2]; subst.
  unfold all_outs in N, D. cbn [flat_map] in N, D. fold (all_outs ps) in N, D. apply NoDup_app_iff in N. destruct N as (N1 & N2 & N3).
  cbn [Composer.build]. apply ustr_eqb_neq in H1. rewrite H1. cbn [negb]. rewrite V. cbn [bind]. rewrite Hs. cbn [bind].
  change (out_names p) with (names (p_outputs p)). change (in_names p) with (names (p_inputs p)).
  apply distinct_NoDup in N1. rewrite N1.
  replace (existsb (has produced) (names (p_outputs p))) with false by (symmetry; apply no_common; intros k Hk; apply D; apply in_or_app; left; exact Hk).
  replace (existsb (has (names (p_inputs p))) (names (p_outputs p))) with false by (symmetry; apply no_common; exact H3).
  cbn [negb]. unfold entry. change (match p_initial p with Some s => s | None => VNone end) with (initial_of p). rewrite Hi. cbn [bind].
  destruct (IH (produced ++ names (p_outputs p)) F2 N2) as (l & ->); [|eexists; reflexivity].
  intros k Hk Hin. apply in_app_iff in Hin. destruct Hin as [Hin|Hin]; [apply (D k); [apply in_or_app; right; exact Hk|exact Hin]|apply (N3 k Hin Hk)].
Qed.
Lemma compose_inv w ps m : compose w ps = Ok m ->
  m_pipelines m = ps /\ List.length (m_fingerprints m) = List.length ps /\
  (forall i p fp, nth_error ps i = Some p -> nth_error (m_fingerprints m) i = Some fp -> exists b, encode (p_signature p w) = Ok b /\ fp = sha256 b) /\
  stores ps (map (@initial_of W K R) ps) (m_initial m) /\
  NoDup (map (@p_id W K R) ps) /\ Forall (one_ok w) ps /\ NoDup (all_outs ps).
Proof.
  clear asarray int_pairs row_equal printable float_of int_of_other float_is. intros H. unfold Composer.compose in H. apply guard_Ok in H. destruct H as [Hd H]. inv_bind H. inv_bind H. injection H as <-. cbn [m_pipelines m_fingerprints m_initial].
  destruct (build_inv Hm) as (L & E & F & N & _). split; [reflexivity|]. split; [rewrite map_length; exact L|]. split; [|split; [|split; [|split]]].
  - intros i p fp Ep Ef. rewrite nth_error_map in Ef. destruct (nth_error v i) as [fe|] eqn:En; [|discriminate]. injection Ef as <-. apply (E i p fe Ep En).
  - split; [apply map_length|]. exists (map snd v). split; [rewrite map_length; exact L|]. split; [|exact Hm0].
    intros i p st e Ep Es Ee. rewrite nth_error_map in Es, Ee. rewrite Ep in Es. cbn in Es. injection Es as <-.
    destruct (nth_error v i) as [fe|] eqn:En; [|discriminate]. injection Ee as <-. apply (E i p fe Ep En).
  - apply distinct_NoDup. exact Hd.
  - exact F.
  - exact N.
Qed.

(** A chain of pipelines is accepted exactly if identifiers are distinct and not empty, no
    output is declared twice or is also an input of its pipeline, versions are integers, and
    configurations and initial states can be encoded. *)
Theorem C45_chains_are_accepted_exactly_when_valid : forall w ps, (exists m, compose w ps = Ok m) <-> valid_chain w ps.
Proof.
  clear asarray int_pairs row_equal printable float_of int_of_other float_is. intros w ps. split.
  - intros (m & H). destruct (compose_inv H) as (_ & _ & _ & S & N & F & No). split; [exact N|]. split; [exact No|]. split; [|eauto].
    rewrite Forall_forall in F. intros p Hp. apply (F p Hp).
  - intros (N & No & F & (blob & Hl & es & Le & He & Eb)). unfold Composer.compose. apply distinct_NoDup in N. rewrite N.
    destruct (@build_total w ps []) as (l & Hb); [apply Forall_forall; exact F|exact No|intros k _ []|]. rewrite Hb. cbn [bind].
    destruct (build_inv Hb) as (L & E & _). enough (X : map snd l = es) by (rewrite X, Eb; eexists; reflexivity).
    apply list_ext. { rewrite map_length. lia. }
    intros i e' E'. rewrite nth_error_map in E'. destruct (nth_error l i) as [fe|] eqn:El; [|discriminate]. cbn [option_map] in E'. injection E' as <-.
    assert (i < List.length l)%nat by (apply nth_error_Some; congruence).
    destruct (nth_error ps i) as [p|] eqn:Ep; [|apply nth_error_None in Ep; lia]. destruct (nth_error es i) as [e|] eqn:Ee; [|apply nth_error_None in Ee; lia].
    destruct (E i p fe Ep El) as (_ & E1). assert (E2 : entry_for p (initial_of p) e) by (apply (He i p _ e Ep); [rewrite nth_error_map, Ep; reflexivity|exact Ee]).
    f_equal. destruct E1 as [v1 b1 V1 B1], E2 as [v2 b2 V2 B2]. congruence.
Qed.

(** ** Preparing batches *)
(** Python values: the states pipelines are made with and return are well-formed values,
    the dictionaries they return have distinct keys. *)
Definition genuine (p : pipeline) : Prop :=
  wf (initial_of p) /\
  (forall w data st sks rks w1 r, p_call p w data st sks rks = (w1, Ok r) ->
     wf (c_next r) /\ forall d, c_data r = Some d -> NoDup (dkeys d)).
(** The blob a batch starts from: the one given, or else the one of the initial states. *)
Definition starts_from (ps : list pipeline) (sts : list value) (current : option bytes) : Prop :=
  match current with None => sts = map (@initial_of W K R) ps | Some b => stores ps sts b end.

Lemma forall2_combine (ps : list pipeline) : forall nexts es, List.length nexts = List.length ps ->
  (Forall2 (fun pn e => entry_for (fst pn) (snd pn) e) (combine ps nexts) es <->
   (List.length es = List.length ps /\ forall i p n e, nth_error ps i = Some p -> nth_error nexts i = Some n -> nth_error es i = Some e -> entry_for p n e)).
Proof.
  induction ps as [|p ps IH]; intros [|n nexts] es L; try discriminate; cbn [combine].
  - split; [intros H; inversion H; subst; split; [reflexivity|intros [|i] p n e E; discriminate]|intros (H & _); destruct es; [constructor|discriminate]].
  - split.
    + intros H. inversion H as [|? e ? es' H1 H2]; subst. apply IH in H2; [|cbn in L; lia]. destruct H2 as (L2 & H2). split; [cbn; lia|].
      intros [|i] p' n' e' Ep En Ee; cbn [nth_error] in Ep, En, Ee; [|apply (H2 i p' n' e' Ep En Ee)]. injection Ep as <-. injection En as <-. injection Ee as <-. exact H1.
    + intros (L2 & H). destruct es as [|e es]; [discriminate|]. constructor; [apply (H 0%nat p n e eq_refl eq_refl eq_refl)|].
      apply IH; [cbn in L; lia|]. split; [cbn in L2; lia|]. intros i. apply (H (S i)).
Qed.
Lemma norm_settled st b : wf st -> encode st = Ok b -> settled float_text float_of int_of_other (norm st).
Proof. intros Hw He. pose proof (decode_encode float_of int_of_other Hw He) as D. apply (decode_settled D). Qed.
Lemma stores_encoded ps sts blob st : stores ps sts blob -> In st sts -> exists b, encode st = Ok b.
Proof.
  intros (L & es & Le & He & _) Hin. apply In_nth_error in Hin as Hn. destruct Hn as (i & Hi).
  assert (Hlt : (i < List.length sts)%nat) by (apply nth_error_Some; congruence).
  destruct (nth_error ps i) as [p|] eqn:Ep; [|apply nth_error_None in Ep; rewrite <- L in Ep; apply Nat.lt_nge in Hlt; contradiction].
  destruct (nth_error es i) as [e|] eqn:Ee; [|apply nth_error_None in Ee; rewrite Le, <- L in Ee; apply Nat.lt_nge in Hlt; contradiction].
  destruct (He i p st e Ep Hi Ee) as [v b _ Hb]. eauto.
Qed.
Lemma stores_settled ps sts blob : Forall wf sts -> stores ps sts blob -> Forall (settled float_text float_of int_of_other) (map norm sts).
Proof.
  intros Hw S. apply Forall_map. apply Forall_forall. intros st Hin. rewrite Forall_forall in Hw.
  destruct (stores_encoded S Hin) as (b & Hb). apply (norm_settled (Hw st Hin) Hb).
Qed.
Lemma norm_same_tuples st b : wf st -> encode st = Ok b -> same st (norm st) /\ tuples_only (norm st).
Proof.
  intros Hw He. destruct (@C30_encoded_states_decode_to_themselves float_text float_of int_of_other st b Hw He) as (v & D & S & T).
  rewrite (decode_encode float_of int_of_other Hw He) in D. injection D as <-. auto.
Qed.

(** With a blob that stores the states [sts], prepare_batch succeeds exactly if the chain
    runs as it should from those states (lists read back as tuples), and then returns what
    the last pipeline returned and a blob that stores the pipelines' next states. *)
Theorem C45_batches_are_prepared_by_running_the_chain : forall w0 ps m, compose w0 ps = Ok m -> Forall genuine ps ->
  forall sts current, starts_from ps sts current -> Forall wf sts ->
  exists sts', Forall2 same sts sts' /\ Forall tuples_only sts' /\
  forall w batch sks rks w' data blob, NoDup (dkeys batch) ->
    (prepare_batch m w batch sks rks current = (w', Ok (data, blob)) <->
     List.length sks = List.length rks /\
     exists nexts, ran sks rks ps (m_fingerprints m) sts' w batch nexts w' data /\ stores ps nexts blob).
Proof.
  intros w0 ps m Hc G sts current Hs Hw. destruct (compose_inv Hc) as (Hp & Lf & _ & Hi & _).
  set (cur := match current with None => m_initial m | Some b => b end).
  assert (S : stores ps sts cur) by (unfold cur; destruct current; cbn in Hs; [exact Hs|subst sts; exact Hi]). clear Hs.
  pose proof (stores_settled Hw S) as Set_.
  assert (D : decode_blob m cur = Ok (map norm sts)) by (apply stores_decodes; [exact Hw|rewrite Hp; exact S]).
  pose proof S as (Ls & _).
  assert (X : Forall2 same sts (map norm sts) /\ Forall tuples_only (map norm sts)).
  { assert (Y : forall st, In st sts -> same st (norm st) /\ tuples_only (norm st)).
    { intros st Hin. rewrite Forall_forall in Hw. destruct (stores_encoded S Hin) as (b & Hb). apply (norm_same_tuples (Hw st Hin) Hb). }
    clear - Y. induction sts as [|st sts IH]; [split; constructor|]. destruct IH as (A & B); [intros x Hx; apply Y; right; exact Hx|].
    destruct (Y st (or_introl eq_refl)). split; cbn [map]; constructor; assumption. }
  exists (map norm sts). split; [apply X|]. split; [apply X|]. clear X.
  intros w batch sks rks w' data blob ND. unfold Composer.prepare_batch. fold cur. rewrite D.
  destruct (List.length sks =? List.length rks)%nat eqn:El.
  2:{ apply Nat.eqb_neq in El. split; [discriminate|intros (H & _); congruence]. }
  apply Nat.eqb_eq in El. rewrite Hp. fold (zip3 ps (m_fingerprints m) (map norm sts)). split.
  - intros H. split; [exact El|].
    destruct (run_all (zip3 ps (m_fingerprints m) (map norm sts)) w batch sks rks) as [w1 [[d es]|x]] eqn:E; [|discriminate].
    injection H as <- H. inv_bind H. injection H as <- <-.
    destruct (run_all_ran Lf (eq_trans (map_length _ _) Ls) Set_ E) as (nexts & Hr & Hf & Hl). exists nexts. split; [exact Hr|].
    apply forall2_combine in Hf; [|exact Hl]. destruct Hf as (L2 & Hf). split; [exact Hl|]. exists es. split; [exact L2|]. split; [exact Hf|exact Hm].
  - intros (_ & nexts & Hr & (Hl & es & Le & He & Eb)).
    assert (Hf : Forall2 (fun pn e => entry_for (fst pn) (snd pn) e) (combine ps nexts) es) by (apply forall2_combine; auto).
    assert (Gk : forall p, In p ps -> forall w data st sks rks w1 r d1, p_call p w data st sks rks = (w1, Ok r) -> c_data r = Some d1 -> NoDup (dkeys d1)).
    { intros p Hin w2 data2 st sk rk w1 r d1 C Cd. rewrite Forall_forall in G. destruct (G p Hin) as (_ & Gp). apply (Gp _ _ _ _ _ _ _ C). exact Cd. }
    rewrite (@ran_keys W K R asarray int_pairs row_equal printable float_text float_of int_of_other sha256 sks rks ps _ _ _ _ _ _ _ Gk ND Set_ Hr es Hf).
    rewrite Eb. reflexivity.
Qed.

(** ** What the result holds *)
Lemma decode_blob_settled m b sts : decode_blob m b = Ok sts -> List.length sts = List.length (m_pipelines m) /\ Forall (settled float_text float_of int_of_other) sts.
Proof.
  intros H. unfold Composer.decode_blob in H. inv_bind H. inv_bind H. apply guard_Ok in H. destruct H as [L H]. apply Nat.eqb_eq in L.
  split; [rewrite (mapM_len H), combine_length, L; apply Nat.min_id|]. apply Forall_forall. intros st Hin.
  destruct (mapM_ok_in H Hin) as ([p e] & _ & E). cbn [fst snd] in E. unfold Composer.decode_entry in E. inv_bind E. destruct v1 as [[a x] y].
  apply guard_Ok in E. destruct E as [_ E]. inv_bind E. inv_bind E. apply (decode_settled E).
Qed.
Lemma prepare_ran w0 ps m w batch sks rks current w' data blob : compose w0 ps = Ok m ->
  prepare_batch m w batch sks rks current = (w', Ok (data, blob)) ->
  exists sts nexts, ran sks rks ps (m_fingerprints m) sts w batch nexts w' data /\ stores ps nexts blob.
Proof.
  intros Hc H. destruct (compose_inv Hc) as (Hp & Lf & _). unfold Composer.prepare_batch in H.
  destruct (List.length sks =? List.length rks)%nat; [|discriminate].
  destruct (decode_blob m match current with None => m_initial m | Some b => b end) as [sts|] eqn:D; [|discriminate]. cbn [bind] in H.
  destruct (decode_blob_settled D) as (Ls & Set_). rewrite Hp in *. fold (zip3 ps (m_fingerprints m) sts) in H.
  destruct (run_all (zip3 ps (m_fingerprints m) sts) w batch sks rks) as [w1 [[d es]|x]] eqn:E; [|discriminate]. injection H as <- H. inv_bind H. injection H as <- <-.
  destruct (run_all_ran Lf Ls Set_ E) as (nexts & Hr & Hf & Hl). exists sts, nexts. split; [exact Hr|].
  apply forall2_combine in Hf; [|exact Hl]. destruct Hf as (L2 & Hf). split; [exact Hl|]. exists es. auto.
Qed.
Lemma looks_same_refl v v' : looks_same printable float_text sha256 v v' -> looks_same printable float_text sha256 v v.
Proof. intros (x & H & _). exists x. auto. Qed.
Lemma ran_extends sks rks ps fps sts w data nexts w' d : ran sks rks ps fps sts w data nexts w' d ->
  (forall k v, obj_get data k = Some v -> ps <> [] -> ~ In k (all_outs ps) /\ exists v', obj_get d k = Some v' /\ looks_same printable float_text sha256 v v') /\
  (forall k, In k (dkeys d) -> In k (dkeys data) \/ In k (all_outs ps)) /\
  (forall k, In k (dkeys data) -> In k (dkeys d)).
Proof.
  intros H. induction H as [w data|p ps fp fps st sts w data w1 data1 next nexts w2 data2 D Hr IH].
  - split; [intros; congruence|]. split; auto.
  - destruct D as (r & _ & _ & _ & _ & _ & _ & (X1 & X2) & _). destruct IH as (I1 & I2 & I3). unfold all_outs. cbn [flat_map]. fold (all_outs ps). split; [|split].
    + intros k v E _. destruct (X1 k v E) as (N & v1 & E1 & S1). destruct ps as [|p2 ps].
      * inversion Hr; subst. split; [cbn [all_outs flat_map]; rewrite app_nil_r; exact N|]. eauto.
      * destruct (I1 k v1 E1 ltac:(discriminate)) as (N' & v2 & E2 & S2). split; [rewrite in_app_iff; tauto|]. exists v2. split; [exact E2|].
        destruct S1 as (x & A1 & A2), S2 as (y & B1 & B2). exists x. split; [exact A1|]. congruence.
    + intros k Hk. rewrite in_app_iff. destruct (I2 k Hk) as [H|H]; [destruct (X2 k H); tauto|tauto].
    + intros k Hk. apply I3. apply obj_get_key in Hk. destruct Hk as (v & E). destruct (X1 k v E) as (_ & v' & E' & _). apply obj_get_key. eauto.
Qed.
Lemma ran_outputs sks rks ps fps sts w data nexts w' d : ran sks rks ps fps sts w data nexts w' d ->
  forall p sp, In p ps -> In sp (p_outputs p) -> f_required sp = true -> In (f_name sp) (dkeys d).
Proof.
  intros H. induction H as [w data|p ps fp fps st sts w data w1 data1 next nexts w2 data2 D Hr IH]; intros q sp Hq Hsp Hreq; [destruct Hq|].
  destruct Hq as [<-|Hq]; [|apply (IH q sp Hq Hsp Hreq)]. destruct D as (r & _ & _ & _ & _ & _ & (boards & _ & V) & _). specialize (V sp Hsp).
  apply (proj2 (proj2 (ran_extends Hr))). destruct (obj_get data1 (f_name sp)) as [v|] eqn:E; [apply obj_get_key; eauto|congruence].
Qed.

(** The prepared batch has all the fields of the batch, every required output of every
    pipeline, and no field that is neither; and no output replaced a field. *)
Theorem C45_exactly_the_declared_fields_are_added : forall w0 ps m, compose w0 ps = Ok m ->
  forall w batch sks rks current w' data blob, prepare_batch m w batch sks rks current = (w', Ok (data, blob)) ->
  (forall k, In k (dkeys batch) -> In k (dkeys data)) /\
  (forall p sp, In p ps -> In sp (p_outputs p) -> ~ In (f_name sp) (dkeys batch) /\ (f_required sp = true -> In (f_name sp) (dkeys data))) /\
  (forall k, In k (dkeys data) -> In k (dkeys batch) \/ exists p sp, In p ps /\ In sp (p_outputs p) /\ f_name sp = k).
Proof.
  intros w0 ps m Hc w batch sks rks current w' data blob H. destruct (prepare_ran Hc H) as (sts & nexts & Hr & _).
  destruct (ran_extends Hr) as (X1 & X2 & X3). split; [exact X3|]. split.
  - intros p sp Hp Hsp. split; [|apply (ran_outputs Hr Hp Hsp)]. intros Hk. apply obj_get_key in Hk. destruct Hk as (v & E).
    destruct (X1 _ v E) as (N & _); [intros ->; destruct Hp|]. apply N. apply List.in_flat_map. exists p. split; [exact Hp|]. apply in_map. exact Hsp.
  - intros k Hk. destruct (X2 k Hk) as [G|G]; [auto|]. right. apply List.in_flat_map in G. destruct G as (p & Hp & G). apply in_map_iff in G. destruct G as (sp & E & Hsp).
    exists p, sp. auto.
Qed.

(** Every field of the batch comes back as it was: if its value contains no dictionary, an
    altered value would need a SHA-256 collision. *)
Theorem C45_batch_fields_come_back_unchanged : float_repr_law float_text -> forall w0 ps m, compose w0 ps = Ok m ->
  forall w batch sks rks current w' data blob, prepare_batch m w batch sks rks current = (w', Ok (data, blob)) ->
  forall k v, obj_get batch k = Some v -> dict_free v ->
  exists v', obj_get data k = Some v' /\
    (known v' -> v' = v \/ exists b b', feed v = Ok b /\ feed v' = Ok b' /\ b <> b' /\ sha256 b = sha256 b').
Proof.
  intros L w0 ps m Hc w batch sks rks current w' data blob H k v E Df. destruct (prepare_ran Hc H) as (sts & nexts & Hr & _).
  destruct ps as [|p ps].
  - inversion Hr; subst. exists v. split; [exact E|]. auto.
  - destruct (ran_extends Hr) as (X1 & _). destruct (X1 k v E ltac:(discriminate)) as (_ & v' & E' & x & D1 & D2). exists v'. split; [exact E'|]. intros Kn.
    unfold field_value_digest in D1, D2. inv_bind D1. inv_bind D2. injection D1 as D1. injection D2 as D2.
    destruct (list_eq_dec Z.eq_dec v0 v1) as [Eq|Ne].
    + left. subst v1. symmetry. apply (feed_inj L Df Kn Hm Hm0).
    + right. exists v0, v1. repeat split; try assumption. congruence.
Qed.

(** ** Blobs of other chains *)
Lemma mapM_mismatch ps : forall ps' sts es, List.length sts = List.length ps' -> List.length es = List.length ps' -> List.length ps' = List.length ps ->
  Forall wf sts ->
  (forall i p st e, nth_error ps' i = Some p -> nth_error sts i = Some st -> nth_error es i = Some e -> entry_for p st e) ->
  map (fun p : pipeline => (p_id p, p_version p)) ps' <> map (fun p => (p_id p, p_version p)) ps ->
  mapM (fun pv => decode_entry (fst pv) (snd pv)) (combine ps es) = Err ValueError.
Proof.
  induction ps as [|p ps IH]; intros [|p' ps'] [|st sts] [|e es] L1 L2 L3 Hw He N; try discriminate; [exfalso; apply N; reflexivity|].
  cbn [combine mapM fst snd]. pose proof (He 0%nat p' st e eq_refl eq_refl eq_refl) as H0. inversion Hw as [|? ? W1 W2]; subst.
  destruct (list_eq_dec Z.eq_dec (p_id p') (p_id p)) as [Ei|Ni].
  - assert (Dv : {p_version p' = p_version p} + {p_version p' <> p_version p}) by (decide equality; apply Z.eq_dec). destruct Dv as [Ev|Nv].
    + assert (H1 : entry_for p st e) by (destruct H0 as [ver b V B]; rewrite Ei; constructor; [congruence|exact B]).
      rewrite (decode_entry_ok float_of int_of_other float_is W1 H1). cbn [bind].
      rewrite (IH ps' sts es); [reflexivity|cbn in L1; lia|cbn in L2; lia|cbn in L3; lia|exact W2|intros i; apply (He (S i))|].
      intros E. apply N. cbn [map]. congruence.
    + destruct H0 as [ver b V B]. unfold Composer.decode_entry, unpack3. cbn [items_of bind]. cbn [equals_str equals_int].
      replace (ustr_eqb (p_id p') (p_id p) && match p_version p with Some n => ver =? n | None => false end) with false; [reflexivity|].
      symmetry. apply andb_false_iff. right. destruct (p_version p) as [n|]; [|reflexivity]. apply Z.eqb_neq. congruence.
  - destruct H0 as [ver b V B]. unfold Composer.decode_entry, unpack3. cbn [items_of bind equals_str equals_int].
    apply ustr_eqb_neq in Ni. rewrite Ni. reflexivity.
Qed.
(** A blob made by a chain with other identifiers, versions or order is refused before any
    pipeline runs. *)
Theorem C45_blobs_of_other_chains_are_refused : forall w0 ps m ps' sts blob, compose w0 ps = Ok m -> stores ps' sts blob -> Forall wf sts ->
  map (fun p => (p_id p, p_version p)) ps' <> map (fun p => (p_id p, p_version p)) ps ->
  forall w batch sks rks, prepare_batch m w batch sks rks (Some blob) = (w, Err ValueError).
Proof.
  intros w0 ps m ps' sts blob Hc (L & es & Le & He & Eb) Hw N w batch sks rks. destruct (compose_inv Hc) as (Hp & _).
  unfold Composer.prepare_batch. destruct (List.length sks =? List.length rks)%nat; [|reflexivity].
  enough (D : decode_blob m blob = Err ValueError) by (rewrite D; reflexivity). unfold Composer.decode_blob.
  assert (G : forall e, In e es -> wf e /\ norm e = e).
  { intros e Hin. apply In_nth_error in Hin. destruct Hin as (i & Hi).
    assert (Hlt : (i < List.length es)%nat) by (apply nth_error_Some; congruence).
    destruct (nth_error ps' i) as [p|] eqn:Ep; [|apply nth_error_None in Ep; lia]. destruct (nth_error sts i) as [st|] eqn:Es; [|apply nth_error_None in Es; lia].
    pose proof (He i p st e Ep Es Hi) as H. split; [apply (entry_wf H)|apply (entry_norm H)]. }
  assert (Wf : wf (VList es)) by (constructor; apply Forall_forall; intros e Hin; apply G; exact Hin).
  rewrite (decode_encode float_of int_of_other Wf Eb). cbn [bind norm items_of]. rewrite map_length, Le, Hp.
  destruct (List.length ps' =? List.length ps)%nat eqn:El; [|reflexivity]. apply Nat.eqb_eq in El.
  replace (map norm es) with es by (clear - G; induction es as [|e es IH]; [reflexivity|]; cbn [map]; rewrite (proj2 (G e (or_introl eq_refl))); f_equal; apply IH; intros x Hx; apply G; right; exact Hx).
  apply (@mapM_mismatch ps ps' sts es L Le El Hw He N).
Qed.

(** ** Replay and resume *)
(** Batches prepared one after the other, each from the blob of the one before. *)
Fixpoint prepare_batches (m : composer W K R) (w : W) (l : list (fields * list K * list R)) (current : option bytes)
  : W * res (list fields * option bytes) :=
  match l with
  | [] => (w, Ok ([], current))
  | (batch, sks, rks) :: r =>
      match prepare_batch m w batch sks rks current with
      | (w1, Err e) => (w1, Err e)
      | (w1, Ok (d, blob)) =>
          match prepare_batches m w1 r (Some blob) with
          | (w2, Err e) => (w2, Err e)
          | (w2, Ok (ds, b)) => (w2, Ok (d :: ds, b))
          end
      end
  end.
Lemma run_one_pure (p : pipeline) : pure p -> forall fp w w' data st sks rks,
  snd (run_one asarray int_pairs row_equal printable float_text float_of int_of_other sha256 p fp w data st sks rks) =
  snd (run_one asarray int_pairs row_equal printable float_text float_of int_of_other sha256 p fp w' data st sks rks).
Proof.
  intros (P1 & P2) fp w w' data st sks rks. unfold run_one, before_call. rewrite (P2 w w').
  match goal with |- context [match ?b with Ok _ => _ | Err _ => _ end] => destruct b as [[[[sg ib] iso] ds]|e]; [|reflexivity] end.
  pose proof (P1 w w' data iso sks rks) as C. destruct (p_call p w data iso sks rks) as [w1 r1]. destruct (p_call p w' data iso sks rks) as [w2 r2]. cbn [snd] in C. subst r2.
  destruct r1 as [r|e]; [|reflexivity]. cbn [snd]. unfold after_call. rewrite (P2 w1 w2). reflexivity.
Qed.
Lemma run_all_pure (ps : list (pipeline * bytes * value)) : (forall x, In x ps -> pure (fst (fst x))) -> forall w w' data sks rks,
  snd (run_all ps w data sks rks) = snd (run_all ps w' data sks rks).
Proof.
  induction ps as [|[[p fp] st] ps IH]; intros P w w' data sks rks; [reflexivity|]. cbn [Composer.run_all].
  pose proof (run_one_pure (P _ (or_introl eq_refl)) fp w w' data st sks rks) as E. cbn [fst] in E.
  destruct (run_one asarray int_pairs row_equal printable float_text float_of int_of_other sha256 p fp w data st sks rks) as [w1 r1].
  destruct (run_one asarray int_pairs row_equal printable float_text float_of int_of_other sha256 p fp w' data st sks rks) as [w2 r2]. cbn [snd] in E. subst r2.
  destruct r1 as [[d e]|x]; [|reflexivity]. pose proof (IH (fun y Hy => P y (or_intror Hy)) w1 w2 d sks rks) as E.
  destruct (run_all ps w1 d sks rks) as [w3 r3]. destruct (run_all ps w2 d sks rks) as [w4 r4]. cbn [snd] in E. subst r4. destruct r3 as [[d2 es]|x]; reflexivity.
Qed.
Lemma combine_in_fst (A B : Type) (l : list A) (m : list B) x : In x (combine l m) -> In (fst x) l.
Proof. destruct x. intros H. apply in_combine_l in H. exact H. Qed.
Lemma prepare_pure m w w' batch sks rks current : (forall p, In p (m_pipelines m) -> pure p) ->
  snd (prepare_batch m w batch sks rks current) = snd (prepare_batch m w' batch sks rks current).
Proof.
  intros P. unfold Composer.prepare_batch. match goal with |- context [match ?b with Ok _ => _ | Err _ => _ end] => destruct b as [sts|e]; [|reflexivity] end.
  set (z := combine (combine (m_pipelines m) (m_fingerprints m)) sts).
  assert (Pz : forall x, In x z -> pure (fst (fst x))).
  { intros x Hx. apply combine_in_fst in Hx. apply combine_in_fst in Hx. apply P. exact Hx. }
  pose proof (run_all_pure Pz w w' batch sks rks) as E.
  destruct (run_all z w batch sks rks) as [w1 r1]. destruct (run_all z w' batch sks rks) as [w2 r2]. cbn [snd] in E. subst r2. destruct r1 as [[d es]|x]; reflexivity.
Qed.
Lemma batches_pure m l : (forall p, In p (m_pipelines m) -> pure p) -> forall w w' current,
  snd (prepare_batches m w l current) = snd (prepare_batches m w' l current).
Proof.
  intros P. induction l as [|[[batch sks] rks] l IH]; intros w w' current; [reflexivity|]. cbn [prepare_batches].
  pose proof (prepare_pure w w' batch sks rks current P) as E.
  destruct (prepare_batch m w batch sks rks current) as [w1 r1]. destruct (prepare_batch m w' batch sks rks current) as [w2 r2]. cbn [snd] in E. subst r2.
  destruct r1 as [[d b]|x]; [|reflexivity]. specialize (IH w1 w2 (Some b)).
  destruct (prepare_batches m w1 l (Some b)) as [w3 r3]. destruct (prepare_batches m w2 l (Some b)) as [w4 r4]. cbn [snd] in IH. subst r4. destruct r3 as [[ds c]|x]; reflexivity.
Qed.
Lemma batches_app m l1 : forall l2 w current,
  prepare_batches m w (l1 ++ l2) current =
  match prepare_batches m w l1 current with
  | (w1, Err e) => (w1, Err e)
  | (w1, Ok (ds, b)) => match prepare_batches m w1 l2 b with (w2, Err e) => (w2, Err e) | (w2, Ok (ds2, b2)) => (w2, Ok (ds ++ ds2, b2)) end
  end.
Proof.
  induction l1 as [|[[batch sks] rks] l1 IH]; intros l2 w current; cbn [app prepare_batches].
  - destruct (prepare_batches m w l2 current) as [w2 [[ds b]|e]]; reflexivity.
  - destruct (prepare_batch m w batch sks rks current) as [w1 [[d b]|e]]; [|reflexivity]. rewrite IH.
    destruct (prepare_batches m w1 l1 (Some b)) as [w2 [[ds c]|e]]; [|reflexivity].
    destruct (prepare_batches m w2 l2 c) as [w3 [[ds2 b2]|e]]; reflexivity.
Qed.

(** A run that is stopped after any number of batches and taken up by a new process (a
    composer built anew, in any world) from the blob it had reached prepares the same batches
    and reaches the same blob as a run that was not stopped. *)
Theorem C45_resuming_from_the_blob_changes_nothing : forall ps w0 m w9 m9, (forall p, In p ps -> pure p) ->
  compose w0 ps = Ok m -> compose w9 ps = Ok m9 ->
  forall w w' l1 l2 current ds1 blob, snd (prepare_batches m w l1 current) = Ok (ds1, blob) ->
  snd (prepare_batches m w (l1 ++ l2) current) =
  ('(ds2, b2) <- snd (prepare_batches m9 w' l2 blob) ;; Ok (ds1 ++ ds2, b2)).
Proof.
  intros ps w0 m w9 m9 P H H9 w w' l1 l2 current ds1 blob E.
  assert (m9 = m).
  { assert (B : forall l produced, (forall p, In p l -> pure p) -> build w9 l produced = build w0 l produced).
    { induction l as [|p l IH]; intros produced Q; [reflexivity|]. cbn [Composer.build]. destruct (Q p (or_introl eq_refl)) as (_ & Q2). rewrite (Q2 w9 w0).
      rewrite (IH _ (fun q Hq => Q q (or_intror Hq))). reflexivity. }
    unfold Composer.compose in H, H9. rewrite (B ps [] P), H in H9. congruence. }
  subst m9. rewrite batches_app. destruct (prepare_batches m w l1 current) as [w1 [[ds b]|e]]; cbn [snd] in E; [|discriminate]. injection E as -> ->.
  assert (Pm : forall p, In p (m_pipelines m) -> pure p) by (rewrite (proj1 (compose_inv H)); exact P).
  rewrite <- (batches_pure l2 Pm w1 w' blob). destruct (prepare_batches m w1 l2 blob) as [w2 [[ds2 b2]|e]]; reflexivity.
Qed.
End C45.

(** ** Dictionaries *)
(** For a field that holds a dictionary the last claim is false: a pipeline that declares
    no output turns {"a": {}, "b": 1} into {"a": {"b": 1}}, and the batch is prepared. *)
Section Dictionaries.
Variable asarray : fv -> res (list Z * Z).
Variable int_pairs : fv -> list (Z * Z).
Variable row_equal : fv -> nat -> bool.
Variable printable : Z -> bool.
Variable float_text : Z -> ustr.
Variable float_of : ustr -> Z.
Variable int_of_other : json -> res Z.
Variable float_is : Z -> Z -> bool.
Variable sha256 : bytes -> bytes.
Definition old_dict : fv := FDict [(ulit "a", FDict []); (ulit "b", FInt 1)].
Definition new_dict : fv := FDict [(ulit "a", FDict [(ulit "b", FInt 1)])].
Definition meddler : pipeline unit nat nat := {|
  p_id := ulit "meddler"; p_version := Some 1; p_inputs := []; p_outputs := []; p_initial := None;
  p_signature := fun _ => VNone;
  p_call := fun w data _ _ _ => (w, Ok {| c_prepared := false; c_data := Some [(ulit "meta", new_dict)]; c_next := VNone; c_state := VNone |}) |}.
Theorem C45_changes_inside_dictionaries_are_refused_refuted :
  old_dict <> new_dict /\ feed printable float_text old_dict = feed printable float_text new_dict /\
  genuine meddler /\ pure meddler /\
  exists m blob, compose float_text sha256 tt [meddler] = Ok m /\
  prepare_batch asarray int_pairs row_equal printable float_text float_of int_of_other float_is sha256 m tt
    [(ulit "meta", old_dict)] [] [] None = (tt, Ok ([(ulit "meta", new_dict)], blob)).
Proof.
  assert (F : feed printable float_text old_dict = feed printable float_text new_dict) by reflexivity.
  split; [discriminate|]. split; [exact F|].
  assert (G : genuine meddler).
  { split; [constructor|]. intros w data st sks rks w1 r E. injection E as <- <-. split; [constructor|]. intros d E. injection E as <-.
    repeat constructor; cbn; tauto. }
  split; [exact G|]. split; [split; reflexivity|].
  destruct (compose float_text sha256 tt [meddler]) as [m|e] eqn:Hc; [|vm_compute in Hc; discriminate]. exists m.
  destruct (@C45_batches_are_prepared_by_running_the_chain unit nat nat asarray int_pairs row_equal printable float_text float_of int_of_other float_is sha256
              tt [meddler] m Hc (Forall_cons _ G (Forall_nil _)) [VNone] None eq_refl (Forall_cons _ wf_none (Forall_nil _))) as (sts' & S & T & H).
  inversion S as [|? st ? ? S1 S2]; subst. inversion S1; subst. inversion S2; subst.
  destruct (compose_inv Hc) as (_ & Lf & Hf & (_ & es & Le & He & Eb) & _). destruct (m_fingerprints m) as [|fp [|fp2 fps]] eqn:Em; try discriminate.
  destruct (Hf 0%nat meddler fp eq_refl eq_refl) as (sg & Es & ->).
  exists (m_initial m). split; [reflexivity|]. apply H; [repeat constructor; cbn; tauto|]. split; [reflexivity|]. exists [VNone]. split.
  - econstructor; [|constructor]. eexists. split; [reflexivity|]. split; [reflexivity|]. split; [intros X; exfalso; apply X; reflexivity|]. split; [reflexivity|].
    split; [exists None; split; [reflexivity|intros sp []]|]. split; [exists None; split; [reflexivity|intros sp []]|]. split.
    + split.
      * intros k v E. split; [tauto|]. cbn [obj_get] in *. destruct (ustr_eqb k (ulit "meta")); [|discriminate]. injection E as <-. eexists. split; [reflexivity|].
        unfold looks_same, field_value_digest. rewrite <- F. eexists. split; reflexivity.
      * intros k Hk. left. exact Hk.
    + eauto.
  - split; [reflexivity|]. exists es. split; [assumption|]. split; [exact He|exact Eb].
Qed.
End Dictionaries.

(** ** A concrete chain: a counter with state that adds a field, and a stateless pipeline
    that reads it; two batches, the second prepared by a composer built anew. *)
Module Ex.
Definition spec_of (name : string) : field_spec := {|
  f_name := ulit name; f_required := true; f_scope := PerSample; f_spatial := []; f_side := None;
  f_collate := Stack; f_kinds := [105]; f_transform := Plain |}.
Definition count_of (st : value) : Z := match st with VTuple [VInt n] => n | _ => 0 end.
Definition counter : pipeline nat nat nat := {|
  p_id := ulit "counter"; p_version := Some 1; p_inputs := []; p_outputs := [spec_of "index"]; p_initial := Some (VList [VInt 0]);
  p_signature := fun _ => VDict [(KStr (ulit "step"), VInt 1)];
  p_call := fun w data st sks _ =>
    (S w, Ok {| c_prepared := true;
                c_data := Some (data ++ [(ulit "index", FTensor UInt8 [zlen sks] (map (fun i => count_of st + Z.of_nat i) (seq 0 (List.length sks))))]);
                c_next := VList [VInt (count_of st + zlen sks)]; c_state := st |}) |}.
Definition reader : pipeline nat nat nat := {|
  p_id := ulit "reader"; p_version := Some 2; p_inputs := [spec_of "index"]; p_outputs := []; p_initial := None;
  p_signature := fun _ => VNone;
  p_call := fun w data _ _ _ => (S w, Ok {| c_prepared := false; c_data := Some data; c_next := VNone; c_state := VNone |}) |}.
Definition counter_u : pipeline nat nat nat := {|
  p_id := p_id counter; p_version := Some 1; p_inputs := []; p_outputs := [{| f_name := ulit "index"; f_required := true; f_scope := PerSample;
    f_spatial := []; f_side := None; f_collate := Stack; f_kinds := [117]; f_transform := Plain |}]; p_initial := p_initial counter;
  p_signature := p_signature counter; p_call := @p_call _ _ _ counter |}.
Definition comp := @compose nat nat nat (fun _ => []) (fun b => b).
Definition prep := @prepare_batch nat nat nat (fun _ => Err TypeError) (fun _ => []) (fun _ _ => true) (fun _ => true) (fun _ => []) (fun _ => 0)
                     (fun _ => Err TypeError) (fun _ _ => false) (fun b => b).
Definition batch : fields := [(ulit "stm_input", FArray Int8 [2] [1; 255])].
(** The counter declares a signed field and returns unsigned bytes: refused. *)
Example wrong_kind : match comp 0%nat [counter; reader] with
  | Ok m => prep m 0%nat batch [7; 8]%nat [7; 8]%nat None = (1%nat, Err ValueError) | Err _ => False end.
Proof. vm_compute. reflexivity. Qed.
Definition index_of (d : fields) : option fv := obj_get d (ulit "index").
Definition reader_u : pipeline nat nat nat := {|
  p_id := p_id reader; p_version := Some 2; p_inputs := p_outputs counter_u; p_outputs := []; p_initial := None;
  p_signature := p_signature reader; p_call := @p_call _ _ _ reader |}.
Example two_batches :
  match comp 0%nat [counter_u; reader_u], comp 9%nat [counter_u; reader_u] with
  | Ok m, Ok m9 =>
      match prep m 0%nat batch [7; 8]%nat [7; 8]%nat None with
      | (_, Ok (d1, b1)) =>
          obj_get d1 (ulit "stm_input") = Some (FArray Int8 [2] [1; 255]) /\ index_of d1 = Some (FTensor UInt8 [2] [0; 1]) /\
          match prep m9 9%nat batch [3; 4]%nat [3; 4]%nat (Some b1) with
          | (_, Ok (d2, b2)) => index_of d2 = Some (FTensor UInt8 [2] [2; 3]) /\ b2 <> b1
          | _ => False
          end
      | _ => False
      end
  | _, _ => False
  end.
Proof. vm_compute. repeat split. discriminate. Qed.
(** Two pipelines that add the same field are refused. *)
Example collision : comp 0%nat [counter_u; {| p_id := ulit "other"; p_version := Some 1; p_inputs := []; p_outputs := p_outputs counter_u;
  p_initial := None; p_signature := p_signature reader; p_call := @p_call _ _ _ reader |}] = Err ValueError.
Proof. vm_compute. reflexivity. Qed.
(** The assumption about float.__repr__ can be met: here is a function that meets it. *)
Example float_law : float_repr_law (fun b => if is_nan b then ulit "nan" else digits b).
Proof.
  split.
  - intros b Hb N. rewrite N. right. right. assert (H0 : 0 <= b) by lia. destruct (digits_ok H0) as (_ & D & Z0 & Z1). split.
    + rewrite forallb_forall in *. intros c Hc. unfold numeric_char. rewrite (D c Hc). reflexivity.
    + destruct (Z.eq_dec b 0) as [->|]; [reflexivity|]. destruct Z1 as (c & t & -> & Hc); [lia|]. cbn [existsb]. unfold digit. replace ((48 <=? c) && (c <=? 57)) with true by lia. reflexivity.
  - intros b _ ->. reflexivity.
  - intros a b Ha Hb -> ->. intros E. assert (A0 : 0 <= a) by lia. assert (B0 : 0 <= b) by lia.
    destruct (digits_ok A0) as (<- & _). destruct (digits_ok B0) as (<- & _). rewrite E. reflexivity.
Qed.
(** Values the unchanged-fields theorem is about. *)
Example plain_values : dict_free (FArray Int8 [2] [1; 255]) /\ dict_free (FList [FTuple [FInt 3; FStr (ulit "it's")]; FNone; FFloat 0]) /\
  feed (fun _ => true) (fun _ => ulit "0.0") (FList [FTuple [FInt 3; FStr (ulit "it's")]; FNone]) =
  Ok (ulit "list" ++ [0; 2; 0; 0; 0; 0; 0; 0; 0] ++ ulit "tuple" ++ [0; 2; 0; 0; 0; 0; 0; 0; 0] ++ ulit "int" ++ [0; 51] ++
      ulit "str" ++ [0; 34] ++ ulit "it's" ++ [34] ++ ulit "NoneType" ++ [0] ++ ulit "None").
Proof.
  split; [constructor; [repeat constructor; lia|reflexivity]|]. split; [|vm_compute; reflexivity].
  constructor; [vm_compute; reflexivity|]. repeat constructor; vm_compute; try discriminate; try reflexivity; intuition discriminate.
Qed.
End Ex.
