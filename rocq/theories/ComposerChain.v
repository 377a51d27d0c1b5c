(** One stage of the chain, the chain, the composite blob. *)
From Verif Require Import Base BaseFacts Rng RngFacts Checkpoint Json JsonFacts StateCodec StateCodecSpec StateCodecFacts
  DecoderFacts DecoderBatch FieldDigest FieldDigestFacts Composer ComposerSpec ComposerFacts Prop_StateCodec.
Set Implicit Arguments. Unset Strict Implicit.

Lemma utf8_bytes s b : utf8_encode s = Ok b -> Forall is_byte b.
Proof.
  unfold utf8_encode. destruct (forallb scalar s) eqn:E; [|discriminate]. intros H. injection H as <-. rewrite forallb_forall in E.
  apply Forall_forall. intros x Hx. apply List.in_flat_map in Hx. destruct Hx as (c & Hc & Hx). apply E in Hc. unfold scalar in Hc. unfold utf8_char in Hx. unfold is_byte.
  destruct (c <? 128) eqn:E1; [|destruct (c <? 2048) eqn:E2; [|destruct (c <? 65536) eqn:E3]]; cbn [In] in Hx; Z.to_euclidean_division_equations; lia.
Qed.
Lemma encode_bytes float_text v b : canonical_pipeline_state_bytes float_text v = Ok b -> Forall is_byte b.
Proof. intros H. unfold canonical_pipeline_state_bytes in H. inv_bind H. apply (utf8_bytes H). Qed.


Section Chain.
Variables W K R : Type.
Notation pipeline := (pipeline W K R).
Variable asarray : fv -> res (list Z * Z).
Variable int_pairs : fv -> list (Z * Z).
Variable row_equal : fv -> nat -> bool.
Variable printable : Z -> bool.
Variable float_text : Z -> ustr.
Variable float_of : ustr -> Z.
Variable int_of_other : json -> res Z.
Variable float_is : Z -> Z -> bool.
Variable sha256 : bytes -> bytes.
Notation encode := (canonical_pipeline_state_bytes float_text).
Notation decode := (decode_canonical_pipeline_state float_text float_of int_of_other).
Notation digest := (field_value_digest printable float_text sha256).
Notation looks_same := (looks_same printable float_text sha256).
Notation extends := (extends printable float_text sha256).
Notation mutated := (mutated printable float_text sha256).
Notation does := (does asarray int_pairs row_equal printable float_text sha256).
Notation ran := (ran asarray int_pairs row_equal printable float_text sha256).
Notation entry_for := (@entry_for W K R float_text).
Notation before_call := (before_call asarray int_pairs row_equal printable float_text float_of int_of_other sha256).
Notation after_call := (after_call asarray int_pairs row_equal printable float_text sha256).
Notation run_one := (run_one asarray int_pairs row_equal printable float_text float_of int_of_other sha256).
Notation run_all := (run_all asarray int_pairs row_equal printable float_text float_of int_of_other sha256).
Notation decode_entry := (decode_entry float_text float_of int_of_other float_is).
Notation decode_blob := (decode_blob float_text float_of int_of_other float_is).
Notation build := (build float_text sha256).
Notation compose := (compose float_text sha256).
Notation prepare_batch := (prepare_batch asarray int_pairs row_equal printable float_text float_of int_of_other float_is sha256).

Definition digest_all (data : fields) : res (list (ustr * bytes)) := mapM (fun kv => d <- digest (snd kv) ;; Ok (fst kv, d)) data.
Lemma digest_all_in data ds k v : digest_all data = Ok ds -> In (k, v) data -> exists x, digest v = Ok x /\ In (k, x) ds.
Proof.
  intros H Hin. destruct (mapM_out_in H Hin) as ([k' x] & Hx & E). cbn [fst snd] in E. inv_bind E. injection E as <- <-. eauto.
Qed.
Lemma digest_all_out data ds k x : digest_all data = Ok ds -> In (k, x) ds -> exists v, digest v = Ok x /\ In (k, v) data.
Proof.
  intros H Hin. destruct (mapM_ok_in H Hin) as ([k' v] & Hx & E). cbn [fst snd] in E. inv_bind E. injection E as <- <-. eauto.
Qed.
Lemma digest_all_keys data ds : digest_all data = Ok ds -> dkeys ds = dkeys data.
Proof.
  unfold digest_all, dkeys. revert ds. induction data as [|[k v] data IH]; intros ds H; cbn [mapM] in H; [injection H as <-; reflexivity|].
  inv_bind H. inv_bind H. injection H as <-. inv_bind Hm. cbn [fst snd] in *. injection Hm as <-. cbn [map fst]. f_equal. apply IH. exact Hm0.
Qed.

(** ** What the checks after the call establish *)
Definition key_checks (p : pipeline) (ds : list (ustr * bytes)) (d : fields) : res unit :=
  changed <- mutated p ds d ;;
  guard negb (existsb (has (out_names p)) (dkeys ds)) else ValueError ;;
  guard forallb (fun k => has (dkeys ds) k || has (out_names p) k) (dkeys d) else ValueError ;;
  guard forallb (has (dkeys d)) (dkeys ds) else ValueError ;;
  guard match changed with [] => true | _ => false end else ValueError ;; Ok tt.
Lemma key_checks_extends p data ds d : digest_all data = Ok ds -> key_checks p ds d = Ok tt -> extends (names (p_outputs p)) data d.
Proof.
  intros Hd H. unfold key_checks in H. inv_bind H. apply guard_Ok in H. destruct H as [H1 H]. apply guard_Ok in H. destruct H as [H2 H].
  apply guard_Ok in H. destruct H as [H3 H]. apply guard_Ok in H. destruct H as [H4 _]. destruct v as [|x v]; [|discriminate]. clear H4.
  apply negb_true_iff in H1. pose proof (proj1 (no_common _ _) H1) as N. rewrite (digest_all_keys Hd) in N, H2, H3.
  rewrite forallb_forall in H2, H3. split.
  - intros k v E. assert (Hk : In k (dkeys data)) by (apply obj_get_key; eauto).
    split; [apply N; exact Hk|]. specialize (H3 k Hk). apply has_in in H3. apply obj_get_key in H3. destruct H3 as (v' & E'). exists v'. split; [exact E'|].
    destruct (digest_all_in Hd (obj_get_in E)) as (x & Ex & Hx). exists x. split; [exact Ex|].
    unfold Composer.mutated in Hm. inv_bind Hm. injection Hm as Hm.
    destruct (mapM_out_in (a:=(k, x)) Hm0) as ([k2 b] & Hin & Ek).
    { apply filter_In. split; [exact Hx|]. cbn [fst]. apply negb_true_iff. apply has_false. apply N. exact Hk. }
    cbn [fst snd] in Ek. rewrite E' in Ek. inv_bind Ek. injection Ek as <- <-.
    destruct (bytes_eqb v1 x) eqn:B; [apply bytes_eqb_eq in B; subst; exact Hm1|].
    exfalso. assert (F : In k (map fst (filter (fun kb => snd kb) v0))).
    { apply in_map_iff. exists (k, true). split; [reflexivity|]. apply filter_In. split; [exact Hin|reflexivity]. }
    rewrite Hm in F. exact F.
  - intros k Hk. specialize (H2 k Hk). apply orb_true_iff in H2. rewrite !has_in in H2. exact H2.
Qed.
Lemma extends_key_checks p data ds d : NoDup (dkeys data) -> digest_all data = Ok ds -> extends (names (p_outputs p)) data d -> key_checks p ds d = Ok tt.
Proof.
  intros ND Hd (H1 & H2). unfold key_checks.
  assert (G : forall k x, In (k, x) ds -> exists v v', obj_get data k = Some v /\ obj_get d k = Some v' /\ digest v = Ok x /\ digest v' = Ok x).
  { intros k x Hx. destruct (digest_all_out Hd Hx) as (v & Ev & Hv). pose proof (obj_get_nodup ND Hv) as E. destruct (H1 k v E) as (_ & v' & E' & y & Y1 & Y2).
    exists v, v'. repeat split; try assumption. congruence. }
  assert (M : mutated p ds d = Ok []).
  { unfold Composer.mutated. set (f := fun kb : ustr * bytes => match obj_get d (fst kb) with None => Ok (fst kb, false) | Some v => x <- digest v ;; Ok (fst kb, negb (bytes_eqb x (snd kb))) end).
    destruct (proj2 (mapM_all_ok f (filter (fun kb => negb (has (out_names p) (fst kb))) ds))) as (r & Er).
    - intros [k x] Hin. apply filter_In in Hin. destruct Hin as [Hin _]. destruct (G k x Hin) as (v & v' & _ & E' & _ & D'). unfold f. cbn [fst snd]. rewrite E', D'. cbn [bind]. eauto.
    - rewrite Er. cbn [bind]. replace (filter (fun kb : ustr * bool => snd kb) r) with (@nil (ustr * bool)); [reflexivity|].
      symmetry. destruct (filter (fun kb : ustr * bool => snd kb) r) as [|[k b] t] eqn:F; [reflexivity|]. exfalso.
      assert (Hin : In (k, b) (filter (fun kb : ustr * bool => snd kb) r)) by (rewrite F; left; reflexivity). apply filter_In in Hin. destruct Hin as [Hin Hb]. cbn [snd] in Hb. subst b.
      destruct (mapM_ok_in Er Hin) as ([k2 x] & Hf & Ef). apply filter_In in Hf. destruct Hf as [Hf _]. destruct (G k2 x Hf) as (v & v' & _ & E' & _ & D').
      unfold f in Ef. cbn [fst snd] in Ef. rewrite E', D' in Ef. cbn [bind] in Ef. rewrite (proj2 (bytes_eqb_eq x x) eq_refl) in Ef. discriminate. }
  rewrite M. cbn [bind]. rewrite (digest_all_keys Hd).
  replace (existsb (has (out_names p)) (dkeys data)) with false.
  2:{ symmetry. apply no_common. intros k Hk. apply obj_get_key in Hk. destruct Hk as (v & E). apply (H1 k v E). }
  replace (forallb (fun k => has (dkeys data) k || has (out_names p) k) (dkeys d)) with true.
  2:{ symmetry. apply forallb_forall. intros k Hk. apply orb_true_iff. rewrite !has_in. apply H2. exact Hk. }
  replace (forallb (has (dkeys d)) (dkeys data)) with true; [reflexivity|].
  symmetry. apply forallb_forall. intros k Hk. apply has_in. apply obj_get_key in Hk. destruct Hk as (v & E). destruct (H1 k v E) as (_ & v' & E' & _). apply obj_get_key. eauto.
Qed.

(** ** One stage *)
Definition settled (st : value) : Prop := exists b, encode st = Ok b /\ decode b = Ok st.
Lemma decode_settled b st : decode b = Ok st -> settled st.
Proof. intros H. exists b. split; [apply (C30_only_canonical_blobs_decode H)|exact H]. Qed.

Lemma after_call_eq p sg ib iso ds w n r : after_call p sg ib iso ds w n r =
  (let st := match p_initial p with Some _ => true | None => false end in
   guard negb st || c_prepared r else TypeError ;;
   data <- match c_data r with Some d => Ok d | None => Err TypeError end ;;
   _ <- key_checks p ds data ;;
   _ <- validate_fields asarray int_pairs row_equal data (p_outputs p) n ;;
   after_state <- encode (if st then c_state r else iso) ;;
   guard bytes_eqb after_state ib else RuntimeError ;;
   after_signature <- encode (p_signature p w) ;;
   guard bytes_eqb after_signature sg else RuntimeError ;;
   Ok (data, if st then c_next r else VNone)).
Proof.
  unfold Composer.after_call, key_checks. cbv zeta. destruct (negb _ || c_prepared r); [|reflexivity].
  destruct (c_data r) as [d|]; [|reflexivity]. cbn [bind]. destruct (mutated p ds d) as [ch|]; [|reflexivity]. cbn [bind].
  destruct (negb (existsb (has (out_names p)) (dkeys ds))); [|reflexivity].
  destruct (forallb _ (dkeys d)); [|reflexivity]. destruct (forallb (has (dkeys d)) (dkeys ds)); [|reflexivity].
  destruct ch; reflexivity.
Qed.

Theorem run_one_does p fp w data st sks rks w1 d e : settled st ->
  run_one p fp w data st sks rks = (w1, Ok (d, e)) ->
  exists next, does fp p w data st sks rks w1 d next /\ entry_for p next e.
Proof.
  intros (b & Eb & Db) H. unfold Composer.run_one in H.
  destruct (before_call p fp w data st (zlen sks)) as [[[[sg ib] iso] ds]|x] eqn:B; [|discriminate].
  destruct (p_call p w data iso sks rks) as [w1' [r|x]] eqn:C; [|discriminate]. injection H as -> H.
  inv_bind H. destruct v as [d' next]. inv_bind H. inv_bind H. injection H as <- <-.
  unfold Composer.before_call in B. inv_bind B. apply guard_Ok in B. destruct B as [Bf B]. apply bytes_eqb_eq in Bf.
  inv_bind B. inv_bind B. inv_bind B. inv_bind B. injection B as <- <- <- <-.
  assert (v2 = b) by congruence. subst v2. assert (v3 = st) by congruence. subst v3.
  fold (digest_all data) in Hm5. destruct v5. apply validate_ok in Hm6.
  rewrite after_call_eq in Hm. cbv zeta in Hm. apply guard_Ok in Hm. destruct Hm as [Pr Hm]. inv_bind Hm. inv_bind Hm. inv_bind Hm. inv_bind Hm.
  apply guard_Ok in Hm. destruct Hm as [Sb Hm]. inv_bind Hm. apply guard_Ok in Hm. destruct Hm as [Sg Hm]. apply bytes_eqb_eq in Sb, Sg. subst v6 v7.
  injection Hm as <- <-. destruct v3, v5. apply validate_ok in Hm9.
  destruct (c_data r) as [d'|] eqn:Cd; [|discriminate]. injection Hm7 as <-.
  exists (if match p_initial p with Some _ => true | None => false end then c_next r else VNone). split.
  - exists r. split; [exact C|]. split; [exact Cd|].
    split. { intros S. unfold stateful in S. destruct (p_initial p) as [s0|]; [|congruence]. cbn in Pr. split; [exact Pr|]. split; [reflexivity|congruence]. }
    split. { intros S. unfold stateful in S. destruct (p_initial p) as [s0|]; [|reflexivity]. exfalso. apply S. discriminate. }
    split; [exact Hm6|]. split; [exact Hm9|]. split; [apply (key_checks_extends Hm5 Hm8)|]. exists v1. auto.
  - destruct (p_version p) as [ver|] eqn:V; [|discriminate]. injection Hm0 as <-. unfold entry in Hm1. inv_bind Hm1. injection Hm1 as <-.
    constructor; assumption.
Qed.
Theorem does_run_one p fp w data st sks rks w1 d next e : settled st -> NoDup (dkeys data) ->
  does fp p w data st sks rks w1 d next -> entry_for p next e ->
  run_one p fp w data st sks rks = (w1, Ok (d, e)).
Proof.
  intros (b & Eb & Db) ND (r & C & Cd & S1 & S2 & Vi & Vo & X & (sg & G1 & G2 & G3)) He. unfold Composer.run_one.
  assert (exists ds, digest_all data = Ok ds) as (ds & Hds).
  { apply mapM_all_ok. intros [k v] Hin. pose proof (obj_get_nodup ND Hin) as E. destruct X as (X & _). destruct (X k v E) as (_ & v' & _ & y & Y & _). cbn [fst snd]. rewrite Y. cbn [bind]. eauto. }
  assert (B : before_call p fp w data st (zlen sks) = Ok (sg, b, st, ds)).
  { unfold Composer.before_call. rewrite G1. cbn [bind]. rewrite G2, (proj2 (bytes_eqb_eq fp fp) eq_refl), Eb. cbn [bind]. rewrite Db. cbn [bind].
    fold (digest_all data). rewrite Hds. cbn [bind]. rewrite (proj2 (@validate_ok _ _ _ _ _ _) Vi). reflexivity. }
  rewrite B, C. f_equal.
  assert (A : after_call p sg b st ds w1 (zlen sks) r = Ok (d, next)).
  { rewrite after_call_eq. cbv zeta. rewrite Cd, G3. unfold stateful in *.
    destruct (p_initial p) as [s0|].
    - destruct (S1 ltac:(discriminate)) as (-> & -> & Es). cbn [negb orb bind]. rewrite (extends_key_checks ND Hds X). cbn [bind].
      rewrite (proj2 (@validate_ok _ _ _ _ _ _) Vo). cbn [bind]. rewrite Es, Eb. cbn [bind]. rewrite (proj2 (bytes_eqb_eq b b) eq_refl). cbn [bind].
      rewrite (proj2 (bytes_eqb_eq sg sg) eq_refl). reflexivity.
    - rewrite (S2 ltac:(congruence)). cbn [negb orb bind]. rewrite (extends_key_checks ND Hds X). cbn [bind].
      rewrite (proj2 (@validate_ok _ _ _ _ _ _) Vo). cbn [bind]. rewrite Eb. cbn [bind]. rewrite (proj2 (bytes_eqb_eq b b) eq_refl). cbn [bind].
      rewrite (proj2 (bytes_eqb_eq sg sg) eq_refl). reflexivity. }
  rewrite A. cbn [bind]. destruct He as [ver x Hv Ex]. rewrite Hv. cbn [bind]. unfold entry. rewrite Ex. reflexivity.
Qed.

(** ** The chain *)
Definition zip3 (ps : list pipeline) (fps : list bytes) (sts : list value) := combine (combine ps fps) sts.
Theorem run_all_ran ps : forall fps sts w data sks rks w' d es, List.length fps = List.length ps -> List.length sts = List.length ps -> Forall settled sts ->
  run_all (zip3 ps fps sts) w data sks rks = (w', Ok (d, es)) ->
  exists nexts, ran sks rks ps fps sts w data nexts w' d /\ Forall2 (fun pn e => entry_for (fst pn) (snd pn) e) (combine ps nexts) es /\ List.length nexts = List.length ps.
Proof.
  induction ps as [|p ps IH]; intros [|fp fps] [|st sts] w data sks rks w' d es L1 L2 S H; try discriminate; unfold zip3 in *; cbn [combine Composer.run_all] in H.
  - injection H as <- <- <-. exists []. split; [constructor|]. split; [constructor|reflexivity].
  - destruct (run_one p fp w data st sks rks) as [w1 [[d1 e]|x]] eqn:E; [|discriminate].
    destruct (run_all (combine (combine ps fps) sts) w1 d1 sks rks) as [w2 [[d2 es2]|x]] eqn:E2; [|discriminate]. injection H as <- <- <-.
    inversion S as [|? ? S1 S2]; subst. destruct (run_one_does S1 E) as (next & D & En).
    destruct (IH fps sts w1 d1 sks rks w2 d2 es2) as (nexts & Hr & Hf & Hl); [cbn in L1; lia|cbn in L2; lia|exact S2|exact E2|].
    exists (next :: nexts). split; [econstructor; eassumption|]. split; [cbn [combine]; constructor; assumption|cbn; lia].
Qed.
Lemma ran_keys sks rks ps fps sts w data nexts w' d : (forall p, In p ps -> forall w data st sks rks w1 r d1, p_call p w data st sks rks = (w1, Ok r) -> c_data r = Some d1 -> NoDup (dkeys d1)) ->
  NoDup (dkeys data) -> Forall settled sts -> ran sks rks ps fps sts w data nexts w' d ->
  forall es, Forall2 (fun pn e => entry_for (fst pn) (snd pn) e) (combine ps nexts) es ->
  run_all (zip3 ps fps sts) w data sks rks = (w', Ok (d, es)).
Proof.
  intros G ND S H. induction H as [w data|p ps fp fps st sts w data w1 data1 next nexts w2 data2 D Hr IH]; intros es Hf.
  - inversion Hf; subst. reflexivity.
  - cbn [combine] in Hf. inversion Hf as [|? e ? es' F1 F2]; subst. inversion S as [|? ? S1 S2]; subst. unfold zip3. cbn [combine Composer.run_all].
    rewrite (does_run_one S1 ND D F1).
    assert (ND1 : NoDup (dkeys data1)) by (destruct D as (r & C & Cd & _); eapply (G p (or_introl eq_refl)); eassumption).
    fold (zip3 ps fps sts). rewrite (IH (fun q Hq => G q (or_intror Hq)) ND1 S2 es' F2). reflexivity.
Qed.

(** ** The blob *)
Lemma entry_wf (p : pipeline) st e : entry_for p st e -> wf e.
Proof. intros [v b Hv He]. constructor. repeat constructor. Qed.
Lemma entry_norm (p : pipeline) st e : entry_for p st e -> norm e = e.
Proof. intros [v b Hv He]. reflexivity. Qed.
Lemma decode_entry_ok (p : pipeline) st e : wf st -> entry_for p st e -> decode_entry p e = Ok (norm st).
Proof.
  intros Hw [v b Hv He]. unfold Composer.decode_entry, unpack3. cbn [items_of bind]. unfold equals_str. rewrite ustr_eqb_refl, Hv. cbn [equals_int andb bind].
  rewrite Z.eqb_refl. cbn [bind]. rewrite (fromhex_hex (encode_bytes He)). cbn [bind]. apply (decode_encode _ _ Hw He).
Qed.
Lemma stores_decodes (m : composer W K R) sts blob : Forall wf sts -> stores float_text (m_pipelines m) sts blob ->
  decode_blob m blob = Ok (map norm sts).
Proof.
  clear asarray int_pairs row_equal printable sha256. intros Hw (L & es & Le & He & Eb). unfold Composer.decode_blob.
  assert (Wf : wf (VList es)).
  { constructor. apply Forall_forall. intros e Hin. apply In_nth_error in Hin. destruct Hin as (i & Hi).
    assert (Hlt : (i < List.length es)%nat) by (apply nth_error_Some; congruence).
    destruct (nth_error (m_pipelines m) i) as [p|] eqn:Ep; [|apply nth_error_None in Ep; lia]. destruct (nth_error sts i) as [st|] eqn:Es; [|apply nth_error_None in Es; lia].
    apply (entry_wf (He i p st e Ep Es Hi)). }
  rewrite (decode_encode _ _ Wf Eb). cbn [bind norm items_of]. rewrite map_length, Le, Nat.eqb_refl.
  revert L Le He Hw. clear Eb Wf. generalize (m_pipelines m) as ps. revert es. induction sts as [|st sts IH]; intros [|e es] [|p ps] L Le He Hw; try discriminate; [reflexivity|].
  cbn [map combine mapM fst snd]. pose proof (He 0%nat p st e eq_refl eq_refl eq_refl) as H0. inversion Hw as [|? ? W1 W2]; subst.
  rewrite (entry_norm H0), (decode_entry_ok W1 H0). cbn [bind].
  rewrite (IH es ps); [reflexivity|cbn in L; lia|cbn in Le; lia| |exact W2]. intros i. apply (He (S i)).
Qed.
End Chain.
