(** * C46: autotuning stays within its bounds, leaves explicit options alone, ends, and
    resumes where it was. *)
From Coq Require Import Sorted.
From Verif Require Import Base BaseFacts Autotune.
Set Implicit Arguments. Unset Strict Implicit.

(** ** Specification vocabulary *)
Definition in_bounds (cfg : tconfig) (s : settings) : Prop :=
  1 <= threads s <= max_threads cfg /\ 1 <= batches s <= max_batches cfg /\ 1 <= entries s /\ 1 <= bytes_ s <= cache_budget cfg.
(** The decisions of the log, in order, lead from the settings [a] to the settings [b]; each
    adjustment really changes something. *)
Inductive leads : settings -> list decision -> settings -> Prop :=
| leads_nil a : leads a [] a
| leads_adjust a i b ds c : a <> b -> leads b ds c -> leads a (Adjust i a b :: ds) c
| leads_other a d ds c : (forall i x y, d <> Adjust i x y) -> leads a ds c -> leads a (d :: ds) c.

Section C46.
Variable cfg : tconfig.
Variable locked : option_name -> bool.
Variables k1 k2 : Z.
Variable scaled : Z -> Z.
Hypothesis Hcfg : tconfig_check cfg = Ok tt.
Notation update := (update cfg locked k1 k2 scaled).
Notation construct := (construct cfg locked).
Notation state_dict := (state_dict k1 k2).
Notation load := (load_state_dict cfg k1 k2).
(** After an update; the state it returned, if any; the profile it saved, if any. *)
Definition after t m i ok : tuner := fst (fst (update t m i ok)).
Definition answer t m i ok : option tstate := snd (fst (update t m i ok)).
Definition saved t m i ok : option settings := snd (update t m i ok).

(** Tuners that exist: made from a configuration (and whatever profile was found), updated
    with whatever metrics, or resumed from the saved state of such a tuner. *)
Inductive lives (initial : settings) : tuner -> Prop :=
| made profile : lives initial (construct initial profile)
| updated t m i ok : lives initial t -> lives initial (after t m i ok)
| resumed t t' : lives initial t -> load (state_dict t) = Ok t' -> lives initial t'.
(** The same, with states that come from anywhere. *)
Inductive exists_ : tuner -> Prop :=
| made_any initial profile : exists_ (construct initial profile)
| updated_any t m i ok : exists_ t -> exists_ (after t m i ok)
| loaded_any s t' : load s = Ok t' -> exists_ t'.

(** ** Facts *)
Lemma cfg_pos : 0 <= warmup_iterations cfg /\ 0 <= verify_iterations cfg /\ 1 <= decision_interval cfg /\ 1 <= freeze_after cfg /\
  1 <= max_threads cfg /\ 1 <= max_batches cfg /\ 1 <= cache_budget cfg.
Proof. unfold tconfig_check in Hcfg. do 7 (apply guard_Ok in Hcfg as [? Hcfg]). lia. Qed.
Lemma clamp_in s : in_bounds cfg (clamp cfg s).
Proof. pose proof cfg_pos. unfold in_bounds, clamp. cbn. lia. Qed.
Lemma clamp_id s : in_bounds cfg s -> clamp cfg s = s.
Proof. destruct s as [a b c d]. unfold in_bounds, clamp. cbn. intros (A & B & C & D). f_equal; lia. Qed.
Lemma settings_eqb_eq a b : settings_eqb a b = true <-> a = b.
Proof.
  destruct a as [a1 a2 a3 a4], b as [b1 b2 b3 b4]. unfold settings_eqb. cbn. rewrite !andb_true_iff, !Z.eqb_eq. split; [intros (((-> & ->) & ->) & ->); reflexivity|].
  intros E. injection E as -> -> -> ->. tauto.
Qed.
(** What an update can do. *)
Inductive outcome (t : tuner) (m : metrics) (i : Z) : tuner -> option tstate -> option settings -> Prop :=
| idle t' : t_settings t' = t_settings t -> t_reused t' = t_reused t -> t_frozen t' = t_frozen t -> t_last t' = t_last t -> t_decisions t' = t_decisions t ->
    outcome t m i t' None None
| froze t' pre post : t_settings t' = t_settings t -> t_frozen t = false -> t_frozen t' = true -> t_last t' = Some i ->
    t_decisions t' = t_decisions t ++ pre ++ Freeze i :: post ->
    (pre = [] \/ pre = [InvalidateReuse i]) -> (post = [] \/ post = [CacheWriteFailed i]) ->
    outcome t m i t' (Some (state_dict t')) (Some (t_settings t'))
| stayed t' pre : t_settings t' = t_settings t -> t_frozen t = false -> t_frozen t' = false -> t_last t' = Some i -> healthy m = false ->
    clamp cfg (adjusted cfg locked scaled (t_settings t) m) = t_settings t ->
    t_decisions t' = t_decisions t ++ pre -> (pre = [] \/ pre = [InvalidateReuse i]) ->
    outcome t m i t' (Some (state_dict t')) None
| moved t' pre : t_settings t' = clamp cfg (adjusted cfg locked scaled (t_settings t) m) -> t_settings t <> t_settings t' ->
    t_frozen t = false -> t_frozen t' = false -> t_last t' = Some i ->
    t_decisions t' = t_decisions t ++ pre ++ [Adjust i (t_settings t) (t_settings t')] -> (pre = [] \/ pre = [InvalidateReuse i]) ->
    outcome t m i t' (Some (state_dict t')) None.
Lemma update_outcome t m i ok : outcome t m i (after t m i ok) (answer t m i ok) (saved t m i ok).
Proof.
  unfold after, answer, saved, Autotune.update. cbn [t_settings t_reused t_frozen t_last t_decisions].
  set (started := match t_started t with Some s => s | None => i end).
  destruct (t_frozen t || _) eqn:Ef; [constructor; reflexivity|]. apply orb_false_iff in Ef. destruct Ef as (Ef & _).
  destruct (match t_last t with Some l => _ | None => false end); [constructor; reflexivity|].
  set (v := match t_reused t with Some _ => _ | None => false end).
  destruct (v && healthy m) eqn:E1.
  - cbn [fst snd]. apply froze with (pre := []) (post := if ok then [] else [CacheWriteFailed i]); cbn; auto. destruct ok; auto.
  - set (t1 := if v then _ else _).
    assert (T1 : t_settings t1 = t_settings t /\ t_frozen t1 = false /\ t_last t1 = Some i /\ exists pre, t_decisions t1 = t_decisions t ++ pre /\ (pre = [] \/ pre = [InvalidateReuse i])).
    { unfold t1. destruct v; cbn; repeat split; eauto. exists []. rewrite app_nil_r. auto. }
    clearbody t1. destruct T1 as (S1 & F1 & L1 & pre & D1 & P1).
    destruct (freeze_after cfg <=? _).
    + cbn [fst snd]. apply froze with (pre := pre) (post := if ok then [] else [CacheWriteFailed i]); cbn; auto; [rewrite D1, <- !app_assoc; reflexivity|destruct ok; auto].
    + destruct (settings_eqb _ _) eqn:E2.
      * apply settings_eqb_eq in E2. destruct (healthy m) eqn:Hm; cbn [fst snd].
        -- apply froze with (pre := pre) (post := if ok then [] else [CacheWriteFailed i]); cbn; auto; [rewrite D1, <- !app_assoc; reflexivity|destruct ok; auto].
        -- apply stayed with (pre := pre); auto. rewrite <- S1. exact E2.
      * cbn [fst snd]. apply moved with (pre := pre); cbn; auto.
        -- rewrite S1. reflexivity.
        -- rewrite <- S1. intros E. rewrite <- E in E2. assert (T : settings_eqb (t_settings t1) (t_settings t1) = true) by (apply settings_eqb_eq; reflexivity). congruence.
        -- rewrite D1, S1, <- !app_assoc. reflexivity.
Qed.
Lemma update_in_bounds t m i ok : in_bounds cfg (t_settings t) -> in_bounds cfg (t_settings (after t m i ok)).
Proof.
  intros B. destruct (update_outcome t m i ok) as [t' -> _ _ _ _|t' pre post -> _ _ _ _ _ _|t' pre -> _ _ _ _ _ _ _|t' pre -> _ _ _ _ _ _]; try exact B. apply clamp_in.
Qed.
Lemma load_clamped s t' : load s = Ok t' -> exists x, t_settings t' = clamp cfg x.
Proof. intros H. unfold load_state_dict in H. apply guard_Ok in H as [_ H]. apply guard_Ok in H as [_ H]. inv_bind H. inv_bind H. injection H as <-. cbn. eauto. Qed.
Lemma load_same t t' : in_bounds cfg (t_settings t) -> load (state_dict t) = Ok t' -> t' = t.
Proof.
  intros B H. unfold load_state_dict in H. cbn in H. rewrite !Z.eqb_refl in H. cbn in H. injection H as <-. rewrite (clamp_id B). destruct t. reflexivity.
Qed.

(** ** The settings stay within their bounds *)
Theorem C46_settings_stay_in_bounds : forall t, exists_ t -> in_bounds cfg (t_settings t).
Proof.
  intros t H. induction H as [initial profile|t m i ok _ IH|s t' H].
  - apply clamp_in.
  - apply update_in_bounds. exact IH.
  - destruct (load_clamped H) as (x & ->). apply clamp_in.
Qed.
Lemma lives_in initial t : lives initial t -> in_bounds cfg (t_settings t).
Proof. intros H. induction H as [profile|t m i ok _ IH|t t' _ IH H]; [apply clamp_in|apply update_in_bounds; exact IH|rewrite (load_same IH H); exact IH]. Qed.

(** ** Locked options *)
Lemma get_put s o o' v : get (put s o v) o' = if (match o, o' with Threads, Threads | Batches, Batches | Entries, Entries | Bytes, Bytes => true | _, _ => false end) then v else get s o'.
Proof. destruct o, o'; reflexivity. Qed.
Lemma apply_locked o : locked o = true -> forall r s, get (apply_profile locked s r) o = get s o.
Proof.
  intros L r. induction r as [|[n v] r IH]; intros s; [reflexivity|]. unfold apply_profile in *. cbn [fold_left fst snd]. rewrite IH.
  destruct (locked n) eqn:Ln; [reflexivity|]. rewrite get_put. destruct n, o; congruence.
Qed.
Lemma adjusted_locked s m o : locked o = true -> o <> Entries -> get (adjusted cfg locked scaled s m) o = get s o.
Proof.
  intros L N. unfold adjusted. destruct (negb (healthy m)).
  - destruct (negb (locked Threads) && _) eqn:E1; [rewrite get_put; destruct o; try reflexivity; rewrite L in E1; discriminate|].
    destruct (negb (locked Batches) && _) eqn:E2; [rewrite get_put; destruct o; try reflexivity; rewrite L in E2; discriminate|].
    destruct (reloads m && _ && _) eqn:E3; [|reflexivity]. rewrite !get_put. destruct o; try reflexivity; [congruence|].
    rewrite L, andb_false_r in E3. discriminate.
  - cbv zeta. destruct (negb (locked Batches) && _ && _ && _) eqn:E1; [rewrite get_put; destruct o; try reflexivity; rewrite L in E1; discriminate|].
    destruct (negb (locked Threads) && _ && _) eqn:E2; [rewrite get_put; destruct o; try reflexivity; rewrite L in E2; discriminate|reflexivity].
Qed.
Definition option_in_bounds (s : settings) (o : option_name) : Prop :=
  match o with
  | Threads => 1 <= threads s <= max_threads cfg | Batches => 1 <= batches s <= max_batches cfg
  | Entries => 1 <= entries s | Bytes => 1 <= bytes_ s <= cache_budget cfg
  end.
Lemma clamp_get s o : option_in_bounds s o -> get (clamp cfg s) o = get s o.
Proof. destruct o; cbn; lia. Qed.
Lemma in_bounds_option s o : in_bounds cfg s -> option_in_bounds s o.
Proof. intros (A & B & C & D). destruct o; cbn; assumption. Qed.
Lemma option_in_eq s s' o : get s o = get s' o -> option_in_bounds s o -> option_in_bounds s' o.
Proof. destruct o; cbn; intros ->; auto. Qed.

(** An option the user set explicitly (and the bounds allow) keeps its value, whatever
    profile is found, whatever is measured, and over any number of resumes. *)
Theorem C46_locked_options_never_change : forall initial t o, lives initial t -> locked o = true -> o <> Entries ->
  option_in_bounds initial o -> get (t_settings t) o = get initial o.
Proof.
  intros initial t o H L N B. induction H as [profile|t m i ok H IH|t t' H0 IH H].
  - cbn [Autotune.construct t_settings]. destruct profile as [[r k]|]; [|apply clamp_get; exact B].
    rewrite clamp_get; [apply apply_locked; exact L|]. eapply option_in_eq; [|exact B]. symmetry. apply apply_locked. exact L.
  - destruct (update_outcome t m i ok) as [t' -> _ _ _ _|t' pre post -> _ _ _ _ _ _|t' pre -> _ _ _ _ _ _ _|t' pre -> _ _ _ _ _ _]; try exact IH.
    rewrite clamp_get; [rewrite adjusted_locked; assumption|]. apply (option_in_eq (s := t_settings t)); [symmetry; apply adjusted_locked; assumption|].
    apply in_bounds_option. apply (lives_in H).
  - rewrite (load_same (lives_in H0) H). exact IH.
Qed.

(** ** The log of decisions *)
Lemma leads_app a ds b ds' c : leads a ds b -> leads b ds' c -> leads a (ds ++ ds') c.
Proof. intros H. induction H; intros H'; cbn [app]; [exact H'|constructor; auto|constructor; auto]. Qed.
Lemma leads_quiet a ds : (forall d, In d ds -> forall i x y, d <> Adjust i x y) -> leads a ds a.
Proof. induction ds as [|d ds IH]; intros H; [constructor|]. constructor; [apply H; left; reflexivity|apply IH; intros; apply H; right; assumption]. Qed.
(** The log explains the settings: its adjustments lead, one after the other, from the
    settings the tuner was made with to the present ones. *)
Theorem C46_the_log_explains_the_settings : forall initial t, lives initial t ->
  exists profile, leads (t_settings (construct initial profile)) (t_decisions t) (t_settings t).
Proof.
  intros initial t H. induction H as [profile|t m i ok H IH|t t' H0 IH H].
  - exists profile. constructor.
  - destruct IH as (profile & IH). exists profile.
    destruct (update_outcome t m i ok) as [t' -> _ _ _ -> |t' pre post -> _ _ _ -> P Q|t' pre -> _ _ _ _ _ -> P|t' pre E Ne _ _ _ -> P].
    + exact IH.
    + eapply leads_app; [exact IH|]. apply leads_quiet. intros d Hd i' x y ->. destruct P as [-> | ->], Q as [-> | ->]; cbn in Hd; intuition discriminate.
    + eapply leads_app; [exact IH|]. apply leads_quiet. intros d Hd i' x y ->. destruct P as [-> | ->]; cbn in Hd; intuition discriminate.
    + eapply leads_app; [exact IH|]. eapply leads_app; [apply leads_quiet|apply leads_adjust; [exact Ne|constructor]].
      intros d Hd i' x y ->. destruct P as [-> | ->]; cbn in Hd; intuition discriminate.
  - rewrite (load_same (lives_in H0) H). exact IH.
Qed.

(** ** Direction *)
(** Below target nothing is reduced; at target nothing is increased.  The cache is only
    touched when files were read again, one kind of parameter is changed at a time, and the
    number of batches is never brought below two, or two per thread. *)
Theorem C46_adjustments_go_the_right_way : forall t m i ok, exists_ t ->
  let s := t_settings t in let s' := t_settings (after t m i ok) in
  (healthy m = false -> threads s <= threads s' /\ batches s <= batches s' /\ entries s <= entries s' /\ bytes_ s <= bytes_ s') /\
  (healthy m = true -> threads s' <= threads s /\ batches s' <= batches s /\ entries s' = entries s /\ bytes_ s' = bytes_ s) /\
  (reloads m = false -> entries s' = entries s /\ bytes_ s' = bytes_ s) /\
  (threads s' <> threads s -> batches s' = batches s /\ entries s' = entries s /\ bytes_ s' = bytes_ s) /\
  (batches s' <> batches s -> threads s' = threads s /\ entries s' = entries s /\ bytes_ s' = bytes_ s) /\
  (batches s' < batches s -> 2 <= batches s' /\ 2 * threads s' <= batches s').
Proof.
  intros t m i ok H s s'. pose proof (C46_settings_stay_in_bounds H) as B. fold s in B.
  assert (E : s' = s \/ s' = clamp cfg (adjusted cfg locked scaled s m)).
  { unfold s', s. destruct (update_outcome t m i ok) as [t' -> _ _ _ _|t' pre post -> _ _ _ _ _ _|t' pre -> _ _ _ _ _ _ _|t' pre -> _ _ _ _ _ _]; auto. }
  clearbody s s'. clear H t i ok. destruct E as [-> | ->]; [repeat split; lia|]. destruct s as [a b c d]. destruct B as (B1 & B2 & B3 & B4). cbn in B1, B2, B3, B4.
  pose proof cfg_pos as P. unfold adjusted, put. cbn [threads batches entries bytes_].
  assert (Hd : 0 <= b / 2 <= b) by (split; [apply Z.div_pos; lia|apply Z.div_le_upper_bound; lia]).
  destruct (healthy m); cbn [negb].
  - destruct (negb (locked Batches) && _ && _ && _) eqn:E1; [|destruct (negb (locked Threads) && _ && _) eqn:E2]; cbn; repeat split; lia.
  - destruct (negb (locked Threads) && _) eqn:E1; [cbn; repeat split; lia|].
    destruct (negb (locked Batches) && _) eqn:E2; [cbn; repeat split; lia|].
    destruct (reloads m); cbn [andb]; [|cbn; repeat split; lia].
    destruct (negb (locked Bytes) && _) eqn:E3; cbn; repeat split; try lia; try discriminate.
Qed.

(** ** Tuning ends *)
Theorem C46_frozen_is_final : forall t m i ok, t_frozen t = true ->
  answer t m i ok = None /\ t_settings (after t m i ok) = t_settings t /\ t_frozen (after t m i ok) = true.
Proof.
  intros t m i ok F. destruct (update_outcome t m i ok) as [t' S _ F' _ _|t' pre post _ F' _ _ _ _ _|t' pre _ F' _ _ _ _ _ _|t' pre _ _ F' _ _ _ _]; try congruence.
  split; [reflexivity|]. split; [exact S|congruence].
Qed.
(** A run of updates, and how many of them decided something. *)
Fixpoint run (t : tuner) (l : list (metrics * Z * bool)) : tuner :=
  match l with [] => t | (m, i, ok) :: r => run (after t m i ok) r end.
Fixpoint decided (t : tuner) (l : list (metrics * Z * bool)) : Z :=
  match l with
  | [] => 0
  | (m, i, ok) :: r => (match answer t m i ok with Some _ => 1 | None => 0 end) + decided (after t m i ok) r
  end.
Lemma after_started t m i ok : t_started (after t m i ok) = Some (match t_started t with Some s => s | None => i end).
Proof.
  unfold after, answer, saved, Autotune.update. cbn [t_settings t_reused t_frozen t_last t_decisions]. set (started := match t_started t with Some s => s | None => i end).
  destruct (t_frozen t || _); [reflexivity|]. destruct (match t_last t with Some l => _ | None => false end); [reflexivity|].
  destruct (_ && healthy m); [reflexivity|].
  destruct (match t_reused t with Some _ => verify_iterations cfg <=? elapsed started i | None => false end);
  (destruct (freeze_after cfg <=? _); [reflexivity|]; destruct (settings_eqb _ _); [destruct (healthy m); reflexivity|reflexivity]).
Qed.
Lemma decides_when t m i ok s : answer t m i ok = Some s ->
  t_frozen t = false /\ (forall l, t_last t = Some l -> decision_interval cfg <= i - l) /\
  (t_frozen (after t m i ok) = false -> elapsed (match t_started t with Some s => s | None => i end) i < freeze_after cfg).
Proof.
  unfold after, answer, saved, Autotune.update. cbn [t_settings t_reused t_frozen t_last t_decisions]. set (started := match t_started t with Some s => s | None => i end).
  destruct (t_frozen t) eqn:F; [discriminate|]. cbn [orb]. destruct (_ <? _); [discriminate|].
  destruct (match t_last t with Some l => _ | None => false end) eqn:E; [discriminate|]. intros H. split; [reflexivity|]. split.
  - intros l El. rewrite El in E. lia.
  - revert H. destruct (_ && healthy m); [cbn; discriminate|].
    destruct (match t_reused t with Some _ => verify_iterations cfg <=? elapsed started i | None => false end);
    (destruct (freeze_after cfg <=? _) eqn:Ef; [cbn; discriminate|intros _ _; lia]).
Qed.
Lemma after_last t m i ok : t_last (after t m i ok) = match answer t m i ok with Some _ => Some i | None => t_last t end.
Proof. destruct (update_outcome t m i ok) as [t' _ _ _ L _|t' pre post _ _ _ L _ _ _|t' pre _ _ _ L _ _ _ _|t' pre _ _ _ _ L _ _]; exact L. Qed.
Lemma decided_frozen l : forall t, t_frozen t = true -> decided t l = 0.
Proof.
  induction l as [|[[m i] ok] r IH]; intros t F; [reflexivity|]. destruct (C46_frozen_is_final m i ok F) as (A & _ & F'). cbn [decided]. rewrite A. rewrite IH by exact F'. reflexivity.
Qed.
(** After a decision at iteration [l], counted from [s]: what is left. *)
Lemma decided_bound r : forall t s l, t_started t = Some s -> t_last t = Some l -> s <= l -> (t_frozen t = false -> l - s < freeze_after cfg) ->
  decided t r = 0 \/ (decided t r - 2) * decision_interval cfg + (l - s) + decision_interval cfg < freeze_after cfg.
Proof.
  pose proof cfg_pos as P. induction r as [|[[m i] ok] r IH]; intros t s l Hs Hl Hle Hf; [left; reflexivity|]. cbn [decided].
  destruct (t_frozen t) eqn:F.
  { left. destruct (C46_frozen_is_final m i ok F) as (A & _ & F'). rewrite A, decided_frozen by exact F'. reflexivity. }
  specialize (Hf eq_refl). pose proof (after_started t m i ok) as As. rewrite Hs in As. pose proof (after_last t m i ok) as Al.
  destruct (answer t m i ok) as [st|] eqn:A.
  - destruct (decides_when A) as (_ & D & Fz). specialize (D l Hl). rewrite Hs in Fz.
    destruct (t_frozen (after t m i ok)) eqn:F'.
    + rewrite decided_frozen by exact F'. right. nia.
    + specialize (Fz eq_refl). unfold elapsed in Fz.
      destruct (IH (after t m i ok) s i As Al ltac:(lia) ltac:(lia)) as [E|E]; [right; nia|right; nia].
  - destruct (IH (after t m i ok) s l As ltac:(congruence) Hle ltac:(intros; exact Hf)) as [E|E]; [left; lia|right; lia].
Qed.
(** However long training goes on, the tuner decides at most about
    freeze_after / decision_interval times; and once it has been tuning for [freeze_after]
    iterations (and has watched long enough), two updates at a distance of
    [decision_interval] suffice to freeze it. *)
Theorem C46_tuning_ends : forall initial profile,
  (forall l, StronglySorted Z.le (map (fun u => snd (fst u)) l) ->
     decided (construct initial profile) l <= 2 + (freeze_after cfg - 1) / decision_interval cfg) /\
  (forall t m i ok m' i' ok' s, t_started t = Some s ->
     s + Z.max (freeze_after cfg) (Z.max (warmup_iterations cfg) (verify_iterations cfg)) <= i ->
     (forall l, t_last t = Some l -> l <= i) ->
     i + decision_interval cfg <= i' ->
     t_frozen (after (after t m i ok) m' i' ok') = true).
Proof.
  intros initial profile. pose proof cfg_pos as P. split.
  - intros l Hl. assert (G : forall r t, t_last t = None -> StronglySorted Z.le (map (fun u => snd (fst u)) r) ->
      (forall s, t_started t = Some s -> Forall (Z.le s) (map (fun u => snd (fst u)) r)) -> decided t r <= 2 + (freeze_after cfg - 1) / decision_interval cfg).
    { clear l Hl. assert (Q : 0 <= (freeze_after cfg - 1) / decision_interval cfg) by (apply Z.div_pos; lia).
      induction r as [|[[m i] ok] r IH]; intros t Hl Hs Hst; [cbn; lia|].
      cbn [decided]. cbn [map fst snd] in Hs, Hst. inversion Hs as [|? ? Hs1 Hs2]; subst.
      pose proof (after_started t m i ok) as As. pose proof (after_last t m i ok) as Al.
      assert (Hsi : match t_started t with Some s => s | None => i end <= i).
      { destruct (t_started t) as [s|]; [|lia]. specialize (Hst s eq_refl). inversion Hst; assumption. }
      set (s := match t_started t with Some s => s | None => i end) in *.
      destruct (answer t m i ok) as [st|] eqn:A.
      2:{ rewrite Hl in Al. assert (decided (after t m i ok) r <= 2 + (freeze_after cfg - 1) / decision_interval cfg); [|lia].
          apply IH; [exact Al|exact Hs1|]. intros s' E. rewrite As in E. injection E as <-.
          rewrite Forall_forall in *. intros x Hx. specialize (Hs2 x Hx). lia. }
      destruct (t_frozen (after t m i ok)) eqn:F'; [rewrite decided_frozen by exact F'; lia|].
      destruct (decides_when A) as (_ & _ & Fz). specialize (Fz F'). fold s in Fz. unfold elapsed in Fz.
      destruct (decided_bound r As Al Hsi ltac:(lia)) as [E|E]; [lia|].
      assert (decided (after t m i ok) r - 1 <= (freeze_after cfg - 1) / decision_interval cfg) by (apply Z.div_le_lower_bound; nia). lia. }
    apply G; [reflexivity|exact Hl|discriminate].
  - intros t m i ok m' i' ok' s Hs Hi Hl Hi'.
    assert (X : forall t m i ok, t_started t = Some s -> s + Z.max (freeze_after cfg) (Z.max (warmup_iterations cfg) (verify_iterations cfg)) <= i ->
                (forall l, t_last t = Some l -> l + decision_interval cfg <= i) -> t_frozen (after t m i ok) = true).
    { clear - P. intros t m i ok Hs Hi Hl. unfold after, Autotune.update. rewrite Hs. cbn [t_settings t_reused t_frozen t_last t_decisions].
      destruct (t_frozen t) eqn:F; [reflexivity|]. cbn [orb].
      destruct (_ <? match t_reused t with Some _ => verify_iterations cfg | None => warmup_iterations cfg end) eqn:E0;
        [exfalso; unfold elapsed in E0; destruct (t_reused t); lia|].
      replace (match t_last t with Some l => i - l <? decision_interval cfg | None => false end) with false
        by (destruct (t_last t) as [l|]; [specialize (Hl l eq_refl); lia|reflexivity]).
      destruct (_ && healthy m); [reflexivity|].
      destruct (freeze_after cfg <=? _) eqn:E1; [reflexivity|]. exfalso. unfold elapsed in E1. lia. }
    pose proof (after_started t m i ok) as As. rewrite Hs in As. pose proof (after_last t m i ok) as Al.
    apply X; [exact As|lia|]. intros l El. rewrite Al in El. destruct (answer t m i ok); [injection El as <-; lia|]. specialize (Hl l El). lia.
Qed.

(** ** When it decides *)
(** An update decides exactly if the tuner is not frozen, has watched for the warm-up time
    (or the verification time, for a reused profile) and its last decision is
    [decision_interval] iterations ago.  Deciding, it freezes exactly if the time for tuning is
    over, or the target is met and either a reused profile is being verified or there is
    nothing left to reduce.  A reused profile that misses the target is given up. *)
Theorem C46_when_it_decides : forall t m i ok,
  let started := match t_started t with Some s => s | None => i end in
  (answer t m i ok <> None <->
   t_frozen t = false /\
   match t_reused t with Some _ => verify_iterations cfg | None => warmup_iterations cfg end <= Z.max 0 (i - started) /\
   (forall l, t_last t = Some l -> l + decision_interval cfg <= i)) /\
  (answer t m i ok <> None ->
   (t_frozen (after t m i ok) = true <->
    freeze_after cfg <= i - started \/
    (healthy m = true /\ (t_reused t <> None \/ t_settings t = clamp cfg (adjusted cfg locked scaled (t_settings t) m)))) /\
   (t_reused (after t m i ok) = if healthy m then t_reused t else None)).
Proof.
  intros t m i ok started. pose proof cfg_pos as P. unfold after, answer, Autotune.update. cbn [t_settings t_reused t_frozen t_last t_decisions]. fold started.
  destruct (t_frozen t) eqn:F; cbn [orb]; [split; [split; [intros H; exfalso; apply H; reflexivity|intros (H & _); discriminate]|intros H; exfalso; apply H; reflexivity]|]. unfold elapsed in *.
  destruct (Z.max 0 (i - started) <? _) eqn:E0; [split; [split; [intros H; exfalso; apply H; reflexivity|intros (_ & H & _); lia]|intros H; exfalso; apply H; reflexivity]|].
  destruct (match t_last t with Some l => _ | None => false end) eqn:El.
  { destruct (t_last t) as [l|]; [|discriminate]. split; [split; [intros H; exfalso; apply H; reflexivity|intros (_ & _ & H); specialize (H l eq_refl); lia]|intros H; exfalso; apply H; reflexivity]. }
  assert (Hl : forall l, t_last t = Some l -> l + decision_interval cfg <= i) by (intros l E; rewrite E in El; lia).
  assert (Hv : match t_reused t with Some _ => verify_iterations cfg <=? Z.max 0 (i - started) | None => false end = match t_reused t with Some _ => true | None => false end).
  { destruct (t_reused t); [lia|reflexivity]. }
  rewrite Hv. destruct (t_reused t) as [k|] eqn:R; cbn [andb].
  - destruct (healthy m) eqn:Hm; cbn [fst snd].
    + split; [split; [intros _; repeat split; [lia|exact Hl]|discriminate]|]. intros _. split; [|reflexivity]. split; [intros _; right; split; [reflexivity|left; discriminate]|reflexivity].
    + destruct (freeze_after cfg <=? _) eqn:Ef; cbn [fst snd].
      * split; [split; [intros _; repeat split; [lia|exact Hl]|discriminate]|]. intros _. split; [|reflexivity]. split; [intros _; left; lia|reflexivity].
      * destruct (settings_eqb _ _) eqn:Es; cbn [fst snd]; (split; [split; [intros _; repeat split; [lia|exact Hl]|discriminate]|]; intros _; split; [|reflexivity];
        split; [discriminate|intros [H|(H & _)]; [lia|discriminate]]).
  - destruct (freeze_after cfg <=? _) eqn:Ef; cbn [fst snd].
    + split; [split; [intros _; repeat split; [lia|exact Hl]|discriminate]|]. intros _. split; [|cbn; destruct (healthy m); reflexivity]. split; [intros _; left; lia|reflexivity].
    + cbn [t_settings t_reused]. destruct (settings_eqb _ _) eqn:Es.
      * apply settings_eqb_eq in Es. destruct (healthy m) eqn:Hm; cbn [fst snd]; (split; [split; [intros _; repeat split; [lia|exact Hl]|discriminate]|]; intros _; split; [|reflexivity]).
        -- split; [intros _; right; split; [reflexivity|right; congruence]|reflexivity].
        -- split; [discriminate|intros [H|(H & _)]; [lia|discriminate]].
      * cbn [fst snd]. split; [split; [intros _; repeat split; [lia|exact Hl]|discriminate]|]. intros _. split; [|cbn; destruct (healthy m); reflexivity].
        split; [discriminate|intros [H|(_ & [H|H])]; [lia|congruence|]]. rewrite <- H in Es.
        assert (T : settings_eqb (t_settings t) (t_settings t) = true) by (apply settings_eqb_eq; reflexivity). congruence.
Qed.

(** ** Resuming *)
(** Saving the state and loading it into a new process gives back the same tuner. *)
Theorem C46_resuming_changes_nothing : forall t, exists_ t -> load (state_dict t) = Ok t.
Proof.
  intros t H. pose proof (C46_settings_stay_in_bounds H) as B. unfold load_state_dict. cbn. rewrite !Z.eqb_refl. cbn. rewrite (clamp_id B). destruct t. reflexivity.
Qed.
(** The state of a tuner with other keys (other data, batch size, hardware, explicit
    options, ...) is refused when loaded and ignored when restored. *)
Theorem C46_states_of_another_runtime_are_refused : forall s, s_exact s <> k1 \/ s_compatible s <> k2 ->
  load s = Err ValueError /\ restore_tuning cfg k1 k2 s = Ok None.
Proof.
  intros s H. assert (E : (s_exact s =? k1) && (s_compatible s =? k2) = false) by (destruct H; apply andb_false_iff; [left|right]; apply Z.eqb_neq; assumption).
  unfold load_state_dict, restore_tuning. rewrite E. destruct (s_schema s); auto.
Qed.

(** ** Profiles *)
(** What freezing saves is what a later run starts with. *)
Definition profile_of (s : settings) : list (option_name * Z) := [(Bytes, bytes_ s); (Entries, entries s); (Batches, batches s); (Threads, threads s)].
Theorem C46_profiles_carry_over : forall initial t m i ok s, lives initial t -> saved t m i ok = Some s ->
  (forall o, locked o = true -> o <> Entries /\ option_in_bounds initial o) ->
  t_frozen (after t m i ok) = true /\ s = t_settings (after t m i ok) /\
  forall kind, t_settings (construct initial (Some (profile_of s, kind))) = s /\ t_reused (construct initial (Some (profile_of s, kind))) = Some kind.
Proof.
  intros initial t m i ok s Hv S HL. pose proof (updated m i ok Hv) as Hv'.
  assert (E : t_frozen (after t m i ok) = true /\ s = t_settings (after t m i ok)).
  { revert S. destruct (update_outcome t m i ok) as [t' _ _ _ _ _|t' pre post _ _ F _ _ _ _|t' pre _ _ _ _ _ _ _ _|t' pre _ _ _ _ _ _ _]; try discriminate.
    intros E. injection E as <-. auto. }
  destruct E as (F & ->). split; [exact F|]. split; [reflexivity|]. intros kind. split; [|reflexivity].
  set (t' := after t m i ok) in *. pose proof (lives_in Hv') as B. cbn [Autotune.construct t_settings].
  rewrite <- (clamp_id B) at 2. f_equal. unfold apply_profile, profile_of. cbn [fold_left fst snd].
  assert (G : forall o, locked o = true -> get initial o = get (t_settings t') o).
  { intros o L. destruct (HL o L). symmetry. apply C46_locked_options_never_change; assumption. }
  assert (EQ : forall a b, (forall o, get a o = get b o) -> a = b).
  { intros [a1 a2 a3 a4] [b1 b2 b3 b4] H. f_equal; [exact (H Threads)|exact (H Batches)|exact (H Entries)|exact (H Bytes)]. }
  apply EQ. intros o. pose proof (G Threads). pose proof (G Batches). pose proof (G Entries). pose proof (G Bytes).
  destruct (locked Threads), (locked Batches), (locked Entries), (locked Bytes), o; cbn in *; auto.
Qed.

(** ** The dataset around the tuner *)
Notation tuning_update := (tuning_update cfg locked scaled k1 k2).
Definition applied (d : tuned) : Prop :=
  d_limit d = threads (t_settings (d_tuner d)) /\ d_cache d = (entries (t_settings (d_tuner d)), bytes_ (t_settings (d_tuner d))).
Inductive dataset_exists : tuned -> Prop :=
| dataset_made initial profile d : tuned_init cfg locked initial profile = Ok d -> dataset_exists d
| dataset_updated d m i ok d' s : dataset_exists d -> tuning_update d m i ok = Ok (d', s) -> dataset_exists d'
| dataset_loaded s d : load_tuning cfg k1 k2 s = Ok d -> dataset_exists d.
Lemma configure_ok s : in_bounds cfg s -> configure_cache (entries s) (bytes_ s) = Ok (entries s, bytes_ s).
Proof. intros (_ & _ & E & B). unfold configure_cache. replace (1 <=? entries s) with true by lia. replace (1 <=? bytes_ s) with true by lia. reflexivity. Qed.
Lemma load_tuning_ok s t : load s = Ok t -> load_tuning cfg k1 k2 s = Ok {| d_tuner := t; d_limit := threads (t_settings t); d_cache := (entries (t_settings t), bytes_ (t_settings t)) |}.
Proof. intros H. unfold load_tuning. rewrite H. cbn [bind]. destruct (load_clamped H) as (x & E). rewrite configure_ok by (rewrite E; apply clamp_in). reflexivity. Qed.
Lemma tuning_update_ok d m i ok : in_bounds cfg (t_settings (d_tuner d)) -> applied d ->
  exists d', tuning_update d m i ok = Ok (d', answer (d_tuner d) m i ok) /\ d_tuner d' = after (d_tuner d) m i ok /\ applied d'.
Proof.
  intros B A. pose proof (update_in_bounds m i ok B) as B'. unfold Autotune.tuning_update.
  pose proof (update_outcome (d_tuner d) m i ok) as O. unfold after, answer, saved in *.
  destruct (update (d_tuner d) m i ok) as [[t s] sv]. cbn [fst snd] in *. destruct s as [s|].
  - assert (s = state_dict t) as -> by (inversion O; reflexivity).
    rewrite (@load_tuning_ok _ t). 2:{ unfold load_state_dict. cbn. rewrite !Z.eqb_refl. cbn. rewrite (clamp_id B'). destruct t. reflexivity. }
    cbn [bind]. eexists. split; [reflexivity|]. split; [reflexivity|]. split; reflexivity.
  - eexists. split; [reflexivity|]. cbn. split; [reflexivity|]. destruct A as (A1 & A2).
    assert (t_settings t = t_settings (d_tuner d)) by (inversion O; assumption). unfold applied. cbn. rewrite H. auto.
Qed.
(** At every moment the gate's limit and the decoder's cache are what the settings say, and
    applying them never raises. *)
Theorem C46_settings_are_applied :
  (forall d, dataset_exists d -> applied d /\ exists_ (d_tuner d)) /\
  (forall initial profile, exists d, tuned_init cfg locked initial profile = Ok d) /\
  (forall d m i ok, dataset_exists d -> exists d', tuning_update d m i ok = Ok (d', answer (d_tuner d) m i ok) /\ d_tuner d' = after (d_tuner d) m i ok).
Proof.
  assert (I : forall initial profile, tuned_init cfg locked initial profile = Ok (let t := construct initial profile in
     {| d_tuner := t; d_limit := threads (t_settings t); d_cache := (entries (t_settings t), bytes_ (t_settings t)) |})).
  { intros initial profile. unfold tuned_init. cbv zeta. rewrite configure_ok by apply clamp_in. reflexivity. }
  assert (A : forall d, dataset_exists d -> applied d /\ exists_ (d_tuner d)).
  { intros d H. induction H as [initial profile d H|d m i ok d' s H IH E|s d H].
    - rewrite I in H. injection H as <-. split; [split; reflexivity|]. apply made_any.
    - destruct IH as (IH1 & IH2). destruct (tuning_update_ok m i ok (C46_settings_stay_in_bounds IH2) IH1) as (d1 & E1 & T1 & A1).
      rewrite E1 in E. injection E as <- _. split; [exact A1|]. rewrite T1. apply updated_any. exact IH2.
    - unfold load_tuning in H. inv_bind H. pose proof (load_tuning_ok Hm) as L. unfold load_tuning in L. rewrite Hm in L. cbn [bind] in L. rewrite L in H. injection H as <-.
      split; [split; reflexivity|]. apply (loaded_any Hm). }
  split; [exact A|]. split; [intros; eexists; apply I|]. intros d m i ok H. destruct (A d H) as (A1 & A2).
  destruct (tuning_update_ok m i ok (C46_settings_stay_in_bounds A2) A1) as (d' & E & T & _). eauto.
Qed.

(** ** Several processes *)
(** When the main process decides, every process has its settings afterwards (all processes
    having the same keys); a process with other keys stops training with ValueError. *)
Theorem C46_processes_agree : forall d others m i ok, dataset_exists d ->
  answer (d_tuner d) m i ok <> None ->
  (Forall (fun o => fst o = (k1, k2)) others ->
   exists l, ranks_update cfg locked scaled (k1, k2, d) others m i ok = Ok l /\ List.length l = S (List.length others) /\
     Forall (fun o => fst o = (k1, k2) /\ applied (snd o) /\ d_tuner (snd o) = after (d_tuner d) m i ok) l) /\
  (Exists (fun o => fst o <> (k1, k2)) others -> ranks_update cfg locked scaled (k1, k2, d) others m i ok = Err ValueError).
Proof.
  intros d others m i ok H Hd. destruct C46_settings_are_applied as (A & _ & U). destruct (A d H) as (Ad & Ed).
  pose proof (C46_settings_stay_in_bounds Ed) as B. destruct (tuning_update_ok m i ok B Ad) as (d' & E & T & A').
  set (t := after (d_tuner d) m i ok) in *.
  assert (S : answer (d_tuner d) m i ok = Some (state_dict t)).
  { unfold t. pose proof (update_outcome (d_tuner d) m i ok) as O. destruct (answer (d_tuner d) m i ok) as [s|]; [|congruence]. inversion O; reflexivity. }
  assert (L : load (state_dict t) = Ok t) by (apply C46_resuming_changes_nothing; apply updated_any; exact Ed).
  unfold ranks_update. rewrite E, S. cbn [bind]. split.
  - intros F. set (dt := {| d_tuner := t; d_limit := threads (t_settings t); d_cache := (entries (t_settings t), bytes_ (t_settings t)) |}).
    assert (M : mapM (fun o => let '(e1, e2, _) := o in d2 <- load_tuning cfg e1 e2 (state_dict t) ;; Ok (e1, e2, d2)) others = Ok (map (fun o => (k1, k2, dt)) others)).
    { clear - F L Hcfg. induction others as [|[[e1 e2] x] r IH]; [reflexivity|]. inversion F as [|? ? F1 F2]; subst. cbn in F1. injection F1 as -> ->.
      cbn [mapM map]. rewrite (load_tuning_ok L). cbn [bind]. rewrite (IH F2). reflexivity. }
    rewrite M. cbn [bind]. eexists. split; [reflexivity|]. split; [cbn; rewrite map_length; reflexivity|]. constructor; [cbn; auto|].
    apply Forall_forall. intros o Ho. apply in_map_iff in Ho. destruct Ho as (x & <- & _). cbn. repeat split.
  - intros X. enough (M : mapM (fun o => let '(e1, e2, _) := o in d2 <- load_tuning cfg e1 e2 (state_dict t) ;; Ok (e1, e2, d2)) others = Err ValueError) by (rewrite M; reflexivity).
    clear - X L Hcfg. induction X as [[[e1 e2] x] r N|[[e1 e2] x] r X IH]; cbn [mapM].
    + unfold load_tuning, load_state_dict at 1. cbn in *. destruct ((k1 =? e1) && (k2 =? e2)) eqn:Q; [|reflexivity].
      exfalso. apply N. f_equal; lia.
    + destruct ((k1 =? e1) && (k2 =? e2)) eqn:Q.
      * assert (e1 = k1 /\ e2 = k2) as (-> & ->) by lia. rewrite (load_tuning_ok L). cbn [bind]. rewrite IH. reflexivity.
      * unfold load_tuning, load_state_dict at 1. cbn. rewrite Q. reflexivity.
Qed.
End C46.

(** ** A refuted claim *)
(** A locked cache_entries is raised all the same, together with an unlocked cache_bytes. *)
Theorem C46_a_locked_number_of_cache_entries_is_kept_refuted :
  exists cfg locked k1 k2 scaled initial t, tconfig_check cfg = Ok tt /\ lives cfg locked k1 k2 scaled initial t /\ locked Entries = true /\
    option_in_bounds cfg initial Entries /\ get (t_settings t) Entries <> get initial Entries.
Proof.
  exists {| warmup_iterations := 0; verify_iterations := 0; decision_interval := 1; freeze_after := 10; max_threads := 1; max_batches := 1; cache_budget := 2 ^ 31 |}.
  exists (fun o => match o with Entries => true | _ => false end), 1, 2, (fun x => x + x / 4). exists {| threads := 1; batches := 1; entries := 4; bytes_ := 1024 |}.
  eexists. split; [reflexivity|]. split; [eapply updated with (m := {| healthy := false; reloads := true; queue_full := fun _ => false; excess := false |}) (i := 0) (ok := true); apply made with (profile := None)|].
  split; [reflexivity|]. split; [vm_compute; discriminate|]. vm_compute. discriminate.
Qed.

(** ** A concrete run *)
Module Ex.
Definition cfg := {| warmup_iterations := 1000; verify_iterations := 500; decision_interval := 500; freeze_after := 10000;
  max_threads := 4; max_batches := 64; cache_budget := 2 * 1024 ^ 3 |}.
Definition locked (o : option_name) : bool := match o with Threads => true | _ => false end.
Definition initial := {| threads := 2; batches := 32; entries := 4; bytes_ := 1024 ^ 3 |}.
Definition slow := {| healthy := false; reloads := true; queue_full := fun _ => false; excess := false |}.
Definition fast := {| healthy := true; reloads := false; queue_full := fun _ => true; excess := true |}.
Definition run := run cfg locked 1 2 (fun x => x + x / 4).
Definition fresh := construct cfg locked initial None.
Definition script := [(slow, 0, true); (slow, 1000, true); (slow, 1200, true); (slow, 1500, true); (fast, 2000, true); (fast, 2500, true); (fast, 3000, true);
  (fast, 3500, true); (fast, 4000, true); (fast, 4500, true); (slow, 5000, true)].
(** The queue is made longer, then the cache larger (the number of threads is locked); then
    the queue is halved until it holds two batches per thread, and the tuner freezes. *)
Example run_ok : tconfig_check cfg = Ok tt /\ t_decisions (run fresh script) =
  [Adjust 1000 initial {| threads := 2; batches := 64; entries := 4; bytes_ := 1024 ^ 3 |};
   Adjust 1500 {| threads := 2; batches := 64; entries := 4; bytes_ := 1024 ^ 3 |} {| threads := 2; batches := 64; entries := 5; bytes_ := 5 * 1024 ^ 3 / 4 |};
   Adjust 2000 {| threads := 2; batches := 64; entries := 5; bytes_ := 5 * 1024 ^ 3 / 4 |} {| threads := 2; batches := 32; entries := 5; bytes_ := 5 * 1024 ^ 3 / 4 |};
   Adjust 2500 {| threads := 2; batches := 32; entries := 5; bytes_ := 5 * 1024 ^ 3 / 4 |} {| threads := 2; batches := 16; entries := 5; bytes_ := 5 * 1024 ^ 3 / 4 |};
   Adjust 3000 {| threads := 2; batches := 16; entries := 5; bytes_ := 5 * 1024 ^ 3 / 4 |} {| threads := 2; batches := 8; entries := 5; bytes_ := 5 * 1024 ^ 3 / 4 |};
   Adjust 3500 {| threads := 2; batches := 8; entries := 5; bytes_ := 5 * 1024 ^ 3 / 4 |} {| threads := 2; batches := 4; entries := 5; bytes_ := 5 * 1024 ^ 3 / 4 |};
   Freeze 4000] /\ t_frozen (run fresh script) = true /\ decided cfg locked 1 2 (fun x => x + x / 4) fresh script = 7.
Proof. vm_compute. repeat split. Qed.
End Ex.
