(** For C68 and C69: what the mask hides, and what the total is made of. *)
From Coq Require Import String Field_theory Field Ring.
From Verif Require Import Base BaseFacts DecoderFacts ChainedFacts Loss LossSpec LossFacts.
Set Implicit Arguments. Unset Strict Implicit.

(** ** Hidden cells *)
Section Hidden.
Context {R : Type} {N : numbers R} {row : Type}.
Variables (ropp rinv : R -> R).
Hypothesis F : field_theory r0 r1 radd rmul rsub ropp rdiv rinv eq.
Add Field R_field4 : F.
Notation "x + y" := (radd x y). Notation "x * y" := (rmul x y). Notation "x - y" := (rsub x y). Notation "x / y" := (rdiv x y).
Variable c : config R.

Lemma agree_cons b mask (x x' : R) l l' : agree_on (b :: mask) (x :: l) (x' :: l') -> agree_on mask l l' /\ (b = true -> x = x').
Proof.
  intros (E & H). split; [split; [cbn in E; congruence|intros i Hi; exact (H (S i) Hi)]|]. intros ->. specialize (H 0%nat eq_refl). cbn in H. congruence.
Qed.
Lemma agree_fill x mask : forall l l' : list R, agree_on mask l l' -> masked_fill x mask l = masked_fill x mask l'.
Proof.
  induction mask as [|b mask IH]; intros [|y l] [|y' l'] H; try reflexivity; try (destruct H as (E & _); discriminate E).
  apply agree_cons in H. destruct H as (H & Hb). cbn. rewrite (IH _ _ H). destruct b; [rewrite Hb; reflexivity|reflexivity].
Qed.
Lemma agree_weigh mask : forall l l' : list R, agree_on mask l l' -> zip2 rmul l (map (@bit R N) mask) = zip2 rmul l' (map (@bit R N) mask).
Proof.
  induction mask as [|b mask IH]; intros [|y l] [|y' l'] H; try reflexivity; try (destruct H as (E & _); discriminate E).
  apply agree_cons in H. destruct H as (H & Hb). unfold zip2 in *. cbn. rewrite (IH _ _ H). f_equal. destruct b; [rewrite Hb; reflexivity|]. cbn [bit]. ring.
Qed.
Variable m : row -> list bool.
Variables d d' : reading R row.
Hypothesis same : same_on_board m d d'.

Definition res_eq A (f g : res (list row -> A)) : Prop := match f, g with Ok f, Ok g => forall rows, f rows = g rows | Err e, Err e' => e = e' | _, _ => False end.
Lemma weight_same r : policy_weight c d r = policy_weight c d' r.
Proof. destruct same as (_ & _ & _ & _ & _ & E & _). unfold policy_weight. rewrite E. reflexivity. Qed.
Lemma value_input_same kd r : value_input c d kd r = value_input c d' kd r.
Proof. destruct same as (_ & _ & E1 & E2 & E3 & _). unfold value_input. rewrite E1, E2, E3. reflexivity. Qed.
Lemma fill_same x r l l' : agree_on (m r) l l' -> fill d x r l = fill d' x r l'.
Proof. destruct same as (E & E' & _). intros H. unfold fill. rewrite E, E'. apply agree_fill. exact H. Qed.
Lemma agree_refl mask (l : list R) : agree_on mask l l.
Proof. split; auto. Qed.
Lemma policy_input_same kd r : policy_input c d kd r = policy_input c d' kd r.
Proof.
  destruct same as (_ & _ & _ & _ & _ & _ & Hp & Ht & Hk & _). unfold policy_input, prepare_policy.
  rewrite (fill_same floor_logit (Hp r)). assert (E : fill d r0 r (if kd then teacher_policy d r else policy_target d r) = fill d' r0 r (if kd then teacher_policy d' r else policy_target d' r)) by (apply fill_same; destruct kd; auto).
  rewrite E. rewrite (fill_same floor_logit (agree_refl (m r) (fill d' r0 r (if kd then teacher_policy d' r else policy_target d' r)))).
  rewrite (fill_same r0 (agree_refl (m r) (softmax (over_T c (fill d' floor_logit r (fill d' r0 r (if kd then teacher_policy d' r else policy_target d' r))))))). reflexivity.
Qed.
Lemma aux_value_input_same kd f r : aux_value_input c d kd f r = aux_value_input c d' kd f r.
Proof. unfold aux_value_input. rewrite value_input_same. reflexivity. Qed.
Lemma aux_policy_input_same kd f f' r : agree_on (m r) (f r) (f' r) -> aux_policy_input c d kd f r = aux_policy_input c d' kd f' r.
Proof. intros H. unfold aux_policy_input, prepare_policy. rewrite (fill_same floor_logit H), policy_input_same, (fill_same r0 (agree_refl (m r) (snd (policy_input c d' kd r)))). reflexivity. Qed.
Lemma value_loss_same k pair pair' : (forall r : row, pair r = pair' r) -> res_eq (value_loss c k pair) (value_loss c k pair').
Proof. intros H. destruct k; cbn; try reflexivity; intros rows; f_equal; apply map_ext; intros r; rewrite H; reflexivity. Qed.
Lemma flat_map_same A (f g : row -> list A) l : (forall r, f r = g r) -> flat_map f l = flat_map g l.
Proof. intros H. induction l as [|x l IH]; cbn; [reflexivity|]. rewrite H, IH. reflexivity. Qed.
Lemma policy_loss_same k pair pair' : (forall r : row, pair r = pair' r) -> res_eq (policy_loss c d k pair) (policy_loss c d' k pair').
Proof. intros H. destruct k; cbn; try reflexivity; intros rows; f_equal; (apply map_ext || apply flat_map_same); intros r; rewrite H, weight_same; reflexivity. Qed.
Lemma reg_same f f' : (forall r, agree_on (m r) (f r) (f' r)) -> forall rows, policy_reg_loss d f rows = policy_reg_loss d' f' rows.
Proof. destruct same as (E & E' & _). intros H rows. unfold policy_reg_loss. rewrite E, E'. f_equal. f_equal. f_equal. apply flat_map_same. intros r. apply agree_weigh. apply H. Qed.
Lemma value_stat_same k pair pair' : (forall r : row, pair r = pair' r) -> forall rows, value_loss_stat c k pair rows = value_loss_stat c k pair' rows.
Proof. intros H rows. unfold value_loss_stat. destruct k; cbv zeta; f_equal; apply map_ext; intros r; rewrite H; reflexivity. Qed.
Lemma policy_stat_same k pair pair' : (forall r : row, pair r = pair' r) -> forall rows, policy_loss_stat c d k pair rows = policy_loss_stat c d' k pair' rows.
Proof.
  intros H rows. unfold policy_loss_stat. destruct k; cbv zeta; [f_equal; f_equal; apply map_ext|f_equal; f_equal; apply map_ext|f_equal; apply flat_map_same|f_equal; f_equal; f_equal; apply flat_map_same|f_equal; f_equal; apply map_ext]; intros r; rewrite H, ?weight_same; reflexivity.
Qed.
Lemma reg_stat_same f f' : (forall r, agree_on (m r) (f r) (f' r)) -> forall rows, policy_regularizer_stat d f rows = policy_regularizer_stat d' f' rows.
Proof. destruct same as (E & E' & _). intros H rows. unfold policy_regularizer_stat. rewrite E, E'. f_equal. f_equal. apply flat_map_same. intros r. apply agree_weigh. apply H. Qed.

Definition term_same A (t t' : term R row A) : Prop := t_name t = t_name t' /\ t_dependent t = t_dependent t' /\ t_weight t = t_weight t' /\ forall rows, t_of t rows = t_of t' rows.
Definition opt_same A (o o' : option (term R row A)) : Prop := match o, o' with Some t, Some t' => term_same t t' | None, None => True | _, _ => False end.
Definition res_rel A (P : A -> A -> Prop) (x y : res A) : Prop := match x, y with Ok a, Ok b => P a b | Err e, Err e' => e = e' | _, _ => False end.
Lemma bind_same A B (P : A -> A -> Prop) (Q : B -> B -> Prop) x y f g : res_rel P x y -> (forall a b, P a b -> res_rel Q (f a) (g b)) -> res_rel Q (a <- x ;; f a) (b <- y ;; g b).
Proof. intros H K. destruct x, y; cbn in *; try contradiction; [apply K; exact H|congruence]. Qed.
Lemma res_rel_of (x y : res (list row -> R)) : res_eq x y -> res_rel (fun f g => forall rows, f rows = g rows) x y.
Proof. destruct x, y; auto. Qed.
Lemma aux_same kd x y : fst x = fst y -> aux_agree m (snd x) (snd y) -> res_rel (@opt_same R) (train_aux c d kd x) (train_aux c d' kd y) /\ res_rel (@opt_same (stat R)) (eval_aux c d kd x) (eval_aux c d' kd y).
Proof.
  destruct x as (name, a), y as (name', a'). cbn [fst snd]. intros <- H. destruct a as [f|f|f|f|f|f|]; destruct a' as [g|g|g|g|g|g|]; cbn [aux_agree] in H; try discriminate H; try (injection H as <-); cbn [train_aux eval_aux].
  - split; [|cbn; repeat split; apply value_stat_same; intros r; apply aux_value_input_same].
    eapply bind_same; [apply res_rel_of, value_loss_same; intros r; apply aux_value_input_same|]. intros l l' Hl. cbn. repeat split; exact Hl.
  - assert (Hin : forall r, aux_policy_input c d kd f r = aux_policy_input c d' kd g r) by (intros r; apply aux_policy_input_same; apply H).
    destruct (policy_kind c); (split; [try (eapply bind_same; [apply res_rel_of, policy_loss_same; exact Hin|]; intros l l' Hl; cbn; repeat split; exact Hl)|]); try (cbn; exact Logic.I); cbn; repeat split; apply policy_stat_same; exact Hin.
  - split; cbn; repeat split.
  - split; cbn; repeat split.
  - destruct (aux_lambda c name); [|destruct (is_zero _)]; split; cbn; auto; repeat split; try (apply reg_same; exact H); apply reg_stat_same; exact H.
  - split; cbn; repeat split.
  - split; reflexivity.
Qed.
Lemma somes_same A (l l' : list (option (term R row A))) : Forall2 (@opt_same A) l l' -> Forall2 (@term_same A) (somes l) (somes l').
Proof. induction 1 as [|o o' l l' H HF IH]; [constructor|]. destruct o, o'; cbn in *; try contradiction; auto. Qed.
Lemma mapM_same A B (P : B -> B -> Prop) (f g : A -> res B) l l' : Forall2 (fun x y => res_rel P (f x) (g y)) l l' -> res_rel (Forall2 P) (mapM f l) (mapM g l').
Proof.
  induction 1 as [|x y l l' H HF IH]; [constructor|]. cbn [mapM]. eapply bind_same; [exact H|]. intros a b Hab. eapply bind_same; [exact IH|]. intros q q' Hq. cbn. constructor; assumption.
Qed.
Lemma aux_forall2 kd : Forall2 (fun x y => res_rel (@opt_same R) (train_aux c d kd x) (train_aux c d' kd y)) (auxiliaries d) (auxiliaries d')
  /\ Forall2 (fun x y => res_rel (@opt_same (stat R)) (eval_aux c d kd x) (eval_aux c d' kd y)) (auxiliaries d) (auxiliaries d').
Proof.
  destruct same as (_ & _ & _ & _ & _ & _ & _ & _ & _ & H). induction H as [|x y l l' (E & Ha) H (IH1 & IH2)]; [split; constructor|].
  destruct (aux_same kd E Ha). split; constructor; assumption.
Qed.
Lemma train_terms_same kd : res_rel (Forall2 (@term_same R)) (train_terms c d kd) (train_terms c d' kd).
Proof.
  destruct same as (_ & _ & E1 & E2 & E3 & E4 & Hp & Ht & Hk & H). unfold train_terms.
  eapply bind_same; [apply res_rel_of, value_loss_same; intros r; rewrite value_input_same; reflexivity|]. intros lv lv' Hv.
  apply bind_same with (P := fun f g => forall rows, f rows = g rows).
  { destruct (policy_kind c); try (apply res_rel_of, policy_loss_same; intros r; apply policy_input_same). cbn. reflexivity. }
  intros lp lp' Hlp. eapply bind_same; [apply mapM_same; exact (proj1 (aux_forall2 kd))|]. intros os os' Ho. cbn.
  constructor; [repeat split; exact Hv|]. constructor; [repeat split; exact Hlp|]. apply Forall2_app; [|apply somes_same; exact Ho].
  destruct (positive _); constructor; [|constructor]. repeat split. apply reg_same. exact Hp.
Qed.
Lemma eval_terms_same kd : res_rel (Forall2 (@term_same (stat R))) (eval_terms c d kd) (eval_terms c d' kd).
Proof.
  destruct same as (_ & _ & E1 & E2 & E3 & E4 & Hp & Ht & Hk & H). unfold eval_terms. eapply bind_same; [apply mapM_same; exact (proj2 (aux_forall2 kd))|]. intros os os' Ho. cbn.
  constructor; [repeat split; apply value_stat_same; intros r; rewrite value_input_same; reflexivity|]. constructor; [repeat split; apply policy_stat_same; intros r; apply policy_input_same|].
  apply Forall2_app; [|apply somes_same; exact Ho]. destruct (positive _); constructor; [|constructor]. repeat split. apply reg_stat_same. exact Hp.
Qed.
Lemma named_same A (ts ts' : list (term R row A)) rows : Forall2 (@term_same A) ts ts' -> named ts rows = named ts' rows.
Proof.
  intros H. unfold named. f_equal. induction H as [|t t' ts ts' (E1 & E2 & E3 & E4) H IH]; [reflexivity|]. cbn. rewrite E1, E4, IH. reflexivity.
Qed.
Lemma sum_terms_same ts ts' dep rows : Forall2 (@term_same R) ts ts' -> sum_terms ts dep rows = sum_terms ts' dep rows.
Proof.
  intros H. unfold sum_terms. generalize (@None R). induction H as [|t t' ts ts' (E1 & E2 & E3 & E4) H IH]; intros acc; [reflexivity|]. cbn [fold_left]. rewrite E2, E3, E4. apply IH.
Qed.
Lemma entries_same g ts ts' rows : Forall2 (@term_same (stat R)) ts ts' -> entries g ts rows = entries g ts' rows.
Proof. intros H. unfold entries. induction H as [|t t' ts ts' (E1 & E2 & E3 & E4) H IH]; [reflexivity|]. cbn. rewrite E3, E4, IH. reflexivity. Qed.
Lemma filter_same A p q (ts ts' : list (term R row A)) : (forall t t', term_same t t' -> p t = q t') -> Forall2 (@term_same A) ts ts' -> Forall2 (@term_same A) (filter p ts) (filter q ts').
Proof. intros Hp. induction 1 as [|t t' ts ts' H HF IH]; [constructor|]. cbn. rewrite (Hp _ _ H). destruct (q t'); auto. Qed.
Lemma losses_same kd rows : compute_supervised_losses c d kd rows = compute_supervised_losses c d' kd rows.
Proof.
  unfold compute_supervised_losses. pose proof (train_terms_same kd) as H. pose proof (train_terms_same false) as H0. destruct (train_terms c d kd) as [ts|], (train_terms c d' kd) as [ts'|]; cbn in H |- *; try contradiction; [|congruence].
  destruct kd.
  - destruct (train_terms c d false) as [us|], (train_terms c d' false) as [us'|]; cbn in H0 |- *; try contradiction; [|congruence].
    rewrite (sum_terms_same (Some true) rows H), (sum_terms_same (Some true) rows H0), (sum_terms_same (Some false) rows H0), (named_same rows H), (named_same rows H0). reflexivity.
  - rewrite (sum_terms_same None rows H), (named_same rows H). reflexivity.
Qed.
Lemma statistics_same kd batch : compute_supervised_loss_statistics c d kd batch = compute_supervised_loss_statistics c d' kd batch.
Proof.
  unfold compute_supervised_loss_statistics. pose proof (eval_terms_same kd) as H. pose proof (eval_terms_same false) as H0. destruct (eval_terms c d kd) as [ts|], (eval_terms c d' kd) as [ts'|]; cbn in H |- *; try contradiction; [|congruence].
  destruct kd.
  - destruct (eval_terms c d false) as [us|], (eval_terms c d' false) as [us'|]; cbn in H0 |- *; try contradiction; [|congruence].
    assert (Hd : forall t t' : term R row (stat R), term_same t t' -> t_dependent t = t_dependent t') by (intros t t' Q; apply Q).
    assert (Hn : forall t t' : term R row (stat R), term_same t t' -> negb (t_dependent t) = negb (t_dependent t')) by (intros t t' Q; rewrite (Hd _ _ Q); reflexivity).
    rewrite (named_same _ H), (named_same _ H0), (entries_same GKd _ (filter_same Hd H)), (entries_same GReal _ (filter_same Hd H0)), (entries_same GIndependent _ (filter_same Hn H0)). reflexivity.
  - rewrite (named_same _ H), (entries_same GAll _ H). reflexivity.
Qed.
End Hidden.

(** ** The total *)
Section Total.
Context {R : Type} {N : numbers R} {row : Type}.
Variables (ropp rinv : R -> R).
Hypothesis F : field_theory r0 r1 radd rmul rsub ropp rdiv rinv eq.
Add Field R_field5 : F.
Notation "x + y" := (radd x y). Notation "x * y" := (rmul x y). Notation "x - y" := (rsub x y). Notation "x / y" := (rdiv x y).
Variable c : config R.
Variable d : reading R row.

Lemma NoDup_front A (a b : list A) : NoDup (a ++ b) -> NoDup a.
Proof. intros H. apply NoDup_app_iff in H. apply H. Qed.
Definition part_of (t : term R row R) : part := {| p_name := t_name t; p_target := t_dependent t; p_weight := t_weight t |}.
Lemma aux_part kd na o : train_aux c d kd na = Ok o -> map part_of (somes [o]) = aux_parts c na.
Proof.
  destruct na as (name, a). destruct a as [f|f|f|f|f|f|]; cbn [train_aux aux_parts]; intros H; try discriminate H.
  - apply bind_Ok in H. destruct H as (l & _ & H). injection H as <-. reflexivity.
  - destruct (policy_kind c); try (apply bind_Ok in H; destruct H as (l & _ & H)); injection H as <-; reflexivity.
  - injection H as <-. reflexivity.
  - injection H as <-. reflexivity.
  - destruct (aux_lambda c name); [|destruct (is_zero _)]; injection H as <-; reflexivity.
  - injection H as <-. reflexivity.
Qed.
Lemma aux_partss kd l : forall os, mapM (train_aux c d kd) l = Ok os -> map part_of (somes os) = flat_map (aux_parts c) l.
Proof.
  induction l as [|na l IH]; intros os H; cbn [mapM] in H; [injection H as <-; reflexivity|].
  apply bind_Ok in H. destruct H as (o & Eo & H). apply bind_Ok in H. destruct H as (os1 & E1 & H). injection H as <-. cbn [flat_map]. rewrite <- (IH _ E1), <- (aux_part Eo). destruct o; reflexivity.
Qed.
Lemma parts_ok kd ts : train_terms c d kd = Ok ts -> map part_of ts = parts c d.
Proof.
  intros H. unfold train_terms in H. apply bind_Ok in H. destruct H as (lv & _ & H). apply bind_Ok in H. destruct H as (lp & _ & H). apply bind_Ok in H. destruct H as (os & Eo & H). injection H as <-.
  unfold parts, main_parts, reg_parts. cbn [map app]. unfold part_of at 1 2. cbn [t_name t_dependent t_weight]. rewrite map_app, (aux_partss Eo). unfold positive. do 3 f_equal. destruct (less r0 (policy_reg_lambda c)); reflexivity.
Qed.
Lemma dict_set_fresh A (m : dict A) k v : ~ List.In k (map fst m) -> dict_set m k v = m ++ [(k, v)].
Proof.
  induction m as [|(k', v') m IH]; intros H; [reflexivity|]. cbn in *. destruct (String.eqb_spec k' k) as [->|_]; [exfalso; auto|]. rewrite IH by auto. reflexivity.
Qed.
Lemma dict_update_fresh A l : forall m : dict A, NoDup (map fst m ++ map fst l) -> dict_update m l = m ++ l.
Proof.
  induction l as [|(k, v) l IH]; intros m H; [rewrite app_nil_r; reflexivity|]. cbn [map fst] in H. unfold dict_update in *. cbn [fold_left fst snd]. rewrite dict_set_fresh.
  - rewrite IH; [rewrite <- app_assoc; reflexivity|]. rewrite map_app, <- app_assoc. exact H.
  - apply NoDup_remove_2 in H. intros Hin. apply H. apply in_or_app. left. exact Hin.
Qed.
Lemma named_fresh A (ts : list (term R row A)) rows : NoDup (map (fun t => t_name t) ts) -> named ts rows = map (fun t => (t_name t, t_of t rows)) ts.
Proof. intros H. unfold named. apply dict_update_fresh. rewrite map_map. exact H. Qed.
Lemma reported_in losses k v : NoDup (map fst losses) -> List.In (k, v) losses -> reported losses k = v.
Proof.
  induction losses as [|(k', v') losses IH]; intros ND H; [destruct H|]. cbn in ND. inversion ND as [|? ? Ni ND']; subst. cbn. destruct H as [H|H].
  - injection H as -> ->. rewrite String.eqb_refl. reflexivity.
  - destruct (String.eqb_spec k' k) as [->|_]; [|auto]. exfalso. apply Ni. apply in_map_iff. exists (k, v). auto.
Qed.
Lemma weighted_terms prefix losses rows (ts : list (term R row R)) : (forall t, List.In t ts -> reported losses (String.append prefix (t_name t)) = t_of t rows) ->
  forall p q, (forall t, p (part_of t) = q t) -> weighted prefix losses (filter p (map part_of ts)) = rsum (map (fun t => t_weight t * t_of t rows) (filter q ts)).
Proof.
  intros H p q Hpq. unfold weighted. f_equal. rewrite (filter_map part_of p ts), map_map. rewrite (filter_ext _ _ Hpq). apply map_ext_in. intros t Ht. apply filter_In in Ht. destruct Ht as (Ht & _). cbn [part_of p_weight p_name]. rewrite (H t Ht). reflexivity.
Qed.
Lemma or_osum l : or_else (osum None l) r0 = rsum l.
Proof. rewrite (osum_none F). destruct l; reflexivity. Qed.
Lemma names_of (ts : list (term R row R)) : map p_name (map part_of ts) = map (fun t => t_name t) ts.
Proof. rewrite map_map. reflexivity. Qed.
Lemma filter_true A (l : list A) : filter (fun _ => true) l = l.
Proof. induction l as [|x l IH]; cbn; congruence. Qed.

Lemma plain_total rows total losses : distinct false (parts c d) -> compute_supervised_losses c d false rows = Ok (total, losses) ->
  map fst losses = map p_name (parts c d) ++ ["total_loss"%string] /\ reported losses "total_loss" = total /\ total = weighted "" losses (parts c d).
Proof.
  intros Di H. unfold compute_supervised_losses in H. apply bind_Ok in H. destruct H as (ts & Et & H). injection H as Etot El. pose proof (parts_ok Et) as Ep. unfold distinct in Di. rewrite <- Ep, names_of in Di. cbn [app] in Di.
  rewrite Etot in El.
  assert (Nn : NoDup (map (fun t => t_name t) ts)) by (apply NoDup_remove_1 in Di; rewrite app_nil_r in Di; exact Di).
  assert (Nt : ~ List.In "total_loss"%string (map fst (named ts rows))) by (rewrite (named_fresh rows Nn), map_map; apply NoDup_remove_2 in Di; rewrite app_nil_r in Di; exact Di).
  rewrite (dict_set_fresh total Nt), (named_fresh rows Nn) in El.
  assert (Ek : map fst losses = map (fun t => t_name t) ts ++ ["total_loss"%string]) by (rewrite <- El, map_app, map_map; reflexivity).
  assert (ND : NoDup (map fst losses)) by (rewrite Ek; exact Di).
  split; [rewrite Ek, <- Ep, names_of; reflexivity|]. split.
  - apply reported_in; [exact ND|]. rewrite <- El. apply in_or_app. right. left. reflexivity.
  - rewrite <- Ep. rewrite <- (filter_true (map part_of ts)). rewrite (@weighted_terms "" losses rows ts) with (q := fun _ => true); [|intros t Ht; apply reported_in; [exact ND|]; rewrite <- El; apply in_or_app; left; apply in_map_iff; exists t; auto|reflexivity].
    rewrite <- Etot, sum_terms_osum. apply or_osum.
Qed.
Lemma prefixed_map A (m : dict A) : prefixed m = map (fun e => (String.append "kd_" (fst e), snd e)) m.
Proof. unfold prefixed. apply map_ext. intros (k, v). reflexivity. Qed.
Lemma kd_total rows total losses : distinct true (parts c d) -> compute_supervised_losses c d true rows = Ok (total, losses) ->
  map fst losses = map p_name (parts c d) ++ map (fun p => String.append "kd_" (p_name p)) (parts c d) ++ ["total_loss"%string] /\ reported losses "total_loss" = total
  /\ total = kd_alpha c * (kd_T c * kd_T c) * weighted "kd_" losses (filter (fun p => p_target p) (parts c d))
             + (r1 - kd_alpha c) * weighted "" losses (filter (fun p => p_target p) (parts c d)) + weighted "" losses (filter (fun p => negb (p_target p)) (parts c d)).
Proof.
  intros Di H. unfold compute_supervised_losses in H. apply bind_Ok in H. destruct H as (ts & Et & H). apply bind_Ok in H. destruct H as (us & Eu & H). 
  remember (kd_alpha c * or_else (sum_terms ts (Some true) rows) r0 * (kd_T c * kd_T c) + (r1 - kd_alpha c) * or_else (sum_terms us (Some true) rows) r0) as base.
  cbv zeta in H. injection H as Etot El. rewrite Etot in El. pose proof (parts_ok Et) as Ep. pose proof (parts_ok Eu) as Ep'. unfold distinct in Di.
  rewrite <- Ep' in Di at 1. rewrite <- Ep in Di. rewrite names_of, map_map in Di. cbn [part_of p_name] in Di.
  assert (Nu : NoDup (map (fun t => t_name t) us)) by (apply NoDup_front in Di; exact Di).
  assert (Nts : NoDup (map (fun t => t_name t) ts)) by (rewrite <- names_of, Ep, <- Ep', names_of; exact Nu).
  assert (Ek1 : map fst (prefixed (named ts rows)) = map (fun t => String.append "kd_" (t_name t)) ts) by (rewrite (named_fresh rows Nts), prefixed_map, !map_map; reflexivity).
  assert (Eup : dict_update (named us rows) (prefixed (named ts rows)) = named us rows ++ prefixed (named ts rows)).
  { apply dict_update_fresh. rewrite Ek1, (named_fresh rows Nu), map_map. cbn [fst]. rewrite app_assoc in Di. apply NoDup_front in Di. exact Di. }
  rewrite Eup in El.
  assert (Ekk : map fst (named us rows ++ prefixed (named ts rows)) = map (fun t => t_name t) us ++ map (fun t => String.append "kd_" (t_name t)) ts) by (rewrite map_app, Ek1, (named_fresh rows Nu), map_map; reflexivity).
  rewrite dict_set_fresh in El by (rewrite Ekk; rewrite app_assoc in Di; apply NoDup_remove_2 in Di; rewrite app_nil_r in Di; exact Di).
  assert (Ek : map fst losses = map (fun t => t_name t) us ++ map (fun t => String.append "kd_" (t_name t)) ts ++ ["total_loss"%string]) by (rewrite <- El, map_app, Ekk, <- app_assoc; reflexivity).
  assert (ND : NoDup (map fst losses)) by (rewrite Ek; exact Di).
  assert (Eparts : parts c d = map part_of us) by (symmetry; exact Ep').
  split; [|split].
  - rewrite Ek. rewrite <- Ep' at 1. rewrite <- Ep, names_of, map_map. reflexivity.
  - apply reported_in; [exact ND|]. rewrite <- El. apply in_or_app. right. left. reflexivity.
  - assert (W1 : weighted "kd_" losses (filter (fun p => p_target p) (parts c d)) = or_else (sum_terms ts (Some true) rows) r0).
    { rewrite <- Ep, sum_terms_osum, or_osum. apply weighted_terms; [|intros t; cbn; destruct (t_dependent t); reflexivity]. intros t Ht. apply reported_in; [exact ND|]. rewrite <- El. apply in_or_app. left. apply in_or_app. right. rewrite (named_fresh rows Nts), prefixed_map, map_map. apply in_map_iff. exists t. auto. }
    assert (Hr : forall t, List.In t us -> reported losses (String.append "" (t_name t)) = t_of t rows).
    { intros t Ht. apply reported_in; [exact ND|]. rewrite <- El. apply in_or_app. left. apply in_or_app. left. rewrite (named_fresh rows Nu). apply in_map_iff. exists t. auto. }
    assert (W2 : weighted "" losses (filter (fun p => p_target p) (parts c d)) = or_else (sum_terms us (Some true) rows) r0).
    { rewrite <- Ep', sum_terms_osum, or_osum. apply weighted_terms; [exact Hr|intros t; cbn; destruct (t_dependent t); reflexivity]. }
    assert (W3 : weighted "" losses (filter (fun p => negb (p_target p)) (parts c d)) = or_else (sum_terms us (Some false) rows) r0).
    { rewrite <- Ep', sum_terms_osum, or_osum. apply weighted_terms; [exact Hr|intros t; cbn; destruct (t_dependent t); reflexivity]. }
    rewrite W1, W2, W3, <- Etot, Heqbase. destruct (sum_terms us (Some false) rows) as [i|]; cbn [or_else]; ring.
Qed.
Lemma alpha_zero rows total losses total' losses' : kd_alpha c = r0 -> compute_supervised_losses c d true rows = Ok (total, losses) -> compute_supervised_losses c d false rows = Ok (total', losses') -> total = total'.
Proof.
  intros Ea H H'. unfold compute_supervised_losses in H, H'. apply bind_Ok in H. destruct H as (ts & Et & H). apply bind_Ok in H. destruct H as (us & Eu & H). rewrite Eu in H'. cbn [bind] in H'. injection H' as E' _. cbv zeta in H. injection H as E _.
  rewrite <- E, <- E', Ea. rewrite !sum_terms_osum, !or_osum, filter_true.
  rewrite <- (rsum_split F (fun t => t_weight t * t_of t rows) (fun t => Bool.eqb (t_dependent t) true) us).
  assert (En : filter (fun t => negb (Bool.eqb (t_dependent t) true)) us = filter (fun t => Bool.eqb (t_dependent t) false) us) by (apply filter_ext; intros t; destruct (t_dependent t); reflexivity).
  rewrite En, <- (or_osum (map _ (filter (fun t => Bool.eqb (t_dependent t) false) us))). destruct (osum None (map _ (filter (fun t => Bool.eqb (t_dependent t) false) us))); cbn [or_else]; ring.
Qed.
End Total.
