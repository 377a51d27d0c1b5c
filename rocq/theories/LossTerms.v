(** What training computes is what validation computes, term by term, for C67. *)
From Coq Require Import String Field_theory Field Ring.
From Verif Require Import Base BaseFacts DecoderFacts Loss LossSpec LossFacts.
Set Implicit Arguments. Unset Strict Implicit.

Section Terms.
Context {R : Type} {N : numbers R} {row : Type}.
Variables (ropp rinv : R -> R).
Hypothesis F : field_theory r0 r1 radd rmul rsub ropp rdiv rinv eq.
Add Field R_field2 : F.
Notation "x + y" := (radd x y). Notation "x * y" := (rmul x y). Notation "x - y" := (rsub x y). Notation "x / y" := (rdiv x y).
Hypothesis char0 : forall n, n <> 0%nat -> inj n <> r0.
Hypothesis constant : forall x, too_far x r0 = false.
Hypothesis softmax_length : forall l : list R, List.length (softmax l) = List.length l.
Variable c : config R.
Variable d : reading R row.
Variable n : nat.
Hypothesis n_pos : (0 < n)%nat.
Definition good (rows : list row) : Prop := rows <> [] /\ forall r, List.In r rows -> on_board d n r.
Notation corr := (corr good).

Lemma mean_stat l : l <> [] -> finalize_stat (sum_count l) = Ok (mean l).
Proof. intros H. destruct l as [|x l]; [contradiction|]. reflexivity. Qed.
Lemma sum_count_add l m : combine_stat (sum_count l) (sum_count m) = Ok (sum_count (l ++ m)).
Proof. unfold sum_count. cbn. rewrite (rsum_app F), app_length. reflexivity. Qed.
Lemma map_not_nil A B (f : A -> B) l : l <> [] -> map f l <> [].
Proof. destruct l; [contradiction|discriminate]. Qed.
Lemma masked_fill_length (x : R) mask : forall l, List.length mask = List.length l -> List.length (masked_fill x mask l) = List.length l.
Proof. induction mask as [|b mask IH]; intros [|y l] H; cbn in *; try discriminate H; [reflexivity|]. rewrite IH; congruence. Qed.
Lemma fill_length x r l : on_board d n r -> List.length l = n -> List.length (fill d x r l) = n.
Proof. intros (_ & _ & _ & _ & Hm & _) H. unfold fill. destruct (board_mask d) as [m|]; [|exact H]. destruct (Hm m eq_refl) as (E & _). rewrite masked_fill_length; congruence. Qed.
Lemma zip2_length A B C (f : A -> B -> C) l m : List.length (zip2 f l m) = Nat.min (List.length l) (List.length m).
Proof. unfold zip2. rewrite map_length. apply combine_length. Qed.
Lemma over_T_length l : List.length (over_T c l) = List.length l.
Proof. apply map_length. Qed.

Lemma value_corr name w k pair f : value_loss c k pair = Ok f ->
  corr {| t_name := name; t_of := f; t_dependent := true; t_weight := w |} {| t_name := name; t_of := value_loss_stat c k pair; t_dependent := true; t_weight := w |}.
Proof.
  intros H. assert (Hg : forall (g : row -> R) rows, rows <> [] -> finalize_stat (sum_count (map g rows)) = Ok (mean (map g rows))) by (intros g rows Nr; apply mean_stat; apply map_not_nil; exact Nr).
  constructor; cbn [t_name t_dependent t_weight t_of]; try reflexivity.
  - intros a b. unfold value_loss_stat. destruct k; cbv zeta; rewrite sum_count_add, <- map_app; reflexivity.
  - intros rows (Nr & _). destruct k; cbn [value_loss] in H; try discriminate H; injection H as <-; cbn [value_loss_stat]; apply Hg; exact Nr.
Qed.
Definition planar (pair : row -> list R * list R) : Prop := forall r, on_board d n r -> List.length (fst (pair r)) = n /\ List.length (snd (pair r)) = n.
Lemma weight_length r w : on_board d n r -> policy_weight c d r = Some w -> List.length w = n.
Proof. intros (_ & _ & _ & Hf & _) H. unfold policy_weight in H. destruct (ignore_forbidden c); [|discriminate H]. injection H as <-. rewrite map_length. exact Hf. Qed.
Lemma cells_not_nil (e : row -> list R) rows : good rows -> (forall r, on_board d n r -> List.length (e r) = n) -> flat_map e rows <> [].
Proof.
  intros (Nr & H) He. destruct rows as [|r rows]; [contradiction|]. cbn. pose proof (He r (H r (or_introl eq_refl))) as E. destruct (e r); [cbn in E; lia|discriminate].
Qed.
Lemma policy_corr name w k pair f : policy_loss c d k pair = Ok f -> planar pair ->
  corr {| t_name := name; t_of := f; t_dependent := true; t_weight := w |} {| t_name := name; t_of := policy_loss_stat c d k pair; t_dependent := true; t_weight := w |}.
Proof.
  intros H Pl. constructor; cbn [t_name t_dependent t_weight t_of]; try reflexivity.
  - intros a b. unfold policy_loss_stat. destruct k; cbv zeta; try (rewrite sum_count_add, <- flat_map_app; reflexivity); cbn [combine_stat]; rewrite ?map_app, ?flat_map_app, (rsum_app F), app_length; try reflexivity. f_equal. f_equal. ring.
  - intros rows G. destruct k; cbn [policy_loss] in H; try discriminate H; injection H as <-; cbn [policy_loss_stat].
    + rewrite <- (map_length (fun r => soft_ce true r0 (fst (pair r)) (snd (pair r)) (policy_weight c d r)) rows). apply mean_stat. apply map_not_nil. apply G.
    + rewrite <- (map_length (fun r => soft_ce false (policy_gamma c) (fst (pair r)) (snd (pair r)) (policy_weight c d r)) rows). apply mean_stat. apply map_not_nil. apply G.
    + cbv zeta. apply mean_stat. apply cells_not_nil; [exact G|]. intros r Hr. destruct (Pl r Hr) as (E1 & E2).
      destruct (policy_weight c d r) as [w'|] eqn:Ew; rewrite !zip2_length, softmax_length, E1, E2, ?(weight_length Hr Ew); lia.
Qed.
Lemma none_corr name w pair :
  corr {| t_name := name; t_of := fun _ => r0; t_dependent := true; t_weight := w |} {| t_name := name; t_of := policy_loss_stat c d NONE pair; t_dependent := true; t_weight := w |}.
Proof.
  constructor; cbn [t_name t_dependent t_weight t_of]; try reflexivity.
  - intros a b. cbn [policy_loss_stat combine_stat]. rewrite flat_map_app, (rsum_app F), app_length. f_equal. f_equal. ring.
  - intros rows (Nr & _). cbn [policy_loss_stat finalize_stat]. destruct rows as [|r rows]; [contradiction|]. cbn [List.length Nat.eqb negb]. f_equal. assert (E : inj (S (List.length rows)) <> r0) by (apply char0; discriminate). field. exact E.
Qed.
Lemma sum_bits l : rsum (map (fun b : bool => if b then r1 else r0) l) = inj (List.length (filter (fun b => b) l)).
Proof. induction l as [|b l IH]; [reflexivity|]. cbn [map rsum filter]. rewrite IH. destruct b; cbn [List.length inj]; ring. Qed.
Lemma map_flat_map A B C (f : B -> C) (g : A -> list B) l : map f (flat_map g l) = flat_map (fun x => map f (g x)) l.
Proof. induction l as [|x l IH]; cbn; [reflexivity|]. rewrite map_app, IH. reflexivity. Qed.
Lemma reg_corr name w f : (forall r, on_board d n r -> List.length (f r) = n) ->
  corr {| t_name := name; t_of := policy_reg_loss d f; t_dependent := false; t_weight := w |} {| t_name := name; t_of := policy_regularizer_stat d f; t_dependent := false; t_weight := w |}.
Proof.
  intros Hf. constructor; cbn [t_name t_dependent t_weight t_of]; try reflexivity.
  - intros a b. unfold policy_regularizer_stat. destruct (board_mask d); cbn [combine_stat]; rewrite !flat_map_app, (rsum_app F), ?filter_app, app_length; reflexivity.
  - intros rows G. unfold policy_regularizer_stat, policy_reg_loss. destruct (board_mask d) as [m|] eqn:Em.
    + cbn [finalize_stat]. destruct G as (Nr & G). destruct rows as [|r rows]; [contradiction|].
      assert (Hl : List.length (filter (fun b : bool => b) (flat_map m (r :: rows))) <> 0%nat).
      { destruct (G r (or_introl eq_refl)) as (_ & _ & _ & _ & Hm & _). destruct (Hm m Em) as (_ & Ht). intros E. apply length_zero_iff_nil in E.
        assert (Hin : List.In true (filter (fun b : bool => b) (flat_map m (r :: rows)))) by (apply filter_In; split; [cbn; apply in_or_app; left; exact Ht|reflexivity]). rewrite E in Hin. exact Hin. }
      destruct (Nat.eqb_spec (List.length (filter (fun b : bool => b) (flat_map m (r :: rows)))) 0) as [E|_]; [contradiction|]. cbn [negb]. f_equal. f_equal.
      unfold bit. rewrite <- (map_flat_map (fun b : bool => if b then r1 else r0)), sum_bits. reflexivity.
    + cbn [finalize_stat]. pose proof (cells_not_nil G Hf) as Nc. unfold mean. destruct (flat_map f rows) as [|x l]; [contradiction|]. reflexivity.
Qed.
Lemma pointwise_corr name w f :
  corr {| t_name := name; t_of := fun rows => mean (map f rows); t_dependent := false; t_weight := w |} {| t_name := name; t_of := fun rows => sum_count (map f rows); t_dependent := false; t_weight := w |}.
Proof.
  constructor; cbn [t_name t_dependent t_weight t_of]; try reflexivity.
  - intros a b. rewrite sum_count_add, <- map_app. reflexivity.
  - intros rows (Nr & _). apply mean_stat. apply map_not_nil. exact Nr.
Qed.

Lemma policy_input_planar kd : planar (policy_input c d kd).
Proof.
  intros r Hr. pose proof Hr as (H1 & H2 & H3 & _). unfold policy_input, prepare_policy. destruct kd; cbn [fst snd]; rewrite ?over_T_length; split; repeat (apply fill_length; [exact Hr|]); rewrite ?softmax_length, ?over_T_length; repeat (apply fill_length; [exact Hr|]); assumption.
Qed.
Lemma aux_policy_planar kd name f : List.In (name, APolicy f) (auxiliaries d) -> planar (aux_policy_input c d kd f).
Proof.
  intros Hin r Hr. pose proof Hr as (_ & _ & _ & _ & _ & Ha). pose proof (policy_input_planar kd Hr) as (_ & E2). pose proof (Ha name f (or_introl Hin)) as Ef.
  unfold aux_policy_input, prepare_policy. destruct kd; cbn [fst snd]; rewrite ?over_T_length; split; apply fill_length; assumption.
Qed.

Hypothesis predefined : all_predefined d.
Lemma aux_corr kd na o : List.In na (auxiliaries d) -> train_aux c d kd na = Ok o -> exists o', eval_aux c d kd na = Ok o' /\ match o, o' with Some t, Some u => corr t u | None, None => True | _, _ => False end.
Proof.
  destruct na as (name, a). intros Hin H. destruct a as [f|f|f|f|f|f|]; cbn [train_aux eval_aux] in *.
  - apply bind_Ok in H. destruct H as (l & El & H). injection H as <-. eexists. split; [reflexivity|]. apply value_corr. exact El.
  - destruct (policy_kind c) eqn:Ek; try (apply bind_Ok in H; destruct H as (l & El & H); injection H as <-; eexists; split; [reflexivity|]; apply policy_corr; [exact El|]; eapply aux_policy_planar; exact Hin).
    injection H as <-. eexists. split; [reflexivity|]. exact Logic.I.
  - injection H as <-. eexists. split; [reflexivity|]. apply (pointwise_corr _ _ (fun r => let '(u, v, t) := f r in huber u (uncertainty_gt v t))).
  - injection H as <-. eexists. split; [reflexivity|]. apply (pointwise_corr _ _ (fun r => let '(u, s, l, t) := f r in square (u - relative_gt s l t))).
  - assert (Hf : forall r, on_board d n r -> List.length (f r) = n) by (intros r (_ & _ & _ & _ & _ & Ha); apply (Ha name f); right; exact Hin).
    destruct (aux_lambda c name) as [w|]; [injection H as <-; eexists; split; [reflexivity|]; apply reg_corr; exact Hf|].
    destruct (is_zero (policy_reg_lambda c)); injection H as <-; eexists; (split; [reflexivity|]); [exact Logic.I|apply reg_corr; exact Hf].
  - destruct (predefined Hin).
  - discriminate H.
Qed.
Lemma auxs_corr kd l os : incl l (auxiliaries d) -> mapM (train_aux c d kd) l = Ok os -> exists os', mapM (eval_aux c d kd) l = Ok os' /\ Forall2 corr (somes os) (somes os').
Proof.
  revert os. induction l as [|na l IH]; intros os Hi H; cbn [mapM] in *; [injection H as <-; exists []; split; [reflexivity|constructor]|].
  apply bind_Ok in H. destruct H as (o & Eo & H). apply bind_Ok in H. destruct H as (os1 & E1 & H). injection H as <-.
  destruct (aux_corr (Hi na (or_introl eq_refl)) Eo) as (o' & Eo' & Ho). destruct (IH os1 (fun x Hx => Hi x (or_intror Hx)) E1) as (os1' & E1' & H1).
  exists (o' :: os1'). rewrite Eo'. cbn [bind]. rewrite E1'. split; [reflexivity|]. destruct o, o'; cbn [somes]; try contradiction; [constructor|]; assumption.
Qed.
Lemma terms_corr kd ts : train_terms c d kd = Ok ts -> exists us, eval_terms c d kd = Ok us /\ Forall2 corr ts us.
Proof.
  intros H. unfold train_terms in H. apply bind_Ok in H. destruct H as (lv & Ev & H). apply bind_Ok in H. destruct H as (lp & Ep & H). apply bind_Ok in H. destruct H as (auxs & Ea & H). injection H as <-.
  destruct (auxs_corr (incl_refl _) Ea) as (os' & Eo & Ho). unfold eval_terms. rewrite Eo. eexists. split; [reflexivity|].
  constructor; [apply value_corr; exact Ev|]. constructor.
  { destruct (policy_kind c) eqn:Ek; try (apply policy_corr; [exact Ep|apply policy_input_planar]). injection Ep as <-. apply none_corr. }
  apply Forall2_app; [|exact Ho]. destruct (positive _); constructor; [|constructor]. apply reg_corr. intros r (Hp & _). exact Hp.
Qed.
End Terms.
