(** C67, C68, C69: the supervised loss.  What validation reports is what training would report for the real rows of the global batch taken
    together; what is outside the board has no influence; the total is the sum of the reported losses with their weights. *)
From Coq Require Import String Field_theory Field.
From Coq Require Import QArith Qcanon.
From Verif Require Import Base BaseFacts Loss LossSpec LossFacts LossTerms LossWhole LossMore.
Set Implicit Arguments. Unset Strict Implicit.

Section C67.
Context {R : Type} {N : numbers R} {row : Type}.
Variable c : config R.
Variable d : reading R row.

(** For every split of rows into the batches of the ranks and every padding: if training on the real rows succeeds, validation succeeds and
    reports the same losses under the same names, the total included, with or without a teacher. *)
Theorem C67_validation_reports_the_training_loss n (ranks : list (list (bool * row))) (kd : bool) total losses :
  exact_arithmetic -> (0 < n)%nat -> all_predefined d ->
  let rows := flat_map (fun batch => map snd (filter fst batch)) ranks in
  rows <> [] -> (forall r, List.In r rows -> on_board d n r) ->
  compute_supervised_losses c d kd rows = Ok (total, losses) -> validate c d kd ranks = Ok losses.
Proof.
  intros ((ropp & rinv & F) & Ch & Ex & Sl) Np Pre rows Nr On H.
  assert (G : good d n rows) by (split; assumption).
  assert (K : exists m, (forall batch, compute_supervised_loss_statistics c d kd batch = Ok (at_ 1 (real_rows batch) m)) /\ dict_rel (settles rows) m losses).
  { unfold compute_supervised_losses in H. apply bind_Ok in H. destruct H as (ts & Et & H). destruct (terms_corr F Ch Ex Sl Np Pre Et) as (us & Eu & Hu). destruct kd.
    - apply bind_Ok in H. destruct H as (rts & Er & H). destruct (terms_corr F Ch Ex Sl Np Pre Er) as (real & Ereal & Hreal). cbv zeta in H. injection H as Et' El.
      assert (Sd : forall l, train_terms c d true = Ok l \/ train_terms c d false = Ok l -> exists v, sum_terms l (Some true) rows = Some v).
      { intros l [E|E]; unfold train_terms in E; apply bind_Ok in E; destruct E as (lv & _ & E); apply bind_Ok in E; destruct E as (lp & _ & E); apply bind_Ok in E; destruct E as (os & _ & E); injection E as <-; rewrite sum_terms_osum; cbn [filter app t_dependent Bool.eqb map]; rewrite (osum_none F); eexists; reflexivity. }
      destruct (Sd ts (or_introl Et)) as (a & Ea). destruct (Sd rts (or_intror Er)) as (b & Eb).
      exists (kd_family_of c us real). split; [intros batch; apply (kd_statistics_at F); assumption|]. rewrite <- El. unfold kd_family_of. apply dict_set_rel.
      + apply dict_update_rel; [apply prefixed_rel|]; apply named_settles with (good := good d n); assumption.
      + rewrite Ea, Eb. cbn [or_else].
        pose proof (kd_total_settles F Ch Ex c G Hu Hreal Ea Eb (i := or_else (sum_terms rts (Some false) rows) r0) eq_refl) as S1.
        destruct (sum_terms rts (Some false) rows) as [i|]; cbn [or_else] in S1; [exact S1|].
        assert (Z0 : forall x, radd x r0 = x) by (intros x; rewrite (Radd_comm (F_R F)); apply (Radd_0_l (F_R F))). rewrite Z0 in S1. exact S1.
    - cbv zeta in H. injection H as Et' El. exists (family_of us). split; [intros batch; apply (statistics_at F); assumption|]. rewrite <- El. unfold family_of. apply dict_set_rel.
      + apply named_settles with (good := good d n); assumption.
      + apply (total_settles F Ch Ex G Hu). unfold train_terms in Et. apply bind_Ok in Et. destruct Et as (lv & _ & E). apply bind_Ok in E. destruct E as (lp & _ & E). apply bind_Ok in E. destruct E as (os & _ & E). injection E as <-.
        rewrite sum_terms_osum. cbn [filter app map]. rewrite (osum_none F). reflexivity. }
  destruct K as (m & Hm & Hs). destruct (settles_all Hs) as (Ad & Fin).
  unfold validate. assert (E : mapM (compute_supervised_loss_statistics c d kd) ranks = Ok (map (fun r => at_ 1 r m) (map real_rows ranks))).
  { clear - Hm. induction ranks as [|b ranks IH]; [reflexivity|]. cbn [mapM map]. rewrite Hm. cbn [bind]. rewrite IH. reflexivity. }
  rewrite E. cbn [bind]. destruct ranks as [|b ranks]; [contradiction|]. cbn [map].
  rewrite (combine_all_at Ad (map real_rows ranks) 1 (real_rows b)). cbn [bind].
  assert (Er : (real_rows b ++ List.concat (map real_rows ranks))%list = rows) by (unfold rows, real_rows; cbn [flat_map]; rewrite flat_map_concat_map; reflexivity).
  rewrite Er. apply Fin. lia.
Qed.
(** So neither the split nor the padding shows. *)
Theorem C67_neither_split_nor_padding_shows n (ranks ranks' : list (list (bool * row))) (kd : bool) total losses :
  exact_arithmetic -> (0 < n)%nat -> all_predefined d ->
  let rows_of ranks := flat_map (fun batch : list (bool * row) => map snd (filter fst batch)) ranks in
  rows_of ranks <> [] -> (forall r, List.In r (rows_of ranks) -> on_board d n r) -> rows_of ranks = rows_of ranks' ->
  compute_supervised_losses c d kd (rows_of ranks) = Ok (total, losses) -> validate c d kd ranks' = validate c d kd ranks.
Proof.
  intros Ex Np Pre rows_of Nr On E H. rewrite (C67_validation_reports_the_training_loss Ex Np Pre Nr On H).
  unfold rows_of in *. rewrite E in Nr, On, H. exact (C67_validation_reports_the_training_loss Ex Np Pre Nr On H).
Qed.
(** F44: a model with an auxiliary loss that is a plain tensor cannot be validated at all. *)
Theorem C67_a_plain_tensor_cannot_be_validated (kd : bool) name f batch (ranks : list (list (bool * row))) :
  List.In (name, ATensor f) (auxiliaries d) -> validate c d kd (batch :: ranks) = Err ValueError.
Proof.
  intros Hin. assert (E : forall kd, eval_terms c d kd = Err ValueError).
  { intros k. unfold eval_terms. assert (M : mapM (eval_aux c d k) (auxiliaries d) = Err ValueError).
    { assert (P : forall na, eval_aux c d k na = Err ValueError \/ exists o, eval_aux c d k na = Ok o).
      { intros (nm, a). destruct a; cbn [eval_aux]; auto; try (right; eexists; reflexivity); [right; destruct (policy_kind c); eexists; reflexivity|right; destruct (aux_lambda c nm); [|destruct (is_zero _)]; eexists; reflexivity]. }
      revert Hin. induction (auxiliaries d) as [|na l IH]; intros H; [destruct H|]. cbn [mapM]. destruct (P na) as [Ep|(o & Ep)]; rewrite Ep; [reflexivity|]. cbn [bind]. destruct H as [->|H]; [cbn in Ep; discriminate Ep|]. rewrite (IH H). reflexivity. }
    rewrite M. reflexivity. }
  unfold validate. cbn [mapM]. unfold compute_supervised_loss_statistics at 1. rewrite E. reflexivity.
Qed.
(** F45: a value loss that training rejects as unknown. *)
Theorem C67_an_unknown_value_loss_cannot_be_trained (kd : bool) rows :
  value_kind c = NONE \/ value_kind c = Other -> compute_supervised_losses c d kd rows = Err KeyError.
Proof. intros H. unfold compute_supervised_losses, train_terms. destruct H as [->| ->]; reflexivity. Qed.
End C67.

Section C68.
Context {R : Type} {N : numbers R} {row : Type}.
(** C68: two readings of the same rows that differ only outside the board have the same losses, the same statistics and the same errors. *)
Theorem C68_outside_the_board_does_not_matter (c : config R) (m : row -> list bool) (d d' : reading R row) (kd : bool) :
  exact_arithmetic -> same_on_board m d d' ->
  (forall rows, compute_supervised_losses c d kd rows = compute_supervised_losses c d' kd rows)
  /\ (forall ranks, validate c d kd ranks = validate c d' kd ranks).
Proof.
  intros ((ropp & rinv & F) & _) S1. split; [intros rows; exact (losses_same F c S1 kd rows)|].
  intros ranks. unfold validate. f_equal. induction ranks as [|b ranks IH]; [reflexivity|]. cbn [mapM]. rewrite (statistics_same F c S1 kd b). rewrite IH. reflexivity.
Qed.
End C68.

Section C69.
Context {R : Type} {N : numbers R} {row : Type}.
Variable c : config R.
Variable d : reading R row.
Notation "x + y" := (radd x y). Notation "x * y" := (rmul x y). Notation "x - y" := (rsub x y).
(** C69: without a teacher the total is the sum of the reported losses, each with its weight. *)
Theorem C69_the_total rows total losses : exact_arithmetic -> distinct false (parts c d) -> compute_supervised_losses c d false rows = Ok (total, losses) ->
  map fst losses = (map p_name (parts c d) ++ ["total_loss"%string])%list /\ reported losses "total_loss" = total
  /\ total = weighted "" losses (parts c d).
Proof. intros ((ropp & rinv & F) & _). exact (@plain_total _ _ _ _ _ F c d rows total losses). Qed.
(** With a teacher: what compares with the teacher counts alpha T^2, what compares with the data 1 - alpha, and what compares with neither counts once. *)
Theorem C69_the_total_with_a_teacher rows total losses : exact_arithmetic -> distinct true (parts c d) -> compute_supervised_losses c d true rows = Ok (total, losses) ->
  map fst losses = (map p_name (parts c d) ++ map (fun p => String.append "kd_" (p_name p)) (parts c d) ++ ["total_loss"%string])%list
  /\ reported losses "total_loss" = total
  /\ total = kd_alpha c * (kd_T c * kd_T c) * weighted "kd_" losses (filter (fun p => p_target p) (parts c d))
             + (r1 - kd_alpha c) * weighted "" losses (filter (fun p => p_target p) (parts c d))
             + weighted "" losses (filter (fun p => negb (p_target p)) (parts c d)).
Proof. intros ((ropp & rinv & F) & _). exact (@kd_total _ _ _ _ _ F c d rows total losses). Qed.
(** With alpha = 0 the teacher does not count. *)
Theorem C69_alpha_zero rows total losses total' losses' : exact_arithmetic -> kd_alpha c = r0 ->
  compute_supervised_losses c d true rows = Ok (total, losses) -> compute_supervised_losses c d false rows = Ok (total', losses') -> total = total'.
Proof. intros ((ropp & rinv & F) & _). exact (@alpha_zero _ _ _ _ _ F c d rows total losses total' losses'). Qed.
End C69.

(** ** A case: rational numbers, boards of three cells, three rows on two ranks with padding *)
Section Case.
Local Open Scope Qc_scope.
Definition case_softmax (l : list Qc) : list Qc := map (fun x => x * (1 + 1)) l.
Definition case_ce (kl : bool) (g : Qc) (p t : list Qc) (w : option (list Qc)) : Qc :=
  fold_right Qcplus (if kl then 0 else g) (zip2 Qcmult (zip2 Qcmult p t) (match w with Some w => w | None => map (fun _ => 1) p end)).
Global Instance case_numbers : numbers Qc := {
  r0 := 0; r1 := 1; radd := Qcplus; rmul := Qcmult; rsub := Qcminus; rdiv := Qcdiv; softmax := case_softmax; sigmoid := fun x => x / (1 + 1);
  soft_ce := case_ce; soft_bce := fun _ g v t => g + (v - t) * (v - t); huber := fun x y => (x - y) * (x - y);
  less := fun x y => match (x ?= y) with Lt => true | _ => false end; is_zero := fun x => if Qc_eq_dec x 0 then true else false;
  too_far := fun _ v => if Qc_eq_dec v 0 then false else true; floor_logit := - Q2Qc 1000000
}.
Definition q (z : Z) : Qc := Q2Qc (inject_Z z).
Definition case_row : Type := nat.
Definition case_mask (r : case_row) : list bool := [true; Nat.even r; true].
Definition case_reading (junk : Z) : reading Qc case_row := {|
  value_of := fun r => [q (Z.of_nat r); q 2; q 1]; policy_of := fun r => [q 1; if Nat.even r then q 5 else q junk; q (Z.of_nat r)];
  board_mask := Some case_mask; value_target := fun r => [q 1; q 0; q 0]; policy_target := fun r => [q 0; if Nat.even r then q 1 else q junk; q 1];
  teacher_value := fun r => [q 3; q 1; q 0]; teacher_policy := fun r => [q 2; if Nat.even r then q 4 else q junk; q (Z.of_nat r)];
  forbidden := fun r => [false; false; Nat.even r];
  auxiliaries := [("side"%string, AValue (fun r => [q (Z.of_nat r)])); ("pol"%string, APolicy (fun r => [q 1; q 1; q 2])); ("unc"%string, AUncertainty (fun r => (q 1, [q 1; q 0; q 0], [q 0; q 1; q 0]))); ("reg"%string, AReg (fun r => [q 1; q 2; q (Z.of_nat r)]))]
|}.
Definition case_config (v p : kind) (alpha : Qc) : config Qc := {|
  value_kind := v; policy_kind := p; value_gamma := q 1; policy_gamma := q 2; ignore_forbidden := true; policy_reg_lambda := q 3; value_policy_ratio := q 2;
  aux_lambda := fun s => if String.eqb s "reg" then Some (q 5) else None; kd_T := q 2; kd_alpha := alpha |}.
Definition case_ranks : list (list (bool * case_row)) := [[(true, 1%nat); (true, 2%nat)]; [(true, 3%nat); (false, 77%nat)]].
Lemma Qc_inj n : exists m : Z, (inj n = Q2Qc (inject_Z m)) /\ (m = Z.of_nat n)%Z.
Proof.
  exists (Z.of_nat n). split; [|reflexivity]. induction n as [|n IH]; [reflexivity|]. cbn [inj]. rewrite IH. cbn [radd r1 case_numbers]. rewrite Nat2Z.inj_succ. unfold Z.succ. apply Qc_is_canon. unfold Qcplus, Q2Qc. cbn [this]. rewrite !Qred_correct. rewrite inject_Z_plus. reflexivity.
Qed.
Example case_exact : exact_arithmetic (R := Qc).
Proof.
  split; [exists Qcopp, Qcinv; exact Qcft|]. split; [|split].
  - intros n Hn E. destruct (Qc_inj n) as (m & Em & ->). rewrite Em in E. assert (Qe : (inject_Z (Z.of_nat n) == 0)%Q) by (pose proof (Qred_correct (inject_Z (Z.of_nat n))) as Er; change (this (Q2Qc (inject_Z (Z.of_nat n))) == inject_Z (Z.of_nat n))%Q in Er; rewrite E in Er; rewrite <- Er; reflexivity). unfold Qeq in Qe. cbn in Qe. lia.
  - intros x. cbn. destruct (Qc_eq_dec 0 0); [reflexivity|contradiction].
  - intros l. apply map_length.
Qed.
Example case_predefined junk : all_predefined (case_reading junk).
Proof. intros name f H. cbn in H. destruct H as [H|[H|[H|[H|[]]]]]; discriminate H. Qed.
Example case_on_board junk r : on_board (case_reading junk) 3 r.
Proof.
  split; [reflexivity|]. split; [reflexivity|]. split; [reflexivity|]. split; [reflexivity|]. split.
  - intros m Hm. injection Hm as <-. split; [reflexivity|left; reflexivity].
  - intros name f [H|H]; cbn in H; destruct H as [H|[H|[H|[H|[]]]]]; try discriminate H; injection H as _ <-; reflexivity.
Qed.
Example case_trains : forall kd, exists total losses, compute_supervised_losses (case_config CE MSE (Q2Qc (1 # 2))) (case_reading 9) kd [1; 2; 3]%nat = Ok (total, losses).
Proof. intros []; eexists; eexists; vm_compute; reflexivity. Qed.
Example case_c67 : forall kd, exists total losses, compute_supervised_losses (case_config CE MSE (Q2Qc (1 # 2))) (case_reading 9) kd [1; 2; 3]%nat = Ok (total, losses)
  /\ validate (case_config CE MSE (Q2Qc (1 # 2))) (case_reading 9) kd case_ranks = Ok losses.
Proof.
  intros kd. destruct (case_trains kd) as (total & losses & E). exists total, losses. split; [exact E|].
  exact (@C67_validation_reports_the_training_loss Qc _ case_row _ (case_reading 9) 3 case_ranks kd total losses case_exact (le_n_S _ _ (Nat.le_0_l 2)) (@case_predefined 9) ltac:(discriminate) (fun r _ => case_on_board 9 r) E).
Qed.
Example case_c68 : same_on_board case_mask (case_reading 9) (case_reading 1234).
Proof.
  assert (A : forall (r : case_row) x y z z', z = z' \/ Nat.even r = false -> agree_on (R := Qc) (case_mask r) [x; z; y] [x; z'; y]).
  { intros r x y z z' [->|E]; (split; [reflexivity|]); intros i Hi; [reflexivity|]. unfold case_mask in Hi. rewrite E in Hi. destruct i as [|[|[|i]]]; cbn in *; congruence. }
  do 6 (split; [reflexivity|]). split; [|split; [|split]].
  1, 2, 3: intros r; cbn [policy_of policy_target teacher_policy case_reading]; apply A; destruct (Nat.even r) eqn:E; auto.
  cbn [auxiliaries case_reading]. constructor; [split; reflexivity|]. constructor; [split; [reflexivity|intros r; apply A; auto]|]. constructor; [split; reflexivity|]. constructor; [split; [reflexivity|intros r; apply A; auto]|]. constructor.
Qed.
Example case_distinct : distinct true (parts (case_config CE MSE (q 0)) (case_reading 9)) /\ List.length (parts (case_config CE MSE (q 0)) (case_reading 9)) = 7%nat.
Proof. split; [|vm_compute; reflexivity]. unfold distinct. repeat (apply NoDup_cons; [vm_compute; intuition discriminate|]). apply NoDup_nil. Qed.
(** F44 and F45 on this case *)
Definition case_tensor : reading Qc case_row := let d := case_reading 9 in {|
  value_of := value_of d; policy_of := policy_of d; board_mask := board_mask d; value_target := value_target d; policy_target := policy_target d; teacher_value := teacher_value d; teacher_policy := teacher_policy d; forbidden := forbidden d;
  auxiliaries := [("extra"%string, ATensor (fun rows => q 1))] |}.
Example case_f44 : (exists total losses, compute_supervised_losses (case_config CE CE (q 0)) case_tensor false [1; 2; 3]%nat = Ok (total, losses))
  /\ validate (case_config CE CE (q 0)) case_tensor false case_ranks = Err ValueError.
Proof. split; [eexists; eexists; vm_compute; reflexivity|vm_compute; reflexivity]. Qed.
Example case_f45 : compute_supervised_losses (case_config Other CE (q 0)) (case_reading 9) false [1; 2; 3]%nat = Err KeyError
  /\ exists losses, validate (case_config Other CE (q 0)) (case_reading 9) false case_ranks = Ok losses.
Proof. split; [vm_compute; reflexivity|eexists; vm_compute; reflexivity]. Qed.
End Case.
