(** The names the trainer gives to runtime sidecars are the names that pruning recognises
    (trainer/base.py 116-127, 1262-1323). *)
From Coq Require Import Ascii String.
From Verif Require Import Base BaseFacts Checkpoint CheckpointFacts CheckpointSet CheckpointSetFacts.
Set Implicit Arguments.
Unset Strict Implicit.

Lemma decimal_aux_head fuel : forall n, 0 < n -> (Z.to_nat n < fuel)%nat -> startswith (lit "0") (decimal_aux fuel n) = false.
Proof.
  induction fuel as [|f IH]; intros n Hn Hf; [lia|]. cbn [decimal_aux]. destruct (n <? 10) eqn:E.
  - apply Z.ltb_lt in E. change (Ascii.eqb "0" (digit_char n) && true = false). rewrite andb_true_r. apply Ascii.eqb_neq. intros X.
    destruct (@digit_char_value n) as [D _]; [lia|]. rewrite <- X in D. change (digit_value "0"%char) with 0 in D. lia.
  - apply Z.ltb_ge in E. assert (H1 : 0 < n / 10) by (apply Z.div_str_pos; lia).
    assert (H2 : n / 10 < n) by (apply Z.div_lt; lia).
    specialize (IH (n / 10) H1). destruct (decimal_aux_ok (fuel := f) (n := n / 10)) as (_ & _ & Hne); [lia|lia|].
    destruct (decimal_aux f (n / 10)) as [|c l]; [contradiction|]. cbn [app]. apply IH. lia.
Qed.
Lemma decimal_head n : 0 < n -> startswith (lit "0") (decimal n) = false.
Proof. intros. apply decimal_aux_head; lia. Qed.
Lemma decimal_number n : 0 <= n -> number_text (decimal n) = true.
Proof.
  intros Hn. unfold number_text. destruct (decimal_ok Hn) as (_ & Hd & Hne).
  assert (E : isdigit (decimal n) = true) by (unfold isdigit; destruct (decimal n); [contradiction|exact Hd]).
  rewrite E. cbn [andb]. destruct (Z.eq_dec n 0) as [->|Hz]; [reflexivity|]. rewrite decimal_head by lia. apply orb_true_r.
Qed.
Lemma padded_text n : 0 <= n -> iteration_text (padded n) = true.
Proof.
  intros Hn. unfold iteration_text. destruct (padded_ok Hn) as (_ & _ & Hd). rewrite Hd. cbn [andb].
  unfold padded. rewrite app_length, repeat_length. destruct (Nat.le_gt_cases (List.length (decimal n)) 7) as [H|H].
  - replace (7 - List.length (decimal n) + List.length (decimal n))%nat with 7%nat by lia. reflexivity.
  - replace (7 - List.length (decimal n))%nat with 0%nat by lia. cbn [repeat app]. apply orb_true_intro. right.
    apply andb_true_intro. split; [apply Nat.leb_le; lia|]. apply negb_true_iff. apply decimal_head.
    destruct (Z.eq_dec n 0) as [->|]; [cbn in H; lia|lia].
Qed.
Lemma token_no_underscore g : token_text g = true -> ~ In underscore g.
Proof.
  intros H X. apply andb_prop in H. destruct H as [H _]. rewrite forallb_forall in H. apply H in X. discriminate.
Qed.
Lemma digits_no_underscore l : forallb is_digit l = true -> ~ In underscore l.
Proof. apply digits_no. reflexivity. Qed.
Lemma strip_pt_app l : strip_pt (l ++ lit ".pt") = Some l.
Proof.
  unfold strip_pt. assert (E : endswith (lit ".pt") (l ++ lit ".pt") = true) by (unfold endswith; rewrite rev_app_distr; reflexivity).
  rewrite E, app_length. cbn [List.length lit list_ascii_of_string]. replace (List.length l + 3 - 3)%nat with (List.length l) by lia.
  rewrite firstn_app, firstn_all, Nat.sub_diag. cbn. rewrite app_nil_r. reflexivity.
Qed.
Lemma no_underscore_pt l : ~ In underscore l -> ~ In underscore (l ++ lit ".pt").
Proof. intros H X. apply in_app_or in X. destruct X as [X|X]; [contradiction|]. cbn in X. intuition discriminate. Qed.

Lemma basename_is_sidecar it g r : 0 <= it -> token_text g = true -> is_sidecar (runtime_basename it g r) = true.
Proof.
  intros Hi Hg. pose proof (padded_ok Hi) as (_ & _ & Hp). pose proof (decimal_ok (Zle_0_nat r)) as (_ & Hd & _).
  assert (E : runtime_basename it g r = lit "runtime" ++ underscore :: (padded it ++ underscore :: (g ++ underscore :: (lit "rank" ++ underscore :: (decimal (Z.of_nat r) ++ lit ".pt"))))) by reflexivity.
  unfold is_sidecar. rewrite E, !split_on_app.
  rewrite (split_on_none (l := lit "runtime")) by (cbn; intuition discriminate).
  rewrite (split_on_none (l := padded it)) by (apply digits_no_underscore; exact Hp).
  rewrite (split_on_none (l := g)) by (apply token_no_underscore; exact Hg).
  rewrite (split_on_none (l := lit "rank")) by (cbn; intuition discriminate).
  rewrite (split_on_none (l := decimal (Z.of_nat r) ++ lit ".pt")) by (apply no_underscore_pt, digits_no_underscore; exact Hd).
  cbn [app]. rewrite !str_eqb_refl, (padded_text Hi), Hg, strip_pt_app. cbn [andb]. apply decimal_number. lia.
Qed.
Lemma temp_is_temp it g r pid nonce : 0 <= it -> 0 <= pid -> token_text g = true -> token_text nonce = true ->
  is_runtime_temp (runtime_temp it g r pid nonce) = true.
Proof.
  intros Hi Hpid Hg Hn. pose proof (padded_ok Hi) as (_ & _ & Hp). pose proof (decimal_ok (Zle_0_nat r)) as (_ & Hd & _).
  pose proof (decimal_ok Hpid) as (_ & Hd2 & _).
  assert (E : runtime_temp it g r pid nonce = lit ".runtime-tmp" ++ underscore :: (padded it ++ underscore :: (g ++ underscore :: (lit "rank" ++ underscore :: (decimal (Z.of_nat r) ++ underscore :: (decimal pid ++ underscore :: (nonce ++ lit ".pt"))))))) by reflexivity.
  unfold is_runtime_temp. rewrite E, !split_on_app.
  rewrite (split_on_none (l := lit ".runtime-tmp")) by (cbn; intuition discriminate).
  rewrite (split_on_none (l := padded it)) by (apply digits_no_underscore; exact Hp).
  rewrite (split_on_none (l := g)) by (apply token_no_underscore; exact Hg).
  rewrite (split_on_none (l := lit "rank")) by (cbn; intuition discriminate).
  rewrite (split_on_none (l := decimal (Z.of_nat r))) by (apply digits_no_underscore; exact Hd).
  rewrite (split_on_none (l := decimal pid)) by (apply digits_no_underscore; exact Hd2).
  rewrite (split_on_none (l := nonce ++ lit ".pt")) by (apply no_underscore_pt, token_no_underscore; exact Hn).
  cbn [app]. rewrite !str_eqb_refl, (padded_text Hi), Hg, strip_pt_app, Hn. cbn [andb]. rewrite !decimal_number by lia. reflexivity.
Qed.
