(** Facts about the strings, paths and the disk of Checkpoint.v. *)
From Coq Require Import Ascii String Sorted Permutation.
From Verif Require Import Base BaseFacts Checkpoint.
Set Implicit Arguments.
Unset Strict Implicit.

Lemma str_eqb_eq a : forall b, str_eqb a b = true <-> a = b.
Proof.
  induction a as [|x a IH]; intros [|y b]; cbn; split; intros H; try reflexivity; try discriminate.
  - apply andb_prop in H. destruct H as [H1 H2]. apply Ascii.eqb_eq in H1. apply IH in H2. congruence.
  - inversion H; subst. apply andb_true_intro. split; [apply Ascii.eqb_refl|apply IH; reflexivity].
Qed.
Lemma str_eqb_refl a : str_eqb a a = true.
Proof. apply str_eqb_eq. reflexivity. Qed.
Lemma str_eqb_neq a b : str_eqb a b = false <-> a <> b.
Proof.
  split.
  - intros H E. subst. rewrite str_eqb_refl in H. discriminate.
  - intros H. destruct (str_eqb a b) eqn:E; [apply str_eqb_eq in E; contradiction|reflexivity].
Qed.
Lemma str_eq_dec (a b : str) : {a = b} + {a <> b}.
Proof. apply (list_eq_dec Ascii.ascii_dec). Qed.

Lemma startswith_spec p : forall l, startswith p l = true <-> exists t, l = p ++ t.
Proof.
  induction p as [|x p IH]; intros l.
  - cbn. split; intros; [exists l; reflexivity|reflexivity].
  - destruct l as [|y l]; cbn.
    + split; [discriminate|]. intros [t H]. discriminate.
    + rewrite andb_true_iff, IH. split.
      * intros [H [t ->]]. apply Ascii.eqb_eq in H. subst. exists t. reflexivity.
      * intros [t H]. inversion H; subst. split; [apply Ascii.eqb_refl|exists t; reflexivity].
Qed.
Lemma endswith_spec p l : endswith p l = true <-> exists h, l = h ++ p.
Proof.
  unfold endswith. rewrite startswith_spec. split.
  - intros [t H]. exists (rev t). apply (f_equal (@rev ascii)) in H. rewrite rev_involutive, rev_app_distr, rev_involutive in H. exact H.
  - intros [h ->]. exists (rev h). apply rev_app_distr.
Qed.

Lemma rcut_none c l : rcut c l = None <-> ~ In c l.
Proof.
  induction l as [|x l IH]; cbn; [tauto|].
  destruct (rcut c l) as [[a b]|].
  - split; [discriminate|]. intros H. exfalso. assert (X : ~ In c l) by tauto. apply IH in X. discriminate.
  - destruct (Ascii.eqb x c) eqn:E.
    + apply Ascii.eqb_eq in E. subst. split; [discriminate|tauto].
    + apply Ascii.eqb_neq in E. split; [|reflexivity]. intros _ [H|H]; [contradiction|]. apply IH in H; auto.
Qed.
Lemma rcut_app c a b : ~ In c b -> rcut c (a ++ c :: b) = Some (a, b).
Proof.
  intros H. induction a as [|x a IH]; cbn.
  - apply rcut_none in H. rewrite H, Ascii.eqb_refl. reflexivity.
  - rewrite IH. reflexivity.
Qed.
Lemma rcut_some c l a b : rcut c l = Some (a, b) -> l = a ++ c :: b /\ ~ In c b.
Proof.
  revert a. induction l as [|x l IH]; intros a H; cbn in H; [discriminate|].
  destruct (rcut c l) as [[a1 b1]|] eqn:E.
  - inversion H; subst. destruct (IH a1 eq_refl) as [-> Hb]. split; [reflexivity|exact Hb].
  - destruct (Ascii.eqb x c) eqn:Ex; [|discriminate]. apply Ascii.eqb_eq in Ex. inversion H; subst.
    split; [reflexivity|]. apply rcut_none. exact E.
Qed.

Lemma split_on_none c l : ~ In c l -> split_on c l = [l].
Proof.
  induction l as [|x l IH]; intros H; cbn; [reflexivity|].
  destruct (Ascii.eqb x c) eqn:E; [apply Ascii.eqb_eq in E; subst; exfalso; apply H; left; reflexivity|].
  rewrite IH; [reflexivity|]. intros X. apply H. right. exact X.
Qed.
Lemma split_on_nonempty c l : split_on c l <> [].
Proof.
  destruct l as [|x l]; cbn; [discriminate|]. destruct (Ascii.eqb x c); [discriminate|].
  destruct (split_on c l); discriminate.
Qed.
Lemma split_on_app c a b : split_on c (a ++ c :: b) = split_on c a ++ split_on c b.
Proof.
  induction a as [|x a IH]; cbn.
  - rewrite Ascii.eqb_refl. reflexivity.
  - destruct (Ascii.eqb x c); rewrite IH; [reflexivity|].
    pose proof (@split_on_nonempty c a) as Hn. destruct (split_on c a); [contradiction|reflexivity].
Qed.

(** ** Numbers *)
Lemma digit_char_value d : 0 <= d < 10 -> digit_value (digit_char d) = d /\ is_digit (digit_char d) = true.
Proof.
  intros H. unfold digit_value, digit_char, is_digit. rewrite nat_ascii_embedding by lia.
  split; [lia|]. apply andb_true_intro. split; apply Nat.leb_le; lia.
Qed.
Lemma int_of_app a b : int_of (a ++ b) = fold_left (fun v c => 10 * v + digit_value c) b (int_of a).
Proof. apply fold_left_app. Qed.
Lemma decimal_aux_ok fuel : forall n, 0 <= n -> (Z.to_nat n < fuel)%nat ->
  int_of (decimal_aux fuel n) = n /\ forallb is_digit (decimal_aux fuel n) = true /\ decimal_aux fuel n <> [].
Proof.
  induction fuel as [|f IH]; intros n Hn Hf; [lia|]. cbn [decimal_aux].
  destruct (n <? 10) eqn:E.
  - apply Z.ltb_lt in E. destruct (@digit_char_value n) as [H1 H2]; [lia|].
    unfold int_of. cbn. rewrite H1, H2. split; [lia|]. split; [reflexivity|discriminate].
  - apply Z.ltb_ge in E. pose proof (Z.div_mod n 10). pose proof (Z.mod_pos_bound n 10).
    destruct (IH (n / 10)) as (I1 & I2 & I3); [apply Z.div_pos; lia|apply Nat2Z.inj_lt; rewrite Z2Nat.id by (apply Z.div_pos; lia); lia|].
    destruct (@digit_char_value (n mod 10)) as [H1 H2]; [lia|].
    rewrite int_of_app, I1. cbn. rewrite H1, forallb_app, I2. cbn. rewrite H2.
    split; [lia|]. split; [reflexivity|]. intros X. apply app_eq_nil in X. destruct X; discriminate.
Qed.
Lemma decimal_ok n : 0 <= n -> int_of (decimal n) = n /\ forallb is_digit (decimal n) = true /\ decimal n <> [].
Proof. intros H. apply decimal_aux_ok; [exact H|lia]. Qed.

Lemma int_of_zeros k l : int_of (repeat "0"%char k ++ l) = int_of l.
Proof.
  rewrite int_of_app. assert (E : int_of (repeat "0"%char k) = 0).
  { induction k as [|k IH]; [reflexivity|]. unfold int_of in *. cbn. exact IH. }
  rewrite E. reflexivity.
Qed.
Lemma padded_ok n : 0 <= n -> int_of (padded n) = n /\ isdigit (padded n) = true /\ forallb is_digit (padded n) = true.
Proof.
  intros H. destruct (decimal_ok H) as (H1 & H2 & H3). unfold padded.
  assert (F : forallb is_digit (repeat "0"%char (7 - List.length (decimal n)) ++ decimal n) = true).
  { rewrite forallb_app, H2, andb_true_r. generalize (7 - List.length (decimal n))%nat. intros k.
    induction k; [reflexivity|exact IHk]. }
  split; [rewrite int_of_zeros; exact H1|]. split; [|exact F].
  unfold isdigit. destruct (repeat _ _ ++ decimal n) eqn:E; [apply app_eq_nil in E; destruct E; contradiction|].
  exact F.
Qed.
Lemma padded_inj a b : 0 <= a -> 0 <= b -> padded a = padded b -> a = b.
Proof. intros Ha Hb H. rewrite <- (proj1 (padded_ok Ha)), <- (proj1 (padded_ok Hb)), H. reflexivity. Qed.
Lemma digits_no c l : is_digit c = false -> forallb is_digit l = true -> ~ In c l.
Proof. intros Hc Hl Hi. rewrite forallb_forall in Hl. apply Hl in Hi. congruence. Qed.

(** ** Paths *)
Lemma basename_no_slash f : ~ In slash f -> basename f = f.
Proof. intros H. unfold basename. apply rcut_none in H. rewrite H. reflexivity. Qed.
Lemma join_form d f : exists d1, join_path d f = d1 ++ f /\ (d1 = [] \/ exists d2, d1 = d2 ++ [slash]).
Proof.
  unfold join_path. destruct (endswith [slash] d) eqn:E.
  - apply endswith_spec in E. destruct E as [h ->]. exists (h ++ [slash]). split; [reflexivity|]. right. eauto.
  - exists (d ++ [slash]). rewrite <- app_assoc. split; [reflexivity|]. right. eauto.
Qed.
Lemma basename_join d f : ~ In slash f -> basename (join_path d f) = f.
Proof.
  intros H. destruct (join_form d f) as (d1 & -> & [->|(d2 & ->)]).
  - apply basename_no_slash. exact H.
  - rewrite <- app_assoc. unfold basename. cbn [app]. rewrite rcut_app by exact H. reflexivity.
Qed.
Lemma join_inj d f g : join_path d f = join_path d g -> f = g.
Proof.
  unfold join_path. destruct (endswith [slash] d); intros H; [apply app_inv_head in H; exact H|].
  apply app_inv_head in H. inversion H. reflexivity.
Qed.
Lemma splitext_ext stem ext : ~ In slash stem -> ~ In slash ext -> ~ In dot ext ->
  (exists c, In c stem /\ c <> dot) -> splitext (stem ++ dot :: ext) = (stem, dot :: ext).
Proof.
  intros Hs He Hd (c & Hc & Hcd). unfold splitext.
  assert (X : rcut slash (stem ++ dot :: ext) = None).
  { apply rcut_none. rewrite in_app_iff. cbn. intros [H|[H|H]]; [contradiction|discriminate|contradiction]. }
  rewrite X, rcut_app by exact Hd.
  assert (Y : existsb (fun c => negb (Ascii.eqb c dot)) stem = true).
  { apply existsb_exists. exists c. split; [exact Hc|]. apply negb_true_iff. apply Ascii.eqb_neq. exact Hcd. }
  rewrite Y. reflexivity.
Qed.

Lemma iteration_of_name pre i : 0 <= i -> ~ In slash pre -> pre <> [] ->
  get_iteration_from_ckpt_filename (pre ++ underscore :: padded i ++ lit ".pt") = Some i.
Proof.
  intros Hi Hs Hp. destruct (padded_ok Hi) as (P1 & P2 & P3).
  assert (Sl : ~ In slash (pre ++ underscore :: padded i)).
  { rewrite in_app_iff. cbn. intros [H|[H|H]]; [contradiction|discriminate|]. revert H. apply digits_no; [reflexivity|exact P3]. }
  unfold get_iteration_from_ckpt_filename.
  replace (pre ++ underscore :: padded i ++ lit ".pt") with ((pre ++ underscore :: padded i) ++ dot :: lit "pt")
    by (rewrite <- app_assoc; reflexivity).
  rewrite basename_no_slash.
  - rewrite splitext_ext; auto.
    + cbn [fst]. rewrite split_on_app, (split_on_none (l := padded i)).
      * rewrite rev_app_distr. cbn [rev app find]. rewrite P2, P1. reflexivity.
      * apply digits_no; [reflexivity|exact P3].
    + cbn. intros [H|[H|[]]]; discriminate.
    + cbn. intros [H|[H|[]]]; discriminate.
    + exists underscore. split; [apply in_or_app; right; left; reflexivity|discriminate].
  - rewrite in_app_iff. intros [H|H]; [contradiction|]. cbn in H. destruct H as [H|[H|[H|[]]]]; discriminate.
Qed.
Lemma iteration_of_join d f : ~ In slash f -> get_iteration_from_ckpt_filename (join_path d f) = get_iteration_from_ckpt_filename f.
Proof.
  intros H. unfold get_iteration_from_ckpt_filename. rewrite basename_join, basename_no_slash by exact H. reflexivity.
Qed.

(** ** Sorting *)
Section Sort.
Variable A : Type.
Variable lt : A -> A -> bool.
Hypothesis asym : forall x y, lt x y = true -> lt y x = false.
Hypothesis trans : forall x y z, lt y x = false -> lt z y = false -> lt z x = false.
Let le x y := lt y x = false.

Lemma insert_perm x l : Permutation (insert_by lt x l) (x :: l).
Proof.
  induction l as [|y l IH]; cbn; [apply Permutation_refl|]. destruct (lt y x); [|apply Permutation_refl].
  eapply Permutation_trans; [apply perm_skip; exact IH|]. apply perm_swap.
Qed.
Lemma sort_perm l : Permutation (sort_by lt l) l.
Proof.
  induction l as [|x l IH]; cbn; [apply Permutation_refl|].
  eapply Permutation_trans; [apply insert_perm|]. apply perm_skip. exact IH.
Qed.
Lemma insert_sorted x l : StronglySorted le l -> StronglySorted le (insert_by lt x l).
Proof.
  induction 1 as [|y l Hs IH Hf]; cbn; [constructor; constructor|].
  destruct (lt y x) eqn:E.
  - constructor; [exact IH|]. rewrite Forall_forall in *. intros z Hz.
    apply (Permutation_in _ (insert_perm x l)) in Hz. destruct Hz as [<-|Hz]; [apply asym; exact E|auto].
  - constructor; [constructor; assumption|]. constructor; [exact E|].
    rewrite Forall_forall in *. intros z Hz. specialize (Hf z Hz). unfold le in *. apply (trans E Hf).
Qed.
Lemma sort_sorted l : StronglySorted le (sort_by lt l).
Proof. induction l as [|x l IH]; cbn; [constructor|]. apply insert_sorted. exact IH. Qed.
Lemma sorted_last l d : StronglySorted le l -> l <> [] -> (forall x, lt x x = false) -> forall x, In x l -> lt (last l d) x = false.
Proof.
  intros Hs Hne Hirr. induction Hs as [|y l Hs IH Hf]; [contradiction|]. intros x Hx.
  destruct l as [|z l].
  - destruct Hx as [<-|[]]. cbn. apply Hirr.
  - change (last (y :: z :: l) d) with (last (z :: l) d). destruct Hx as [<-|Hx].
    + rewrite Forall_forall in Hf. apply Hf. clear. generalize z. induction l as [|w l IH]; intros z0; [left; reflexivity|].
      change (last (z0 :: w :: l) d) with (last (w :: l) d). right. apply IH.
    + apply IH; [discriminate|exact Hx].
Qed.
End Sort.

Lemma str_ltb_irrefl a : str_ltb a a = false.
Proof. induction a as [|x a IH]; [reflexivity|]. cbn [str_ltb]. rewrite Nat.ltb_irrefl. exact IH. Qed.
Lemma str_ltb_asym a : forall b, str_ltb a b = true -> str_ltb b a = false.
Proof.
  induction a as [|x a IH]; intros [|y b] H; cbn [str_ltb] in *; try discriminate; try reflexivity.
  destruct (nat_of_ascii x <? nat_of_ascii y)%nat eqn:E1.
  - apply Nat.ltb_lt in E1. assert (E2 : (nat_of_ascii y <? nat_of_ascii x)%nat = false) by (apply Nat.ltb_ge; lia).
    rewrite E2. reflexivity.
  - destruct (nat_of_ascii y <? nat_of_ascii x)%nat; [discriminate|]. apply IH. exact H.
Qed.
Lemma str_ltb_trans a : forall b c, str_ltb b a = false -> str_ltb c b = false -> str_ltb c a = false.
Proof.
  induction a as [|x a IH]; intros [|y b] [|z c] H1 H2; cbn [str_ltb] in *; try discriminate; try reflexivity.
  destruct (nat_of_ascii y <? nat_of_ascii x)%nat eqn:E1; [discriminate|]. apply Nat.ltb_ge in E1.
  destruct (nat_of_ascii z <? nat_of_ascii y)%nat eqn:E2; [discriminate|]. apply Nat.ltb_ge in E2.
  assert (E3 : (nat_of_ascii z <? nat_of_ascii x)%nat = false) by (apply Nat.ltb_ge; lia). rewrite E3.
  destruct (nat_of_ascii x <? nat_of_ascii z)%nat eqn:E4; [reflexivity|]. apply Nat.ltb_ge in E4.
  assert (E5 : (nat_of_ascii x <? nat_of_ascii y)%nat = false) by (apply Nat.ltb_ge; lia).
  assert (E6 : (nat_of_ascii y <? nat_of_ascii z)%nat = false) by (apply Nat.ltb_ge; lia).
  rewrite E5 in H1. rewrite E6 in H2. apply (IH b c); assumption.
Qed.
Lemma key_ltb_irrefl a : key_ltb a a = false.
Proof. destruct a as [[b i] s]. cbn. rewrite Bool.eqb_reflx, Z.eqb_refl. apply str_ltb_irrefl. Qed.
Lemma key_ltb_asym a b : key_ltb a b = true -> key_ltb b a = false.
Proof.
  destruct a as [[a1 a2] a3], b as [[b1 b2] b3]. cbn. intros H.
  destruct a1, b1; cbn in *; try discriminate; try reflexivity;
  (destruct (a2 =? b2) eqn:E;
   [apply Z.eqb_eq in E; subst; rewrite Z.eqb_refl; apply str_ltb_asym; exact H
   |rewrite Z.eqb_sym, E; apply Z.ltb_lt in H; apply Z.ltb_ge; lia]).
Qed.
Lemma key_ltb_trans a b c : key_ltb b a = false -> key_ltb c b = false -> key_ltb c a = false.
Proof.
  destruct a as [[a1 a2] a3], b as [[b1 b2] b3], c as [[c1 c2] c3]. cbn. intros H1 H2.
  destruct a1, b1, c1; cbn in *; try discriminate; try reflexivity;
  (destruct (b2 =? a2) eqn:E1; destruct (c2 =? b2) eqn:E2;
   repeat match goal with
   | H : (_ =? _) = true |- _ => apply Z.eqb_eq in H; subst
   | H : (_ =? _) = false |- _ => apply Z.eqb_neq in H
   | H : (_ <? _) = false |- _ => apply Z.ltb_ge in H
   end;
   [rewrite Z.eqb_refl; apply (str_ltb_trans H1 H2)
   |rewrite (proj2 (Z.eqb_neq _ _)) by lia; apply Z.ltb_ge; lia
   |rewrite (proj2 (Z.eqb_neq _ _)) by lia; apply Z.ltb_ge; lia
   |rewrite (proj2 (Z.eqb_neq _ _)) by lia; apply Z.ltb_ge; lia]).
Qed.

(** ** The disk *)
Section Disk.
Variable obj : Type.
Implicit Types d : disk obj.

Lemma put_same d p c : put d p c p = c.
Proof. unfold put. rewrite str_eqb_refl. reflexivity. Qed.
Lemma put_other d p c q : q <> p -> put d p c q = d q.
Proof. intros H. unfold put. apply str_eqb_neq in H. rewrite H. reflexivity. Qed.
Lemma run_ops_app d a b : run_ops d (a ++ b) = run_ops (run_ops d a) b.
Proof. apply fold_left_app. Qed.

Lemma run_writes d p l : (forall o, In o l -> exists c, o = Write p c) -> forall q, q <> p -> run_ops d l q = d q.
Proof.
  revert d. induction l as [|o l IH]; intros d H q Hq; [reflexivity|].
  destruct (H o (or_introl eq_refl)) as [c ->]. change (run_ops (run_op d (Write p c)) l q = d q). cbn [run_op]. rewrite IH by (auto; intros; apply H; right; assumption).
  apply put_other. exact Hq.
Qed.

Lemma neq_suffix (A : Type) (p s : list A) : s <> [] -> p <> p ++ s.
Proof. intros Hs H. rewrite <- (app_nil_r p) in H at 1. apply app_inv_head in H. congruence. Qed.

(** The content of the disk at every point of an atomic save. *)
Lemma atomic_save_prefix n (x : obj) p d k :
  let ops := atomic_torch_save n x p in
  let d1 := run_ops d (firstn k ops) in
  (forall q, q <> p -> q <> p ++ lit ".tmp" -> d1 q = d q)
  /\ ((k < List.length ops)%nat -> d1 p = d p)
  /\ ((List.length ops <= k)%nat -> d1 p = Some (Whole x) /\ d1 (p ++ lit ".tmp") = None).
Proof.
  intros ops d1. subst ops d1. unfold atomic_torch_save. set (tmp := p ++ lit ".tmp").
  assert (Hne : p <> tmp) by (apply neq_suffix; discriminate).
  set (w := torch_save n x tmp).
  assert (Hw : forall o, In o w -> exists c, o = Write tmp c).
  { intros o Ho. unfold w, torch_save in Ho. apply in_app_or in Ho. destruct Ho as [Ho|[<-|[]]]; [|eauto].
    apply repeat_spec in Ho. subst. eauto. }
  assert (Et : run_ops d w tmp = Some (Whole x)).
  { unfold w, torch_save. rewrite run_ops_app. cbn. apply put_same. }
  clearbody w.
  destruct (Nat.lt_ge_cases k (List.length (w ++ [Replace (obj := obj) tmp p]))) as [Hk|Hk].
  - rewrite app_length in Hk. cbn [List.length] in Hk.
    assert (E : firstn k (w ++ [Replace tmp p]) = firstn k w).
    { rewrite firstn_app. replace (k - List.length w)%nat with 0%nat by lia. apply app_nil_r. }
    rewrite E. assert (Hf : forall o, In o (firstn k w) -> exists c, o = Write tmp c).
    { intros o Ho. apply Hw. rewrite <- (firstn_skipn k w). apply in_or_app. left. exact Ho. }
    split; [|split].
    + intros q _ Hq. apply (run_writes d Hf). exact Hq.
    + intros _. apply (run_writes d Hf). exact Hne.
    + rewrite app_length. cbn [List.length]. lia.
  - rewrite firstn_all2 by exact Hk. rewrite run_ops_app.
    cbn [run_ops fold_left]. cbn [run_op]. rewrite Et. split; [|split].
    + intros q Hq Hq2. rewrite put_other, put_other by assumption. apply (run_writes d Hw). exact Hq2.
    + lia.
    + intros _. split; [apply put_same|]. rewrite put_other by congruence. apply put_same.
Qed.
End Disk.

(** ** Dictionaries *)
Section Dict.
Variable A : Type.
Implicit Types l : list (str * A).
Lemma dict_set_new l k v : ~ In k (map fst l) -> dict_set l k v = l ++ [(k, v)].
Proof.
  induction l as [|[k1 v1] l IH]; intros H; cbn; [reflexivity|].
  assert (E : str_eqb k k1 = false) by (apply str_eqb_neq; intros ->; apply H; left; reflexivity).
  rewrite E, IH; [reflexivity|]. intros X. apply H. right. exact X.
Qed.
End Dict.
