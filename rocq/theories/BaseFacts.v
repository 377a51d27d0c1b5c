From Verif Require Import Base.
Set Implicit Arguments.

Lemma bind_Ok {A B} (m : res A) (k : A -> res B) b :
  bind m k = Ok b -> exists a, m = Ok a /\ k a = Ok b.
Proof. destruct m as [a|e]; simpl; intros H; [exists a; auto|discriminate]. Qed.

Lemma guard_Ok {A} (c : bool) e (k : res A) b :
  (if c then k else Err e) = Ok b -> c = true /\ k = Ok b.
Proof. destruct c; intros H; [auto|discriminate]. Qed.

(** Invert one monadic step in hypothesis [H]. *)
Ltac inv_bind H :=
  let a := fresh "v" in let H1 := fresh "Hm" in
  apply bind_Ok in H; destruct H as [a [H1 H]].

Lemma zlen_nonneg {A} (l : list A) : 0 <= zlen l.
Proof. unfold zlen; lia. Qed.
Lemma zlen_app {A} (l m : list A) : zlen (l ++ m) = zlen l + zlen m.
Proof. unfold zlen; rewrite app_length; lia. Qed.
Lemma zlen_cons {A} (a : A) l : zlen (a :: l) = 1 + zlen l.
Proof. unfold zlen; simpl List.length; lia. Qed.
Lemma zlen_nil {A} : zlen (@nil A) = 0.
Proof. reflexivity. Qed.
Lemma zlen_perm {A} (l m : list A) : Permutation l m -> zlen l = zlen m.
Proof. intros H; unfold zlen; rewrite (Permutation_length H); reflexivity. Qed.

Lemma zsum_app l m : zsum (l ++ m) = zsum l + zsum m.
Proof. induction l as [|a l IH]; simpl; [lia|]. unfold zsum in *; simpl. lia. Qed.
Lemma zsum_cons a l : zsum (a :: l) = a + zsum l.
Proof. reflexivity. Qed.
Lemma zsum_perm l m : Permutation l m -> zsum l = zsum m.
Proof. induction 1; unfold zsum in *; simpl in *; lia. Qed.
Lemma zsum_nonneg l : Forall (fun z => 0 <= z) l -> 0 <= zsum l.
Proof. induction 1; unfold zsum in *; simpl in *; lia. Qed.

Lemma upd_length {A} (l : list A) i x : List.length (upd l i x) = List.length l.
Proof. revert i; induction l as [|a l IH]; intros [|i]; simpl; auto. Qed.

Lemma upd_app {A} (l1 : list A) a l2 x :
  upd (l1 ++ a :: l2) (List.length l1) x = l1 ++ x :: l2.
Proof. induction l1 as [|b l1 IH]; simpl; congruence. Qed.

Lemma nth_error_upd {A} (l : list A) i j x :
  nth_error (upd l i x) j =
  if (j =? i)%nat then (if (i <? List.length l)%nat then Some x else None)
  else nth_error l j.
Proof.
  revert i j; induction l as [|a l IH]; intros [|i] [|j]; simpl; auto.
  - destruct (Nat.eqb j i); auto.
  - rewrite IH. destruct (Nat.eqb j i); auto.
Qed.

Lemma py_pop_spec {A} (l : list A) l' a :
  py_pop l = Ok (l', a) <-> l = l' ++ [a].
Proof.
  split.
  - revert l' a; induction l as [|h t IH]; simpl; intros l' a H; [discriminate|].
    destruct t as [|h2 t2].
    + inversion H; reflexivity.
    + destruct (py_pop (h2 :: t2)) as [[t' b]|e] eqn:E; [|discriminate].
      inversion H; subst. simpl. f_equal. apply IH. reflexivity.
  - intros ->. induction l' as [|h t IH]; [reflexivity|].
    simpl. destruct (t ++ [a]) eqn:E.
    + destruct t; discriminate.
    + rewrite IH. reflexivity.
Qed.

Lemma py_pop_nonempty {A} (l : list A) : l <> [] -> exists l' a, py_pop l = Ok (l', a).
Proof.
  intros H. destruct (exists_last H) as [l' [a E]]. exists l', a.
  apply py_pop_spec. exact E.
Qed.

Lemma py_get_Ok {A} (l : list A) i a : py_get l i = Ok a <-> nth_error l i = Some a.
Proof. unfold py_get; destruct (nth_error l i); split; intros H; congruence. Qed.

Lemma py_set_Ok {A} (l l' : list A) i x :
  py_set l i x = Ok l' <-> (i < List.length l)%nat /\ l' = upd l i x.
Proof.
  unfold py_set. destruct (Nat.ltb_spec i (List.length l)); split;
    intros HH; try discriminate.
  - inversion HH; auto.
  - destruct HH; subst; auto.
  - destruct HH; lia.
Qed.

Lemma loop_pos_ind {S B} (P : S -> Prop) (Q : B -> Prop) (f : S -> S + B) :
  (forall s, P s -> match f s with inl s' => P s' | inr b => Q b end) ->
  forall p s, P s -> match loop_pos p f s with inl s' => P s' | inr b => Q b end.
Proof.
  intros Hf p; induction p as [p IH|p IH|]; intros s Hs; cbn [loop_pos].
  - specialize (Hf s Hs). destruct (f s) as [s0|b]; auto.
    specialize (IH s0 Hf) as IH1. destruct (loop_pos p f s0) as [s1|b]; auto.
    apply IH; exact IH1.
  - specialize (IH s Hs) as IH1. destruct (loop_pos p f s) as [s1|b]; auto.
    apply IH; exact IH1.
  - apply Hf; exact Hs.
Qed.

Fixpoint loop_nat {S B} (n : nat) (f : S -> S + B) (s : S) : S + B :=
  match n with
  | O => inl s
  | Datatypes.S m => match f s with inl s' => loop_nat m f s' | inr b => inr b end
  end.

Lemma loop_nat_add {S B} (f : S -> S + B) n m s :
  loop_nat (n + m) f s =
  match loop_nat n f s with inl s' => loop_nat m f s' | inr b => inr b end.
Proof.
  revert s; induction n as [|n IH]; intros s; simpl; auto.
  destruct (f s); auto.
Qed.

Lemma loop_pos_nat {S B} (f : S -> S + B) p s :
  loop_pos p f s = loop_nat (Pos.to_nat p) f s.
Proof.
  revert s; induction p as [p IH|p IH|]; intros s; cbn [loop_pos].
  - rewrite Pos2Nat.inj_xI. replace (Datatypes.S (2 * Pos.to_nat p))%nat
      with (1 + (Pos.to_nat p + Pos.to_nat p))%nat by lia.
    rewrite loop_nat_add. simpl. destruct (f s); auto.
    rewrite loop_nat_add, IH. destruct (loop_nat (Pos.to_nat p) f s0); auto.
  - rewrite Pos2Nat.inj_xO. replace (2 * Pos.to_nat p)%nat
      with (Pos.to_nat p + Pos.to_nat p)%nat by lia.
    rewrite loop_nat_add, IH. destruct (loop_nat (Pos.to_nat p) f s); auto.
  - simpl. destruct (f s); auto.
Qed.

Lemma mapM_Ok_length {A B} (f : A -> res B) l r : mapM f l = Ok r -> List.length r = List.length l.
Proof.
  revert r; induction l as [|a l IH]; simpl; intros r H.
  - inversion H; reflexivity.
  - inv_bind H. inv_bind H. inversion H; subst; simpl. f_equal. apply IH; assumption.
Qed.

Lemma mapM_Ok_Forall2 {A B} (f : A -> res B) l r :
  mapM f l = Ok r <-> Forall2 (fun a b => f a = Ok b) l r.
Proof.
  split.
  - revert r; induction l as [|a l IH]; simpl; intros r H.
    + inversion H; constructor.
    + inv_bind H. inv_bind H. inversion H; subst. constructor; auto.
  - induction 1 as [|a b l r Hab Hl IH]; simpl; auto.
    rewrite Hab; simpl. rewrite IH. reflexivity.
Qed.

(** Permutation solver for goals built from [++] and [::] only. *)
Lemma Permutation_app_l_cons {A} (a : A) l1 l2 : Permutation (l1 ++ a :: l2) (a :: l1 ++ l2).
Proof. symmetry; apply Permutation_middle. Qed.

(** Conversion must never unfold a 2^63-step loop; use the lemmas above. *)
Global Opaque loop_pos.

(** Split conjunctions only (never records or other inductives). *)
Ltac conj := repeat match goal with |- _ /\ _ => split end.

Lemma mapM_perm {A B} (f : A -> res B) l l' t :
  Permutation l l' -> mapM f l = Ok t -> exists t', mapM f l' = Ok t' /\ Permutation t t'.
Proof.
  intros Hp. revert t. induction Hp as [|a l l' Hp IH|a b l|l1 l2 l3 H12 IH12 H23 IH23]; intros t H.
  - exists t; auto.
  - cbn [mapM] in *. inv_bind H. inv_bind H. inversion H; subst.
    destruct (IH _ Hm0) as [t' [H1 H2]]. rewrite Hm, H1. cbn [bind]. eauto.
  - cbn [mapM] in *. inv_bind H. inv_bind H. inv_bind Hm0. inv_bind Hm0.
    inversion H; inversion Hm0; subst. rewrite Hm, Hm1, Hm2. cbn [bind].
    eexists; split; [reflexivity|]. apply perm_swap.
  - destruct (IH12 _ H) as [t2 [H1 H2]]. destruct (IH23 _ H1) as [t3 [H3 H4]].
    exists t3; split; auto. eapply Permutation_trans; eauto.
Qed.

Lemma mapM_get_range {A} (l : list A) : mapM (py_get l) (range (List.length l)) = Ok l.
Proof.
  apply mapM_Ok_Forall2. unfold range.
  assert (G : forall (m pre : list A), Forall2 (fun a b => py_get (pre ++ m) a = Ok b)
            (seq (List.length pre) (List.length m)) m).
  { induction m as [|x m IH]; intros pre; cbn [seq List.length]; constructor.
    - apply py_get_Ok. rewrite nth_error_app2 by lia. rewrite Nat.sub_diag. reflexivity.
    - specialize (IH (pre ++ [x])). rewrite <- app_assoc in IH. cbn [app] in IH.
      rewrite app_length in IH. simpl in IH. rewrite Nat.add_1_r in IH. exact IH. }
  apply (G l []).
Qed.

Lemma mapM_get_perm {A} (l out : list A) order :
  Permutation (range (List.length l)) order -> mapM (py_get l) order = Ok out -> Permutation l out.
Proof.
  intros Hp H. destruct (mapM_perm _ Hp (mapM_get_range l)) as [t [H1 H2]]. congruence.
Qed.

Lemma skipn_skipn {A} (n m : nat) (l : list A) : skipn n (skipn m l) = skipn (n + m) l.
Proof.
  revert l; induction m as [|m IH]; intros l.
  - rewrite Nat.add_0_r. reflexivity.
  - destruct l as [|a l]; [rewrite !skipn_nil; reflexivity|].
    rewrite Nat.add_succ_r. cbn [skipn]. apply IH.
Qed.
