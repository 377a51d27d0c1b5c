(** Staging copies and the log of AsyncWriter.v. *)
From Verif Require Import Base BaseFacts AsyncWriter.
Set Implicit Arguments.
Unset Strict Implicit.

Section Facts.
Variables V K O : Type.
Notation tree := (tree K O).
Notation state := (state V K O).
Notation event := (event V K O).

(** ** Trees *)
Lemma tree_ind2 (L : Type) (Q : tree L -> Prop) :
  (forall l, Q (Leaf l)) ->
  (forall items, Forall (fun kv => Q (snd kv)) items -> Q (Dict items)) ->
  (forall b items, Forall Q items -> Q (Seq b items)) ->
  (forall o, Q (Other K L o)) -> forall t, Q t.
Proof.
  intros H1 H2 H3 H4. fix IH 1. intros [l|items|b items|o].
  - apply H1.
  - apply H2. induction items as [|[k x] r IHr]; constructor; [apply IH|exact IHr].
  - apply H3. induction items as [|x r IHr]; constructor; [apply IH|exact IHr].
  - apply H4.
Qed.
Lemma map_ext_Forall (A B : Type) (f g : A -> B) l : Forall (fun x => f x = g x) l -> map f l = map g l.
Proof. induction 1; cbn; congruence. Qed.
Lemma tree_map_ext (L M : Type) (f g : L -> M) (t : tree L) : (forall l, In l (leaves t) -> f l = g l) -> tree_map f t = tree_map g t.
Proof.
  induction t as [l|items IH|b items IH|o] using (@tree_ind2 _); intros H; cbn.
  - f_equal. apply H. left. reflexivity.
  - f_equal. apply map_ext_Forall. rewrite Forall_forall in *. intros [k x] Hx. cbn. f_equal. apply (IH _ Hx).
    intros l Hl. apply H. cbn. apply in_flat_map. exists (k, x). auto.
  - f_equal. apply map_ext_Forall. rewrite Forall_forall in *. intros x Hx. apply (IH _ Hx).
    intros l Hl. apply H. cbn. apply in_flat_map. exists x. auto.
  - reflexivity.
Qed.
Lemma tree_map_map (L M N : Type) (f : L -> M) (g : M -> N) (t : tree L) : tree_map g (tree_map f t) = tree_map (fun l => g (f l)) t.
Proof.
  induction t as [l|items IH|b items IH|o] using (@tree_ind2 _); cbn; try reflexivity.
  - f_equal. rewrite map_map. apply map_ext_Forall. rewrite Forall_forall in *. intros [k x] Hx. cbn. f_equal. apply (IH _ Hx).
  - f_equal. rewrite map_map. apply map_ext_Forall. exact IH.
Qed.

(** ** Staging *)
Lemma loc_eqb_eq a b : loc_eqb a b = true <-> a = b.
Proof. destruct a, b; cbn; rewrite ?Nat.eqb_eq; split; intros H; try discriminate; congruence. Qed.
Lemma loc_eqb_refl a : loc_eqb a a = true.
Proof. apply loc_eqb_eq. reflexivity. Qed.
Definition rho (m : memo) (l : loc) : loc := match memo_get m l with Some n => like l n | None => l end.
(** The memo extends, its copies are distinct and numbered below [next]. *)
Definition grows (m m' : memo) := exists x, m' = x ++ m.
Record memo_ok (m : memo) (low next : nat) : Prop := {
  mo_keys : NoDup (map fst m);
  mo_vals : NoDup (map snd m);
  mo_range : forall l n, In (l, n) m -> (low <= n < next)%nat;
  mo_low : (low <= next)%nat
}.
Lemma memo_get_In m l n : memo_get m l = Some n -> In (l, n) m.
Proof.
  induction m as [|[l1 k] m IH]; cbn; [discriminate|]. destruct (loc_eqb l l1) eqn:E; intros H.
  - apply loc_eqb_eq in E. inversion H; subst. left. reflexivity.
  - right. apply IH. exact H.
Qed.
Lemma memo_get_None m l : memo_get m l = None -> ~ In l (map fst m).
Proof.
  induction m as [|[l1 k] m IH]; cbn; [tauto|]. destruct (loc_eqb l l1) eqn:E; [discriminate|]. intros H [X|X].
  - subst. rewrite loc_eqb_refl in E. discriminate.
  - apply (IH H X).
Qed.
Lemma In_memo_get m l n : NoDup (map fst m) -> In (l, n) m -> memo_get m l = Some n.
Proof.
  induction m as [|[l1 k] m IH]; cbn; [tauto|]. intros Hn H. inversion Hn as [|? ? Hni Hn2]; subst. destruct (loc_eqb l l1) eqn:E.
  - apply loc_eqb_eq in E. subst. destruct H as [H|H]; [congruence|]. elim Hni. apply in_map_iff. exists (l1, n). auto.
  - destruct H as [H|H]; [inversion H; subst; rewrite loc_eqb_refl in E; discriminate|]. apply IH; assumption.
Qed.
Lemma grows_refl m : grows m m. Proof. exists []. reflexivity. Qed.
Lemma grows_trans a b c : grows a b -> grows b c -> grows a c.
Proof. intros [x ->] [y ->]. exists (y ++ x). apply app_assoc. Qed.
Lemma grows_get m m' l n : NoDup (map fst m') -> grows m m' -> memo_get m l = Some n -> memo_get m' l = Some n.
Proof. intros Hn [x ->] H. apply In_memo_get; [exact Hn|]. apply in_or_app. right. apply memo_get_In. exact H. Qed.

(** What one staging call does. *)
Definition stages (A : Type) (lv : A -> list loc) (mp : (loc -> loc) -> A -> A) (f : A -> memo * nat -> A * (memo * nat)) (x : A) : Prop :=
  forall m low next, memo_ok m low next -> forall x' m' next', f x (m, next) = (x', (m', next')) ->
  memo_ok m' low next' /\ grows m m' /\ (forall l, In l (lv x) -> memo_get m' l <> None)
  /\ (forall m2, NoDup (map fst m2) -> grows m' m2 -> x' = mp (rho m2) x).

Lemma stage_leaf_ok l m low next : memo_ok m low next -> forall l' m' next', stage_leaf l (m, next) = (l', (m', next')) ->
  memo_ok m' low next' /\ grows m m' /\ memo_get m' l <> None /\ (forall m2, NoDup (map fst m2) -> grows m' m2 -> l' = rho m2 l).
Proof.
  intros Ho l' m' next' H. unfold stage_leaf in H. destruct (memo_get m l) as [n|] eqn:E; inversion H; subst; clear H.
  - split; [exact Ho|]. split; [apply grows_refl|]. split; [congruence|]. intros m2 Hn Hg. unfold rho.
    rewrite (grows_get Hn Hg E). reflexivity.
  - destruct Ho as [H1 H2 H3 H4].
    assert (Hn' : NoDup (map fst ((l, next) :: m))) by (cbn; constructor; [apply memo_get_None; exact E|exact H1]).
    split; [|split; [exists [(l, next)]; reflexivity|split]].
    + constructor; [exact Hn'| | |lia].
      * cbn. constructor; [|exact H2]. intros X. apply in_map_iff in X. destruct X as ((l1, n) & Hx & Hin). cbn in Hx. subst n. apply H3 in Hin. lia.
      * intros l1 n [X|X]; [inversion X; subst; lia|]. apply H3 in X. lia.
    + cbn. rewrite loc_eqb_refl. discriminate.
    + intros m2 Hn Hg. unfold rho. rewrite (@grows_get ((l, next) :: m) m2 l next Hn Hg); [reflexivity|]. cbn. rewrite loc_eqb_refl. reflexivity.
Qed.

Fixpoint stage_dict (items : list (K * tree loc)) st := match items with
  | [] => ([], st)
  | (k, x) :: r => let '(x, st) := stage_tree x st in let '(r, st) := stage_dict r st in ((k, x) :: r, st)
  end.
Lemma stage_tree_dict (items : list (K * tree loc)) st : stage_tree (Dict items) st = let '(items, st) := stage_dict items st in (Dict items, st).
Proof. reflexivity. Qed.
Lemma stage_tree_seq b (items : list (tree loc)) st : stage_tree (Seq b items) st = let '(items, st) := stage_all items st in (Seq b items, st).
Proof. reflexivity. Qed.

Lemma stage_list_ok (items : list (tree loc)) :
  Forall (stages (@leaves K O loc) (@tree_map K O loc loc) (@stage_tree K O)) items ->
  stages (flat_map (@leaves K O loc)) (fun f => map (tree_map f)) (@stage_all K O) items.
Proof.
  induction 1 as [|x r Hx Hr IH]; intros m low next Ho y m' next' H.
  - cbn in H. inversion H; subst. split; [exact Ho|]. split; [apply grows_refl|]. split; [intros l []|]. reflexivity.
  - cbn [stage_all] in H. destruct (stage_tree x (m, next)) as [x1 [m1 n1]] eqn:E1. destruct (stage_all r (m1, n1)) as [r1 [m2 n2]] eqn:E2.
    inversion H; subst; clear H. destruct (Hx _ _ _ Ho _ _ _ E1) as (O1 & G1 & L1 & R1). destruct (IH _ _ _ O1 _ _ _ E2) as (O2 & G2 & L2 & R2).
    split; [exact O2|]. split; [eapply grows_trans; eassumption|]. split.
    + intros l Hl. cbn in Hl. apply in_app_or in Hl. destruct Hl as [Hl|Hl]; [|apply L2; exact Hl].
      specialize (L1 l Hl). destruct (memo_get m1 l) as [n|] eqn:En; [|contradiction]. rewrite (grows_get (mo_keys O2) G2 En). discriminate.
    + intros m3 Hn Hg. cbn [map]. f_equal; [apply R1; [exact Hn|eapply grows_trans; eassumption]|apply R2; assumption].
Qed.
Lemma stage_tree_ok (t : tree loc) : stages (@leaves K O loc) (@tree_map K O loc loc) (@stage_tree K O) t.
Proof.
  induction t as [l|items IH|b items IH|o] using (@tree_ind2 _); intros m low next Ho y m' next' H.
  - cbn [stage_tree] in H. destruct (stage_leaf l (m, next)) as [l1 [m1 n1]] eqn:E. inversion H; subst; clear H.
    destruct (stage_leaf_ok Ho E) as (O1 & G1 & L1 & R1). split; [exact O1|]. split; [exact G1|]. split.
    + intros l0 [<-|[]]. exact L1.
    + intros m2 Hn Hg. cbn. f_equal. apply R1; assumption.
  - rewrite stage_tree_dict in H. destruct (stage_dict items (m, next)) as [items1 [m1 n1]] eqn:E. inversion H; subst; clear H.
    assert (G : memo_ok m' low next' /\ grows m m' /\ (forall l, In l (flat_map (fun kv => leaves (snd kv)) items) -> memo_get m' l <> None)
      /\ (forall m2, NoDup (map fst m2) -> grows m' m2 -> items1 = map (fun kv => (fst kv, tree_map (rho m2) (snd kv))) items)).
    { revert m next Ho items1 m' next' E. induction IH as [|[k x] r Hx Hr IHr]; intros m next Ho items1 m' next' E.
      - cbn in E. inversion E; subst. split; [exact Ho|]. split; [apply grows_refl|]. split; [intros l []|]. reflexivity.
      - cbn [stage_dict] in E. destruct (stage_tree x (m, next)) as [x1 [m1 n1]] eqn:E1. destruct (stage_dict r (m1, n1)) as [r1 [m2 n2]] eqn:E2.
        inversion E; subst; clear E. destruct (Hx _ _ _ Ho _ _ _ E1) as (O1 & G1 & L1 & R1). destruct (IHr _ _ O1 _ _ _ E2) as (O2 & G2 & L2 & R2).
        split; [exact O2|]. split; [eapply grows_trans; eassumption|]. split.
        + intros l Hl. cbn in Hl. apply in_app_or in Hl. destruct Hl as [Hl|Hl]; [|apply L2; exact Hl].
          specialize (L1 l Hl). destruct (memo_get m1 l) as [n|] eqn:En; [|contradiction]. rewrite (grows_get (mo_keys O2) G2 En). discriminate.
        + intros m3 Hn Hg. cbn [map fst snd]. f_equal; [f_equal; apply R1; [exact Hn|eapply grows_trans; eassumption]|apply R2; assumption]. }
    destruct G as (O1 & G1 & L1 & R1). split; [exact O1|]. split; [exact G1|]. split; [exact L1|].
    intros m2 Hn Hg. cbn. f_equal. apply R1; assumption.
  - rewrite stage_tree_seq in H. destruct (stage_all items (m, next)) as [items1 [m1 n1]] eqn:E. inversion H; subst; clear H.
    destruct (stage_list_ok IH Ho E) as (O1 & G1 & L1 & R1). split; [exact O1|]. split; [exact G1|]. split; [exact L1|].
    intros m2 Hn Hg. cbn. f_equal. apply R1; assumption.
  - cbn in H. inversion H; subst. split; [exact Ho|]. split; [apply grows_refl|]. split; [intros l []|]. reflexivity.
Qed.
Lemma stage_all_ok (ps : list (tree loc)) next qs m next' : stage_all ps ([], next) = (qs, (m, next')) ->
  memo_ok m next next' /\ (forall p l, In p ps -> In l (leaves p) -> memo_get m l <> None) /\ qs = map (tree_map (rho m)) ps.
Proof.
  intros H. destruct (@stage_list_ok ps) with (m := @nil (loc * nat)) (low := next) (next := next) (x' := qs) (m' := m) (next' := next') as (O1 & _ & L1 & R1).
  - apply Forall_forall. intros x _. apply stage_tree_ok.
  - constructor; [constructor|constructor|intros ? ? []|lia].
  - exact H.
  - split; [exact O1|]. split; [|apply R1; [apply O1|apply grows_refl]]. intros p l Hp Hl. apply L1. apply in_flat_map. exists p. auto.
Qed.
End Facts.
