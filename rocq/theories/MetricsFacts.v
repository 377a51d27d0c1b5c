(** Lemmas for C31, any arithmetic: an evaluation, one key at a time. *)
From Verif Require Import Base BaseFacts Checkpoint CheckpointFacts Json JsonFacts Metrics.
Set Implicit Arguments. Unset Strict Implicit.

Lemma mapM_Forall2 (A B : Type) (f : A -> res B) l : forall r, mapM f l = Ok r <-> Forall2 (fun x y => f x = Ok y) l r.
Proof.
  induction l as [|a t IH]; intros r; cbn.
  - split; [intros H; injection H as <-; constructor|intros H; inversion H; reflexivity].
  - split.
    + intros H. destruct (f a) as [b|] eqn:E; [|discriminate]. cbn in H. destruct (mapM f t) as [bs|]; [|discriminate]. injection H as <-.
      constructor; [exact E|apply IH; reflexivity].
    + intros H. inversion H as [|? ? ? ? H1 H2]; subst. rewrite H1. apply IH in H2. rewrite H2. reflexivity.
Qed.
Lemma Forall2_eq_map (A B C : Type) (f : A -> C) (g : B -> C) l r : Forall2 (fun x y => f x = g y) l r -> map f l = map g r.
Proof. induction 1; cbn; congruence. Qed.

Section Dict.
Variable A : Type.
Implicit Types l : list (ustr * A).
Lemma obj_get_in l k v : obj_get l k = Some v -> In (k, v) l.
Proof.
  induction l as [|[k' v'] l IH]; cbn; [discriminate|]. destruct (ustr_eqb k k') eqn:E.
  - intros H. injection H as <-. apply ustr_eqb_eq in E as <-. left; reflexivity.
  - intros H. right. auto.
Qed.
Lemma obj_get_nodup l k v : NoDup (map fst l) -> In (k, v) l -> obj_get l k = Some v.
Proof.
  induction l as [|[k' v'] l IH]; intros N H; [destruct H|]. cbn [map fst] in N. inversion N as [|? ? N1 N2]; subst. cbn.
  destruct (ustr_eqb k k') eqn:E.
  - destruct H as [H|H]; [injection H as <- <-; reflexivity|]. apply ustr_eqb_eq in E as ->. exfalso. apply N1. apply (in_map fst) in H. exact H.
  - destruct H as [H|H]; [injection H as <- <-; rewrite ustr_eqb_refl in E; discriminate|]. apply IH; assumption.
Qed.
Lemma obj_get_none l k : obj_get l k = None <-> ~ In k (map fst l).
Proof.
  induction l as [|[k' v'] l IH]; cbn; [tauto|]. destruct (ustr_eqb k k') eqn:E.
  - apply ustr_eqb_eq in E as <-. split; [discriminate|tauto].
  - apply ustr_eqb_neq in E. rewrite IH. split; [intros H [X|X]; [congruence|tauto]|tauto].
Qed.
Lemma obj_get_set_same l k v : obj_get (obj_set l k v) k = Some v.
Proof. induction l as [|[k' v'] l IH]; cbn; [now rewrite ustr_eqb_refl|]. destruct (ustr_eqb k k') eqn:E; cbn; rewrite ?ustr_eqb_refl, ?E; auto. Qed.
Lemma obj_get_set_other l k k' v : k <> k' -> obj_get (obj_set l k v) k' = obj_get l k'.
Proof.
  intros N. induction l as [|[k0 v0] l IH]; cbn.
  - destruct (ustr_eqb k' k) eqn:E; [apply ustr_eqb_eq in E; congruence|reflexivity].
  - destruct (ustr_eqb k k0) eqn:E; cbn.
    + apply ustr_eqb_eq in E as <-. destruct (ustr_eqb k' k) eqn:E; [apply ustr_eqb_eq in E; congruence|reflexivity].
    + rewrite IH. reflexivity.
Qed.
Lemma obj_get_perm l l' k : NoDup (map fst l) -> Permutation l l' -> obj_get l k = obj_get l' k.
Proof.
  intros N P. assert (N' : NoDup (map fst l')) by (eapply Permutation_NoDup; [apply Permutation_map; exact P|exact N]).
  destruct (obj_get l k) as [v|] eqn:E.
  - symmetry. apply obj_get_nodup; [exact N'|]. apply obj_get_in in E. eapply Permutation_in; eauto.
  - symmetry. apply obj_get_none. apply obj_get_none in E. intros H. apply E. eapply Permutation_in; [symmetry; apply Permutation_map; exact P|exact H].
Qed.
Lemma sorted_get l k : NoDup (map fst l) -> obj_get (sorted_items l) k = obj_get l k.
Proof. intros N. symmetry. apply obj_get_perm; [exact N|]. symmetry. apply sort_perm. Qed.
Lemma sorted_nodup l : NoDup (map fst l) -> NoDup (map fst (sorted_items l)).
Proof. intros N. eapply Permutation_NoDup; [|exact N]. apply Permutation_map. symmetry. apply sort_perm. Qed.
End Dict.

(** A dictionary built key by key. *)
Lemma mapM_dict (A B : Type) (f : ustr * A -> res B) (l : list (ustr * A)) r k :
  mapM (fun kv => y <- f kv ;; Ok (fst kv, y)) l = Ok r ->
  map fst r = map fst l /\
  match obj_get l k with Some v => exists y, f (k, v) = Ok y /\ obj_get r k = Some y | None => obj_get r k = None end.
Proof.
  revert r. induction l as [|[k' v'] l IH]; intros r H; cbn in H; [injection H as <-; split; reflexivity|].
  destruct (f (k', v')) as [y|] eqn:E; [|discriminate]. cbn in H. destruct (mapM _ l) as [t|] eqn:Et; [|discriminate]. injection H as <-.
  destruct (IH t eq_refl) as (H1 & H2). split; [cbn; rewrite H1; reflexivity|]. cbn. destruct (ustr_eqb k k') eqn:Ek.
  - apply ustr_eqb_eq in Ek as <-. exists y. split; [exact E|reflexivity].
  - exact H2.
Qed.

(** ** One key of an evaluation *)
Section Key.
Variable R : arith.
Notation stat := (stat R).
Notation metrics := (metrics R).
Notation tensor := (tensor R).
Variable finalizers : ustr -> option (list (ustr * tensor) -> list (ustr * Z) -> res tensor).
Variable schema_valid : ustr -> list ustr -> list ustr -> bool.
Variable reduce_max : list tensor -> res tensor.
Notation evaluate := (@evaluate R finalizers schema_valid reduce_max).
Notation run_steps := (@run_steps R finalizers schema_valid).
Notation step := (@step R finalizers schema_valid).
Notation close_key := (@close_key R finalizers schema_valid).
Notation close_batch := (@close_batch R finalizers schema_valid).
Notation accumulate := (@accumulate R finalizers schema_valid).
Notation accumulate_key := (@accumulate_key R finalizers schema_valid).
Notation accumulate_ranks := (@accumulate_ranks R finalizers schema_valid).
Notation gather_key := (@gather_key R finalizers schema_valid reduce_max).

Lemma accumulate_get values : forall totals inc t' k, NoDup (map fst values) -> accumulate totals inc values = Ok t' ->
  match obj_get values k with
  | Some v => exists x, accumulate_key (obj_get totals k) inc v = Ok x /\ obj_get t' k = Some x
  | None => obj_get t' k = obj_get totals k
  end.
Proof.
  induction values as [|[k' v'] values IH]; intros totals inc t' k N H; cbn in H; [injection H as <-; reflexivity|].
  cbn [map fst] in N. inversion N as [|? ? N1 N2]; subst.
  destruct (accumulate_key (obj_get totals k') inc v') as [x|] eqn:E; [|discriminate]. cbn [bind] in H.
  specialize (IH _ _ _ k N2 H). cbn. destruct (ustr_eqb k k') eqn:Ek.
  - apply ustr_eqb_eq in Ek as <-. apply obj_get_none in N1. rewrite N1 in IH. exists x. split; [exact E|]. rewrite IH. apply obj_get_set_same.
  - apply ustr_eqb_neq in Ek. rewrite obj_get_set_other in IH by congruence. exact IH.
Qed.

(** What one step does to the totals of one key. *)
Fixpoint acc_column (ts : list (option stat)) (incs : list bool) (closed : list stat) : res (list (option stat)) :=
  match ts, incs, closed with
  | t :: ts, i :: is, c :: cs => x <- accumulate_key t i c ;; r <- acc_column ts is cs ;; Ok (Some x :: r)
  | [], [], [] => Ok []
  | _, _, _ => Err RuntimeError
  end.
Definition key_step (ts : list (option stat)) (column : list (bool * stat)) : res (list (option stat)) :=
  closed <- close_key column ;; acc_column ts (map fst column) closed.
Fixpoint key_run (ts : list (option stat)) (columns : list (list (bool * stat))) : res (list (option stat)) :=
  match columns with [] => Ok ts | c :: r => ts' <- key_step ts c ;; key_run ts' r end.

Lemma nth_error_ext (A : Type) (l l' : list A) : (forall i, nth_error l i = nth_error l' i) -> l = l'.
Proof.
  revert l'. induction l as [|a l IH]; intros [|b l'] H; [reflexivity|specialize (H 0%nat); discriminate|specialize (H 0%nat); discriminate|].
  pose proof (H 0%nat) as H0. injection H0 as ->. f_equal. apply IH. intros i. apply (H (S i)).
Qed.
Lemma mapM_seq (A : Type) (f : nat -> res A) n : forall a rows, mapM f (seq a n) = Ok rows ->
  List.length rows = n /\ forall i r, nth_error rows i = Some r -> f (a + i)%nat = Ok r.
Proof.
  induction n as [|n IH]; intros a rows H; cbn in H; [injection H as <-; split; [reflexivity|intros [|i] r Hi; discriminate]|].
  destruct (f a) as [x|] eqn:E; [|discriminate]. cbn [bind] in H. destruct (mapM f (seq (S a) n)) as [t|] eqn:Et; [|discriminate]. injection H as <-.
  destruct (IH _ _ Et) as (L & Hr). split; [cbn; rewrite L; reflexivity|]. intros [|i] r Hi; cbn in Hi.
  - injection Hi as <-. rewrite Nat.add_0_r. exact E.
  - rewrite <- Nat.add_succ_comm. apply Hr. exact Hi.
Qed.

Lemma acc_ranks k incs : forall totals rows totals' closed,
  accumulate_ranks totals incs rows = Ok totals' -> (forall r, In r rows -> NoDup (map fst r)) ->
  List.length closed = List.length rows -> (forall i r, nth_error rows i = Some r -> obj_get r k = nth_error closed i) ->
  acc_column (map (fun t => obj_get t k) totals) incs closed = Ok (map (fun t => obj_get t k) totals').
Proof.
  induction incs as [|i is IH]; intros [|t ts] [|r rs] totals' closed H N L G; cbn in H; try discriminate.
  - injection H as <-. destruct closed; [reflexivity|discriminate].
  - destruct (accumulate t i r) as [t'|] eqn:E1; [|discriminate]. cbn [bind] in H. destruct (accumulate_ranks ts is rs) as [ts'|] eqn:E2; [|discriminate]. injection H as <-.
    destruct closed as [|c cs]; [discriminate|]. pose proof (@accumulate_get r t i t' k (N r (or_introl eq_refl)) E1) as A.
    rewrite (G 0%nat r eq_refl) in A. cbn in A. destruct A as (x & A1 & A2). cbn [map acc_column]. rewrite A1. cbn [bind].
    rewrite (IH ts rs ts' cs E2); [cbn [bind]; rewrite A2; reflexivity| | |].
    + intros r' Hr. apply N. right; exact Hr.
    + cbn in L. lia.
    + intros j r' Hj. apply (G (S j) r' Hj).
Qed.

Lemma step_key st ranks st' k : step st ranks = Ok st' -> (forall r, In r ranks -> NoDup (map fst (snd r))) ->
  (forall r, In r ranks -> exists s, obj_get (snd r) k = Some s) ->
  exists column, Forall2 (fun r c => fst c = fst r /\ obj_get (snd r) k = Some (snd c)) ranks column /\
    key_step (map (fun t => obj_get t k) (totals st)) column = Ok (map (fun t => obj_get t k) (totals st')) /\
    batches st' = batches st + zsum (map (fun r : bool * metrics => if fst r then 1 else 0) ranks).
Proof.
  unfold Metrics.step. intros H N K. destruct (preflight _ _) as [e|]; [|discriminate]. cbn [bind] in H.
  destruct (close_batch ranks) as [closed|] eqn:Ec; [|discriminate]. cbn [bind] in H.
  destruct (mapM (@row R closed) _) as [rows|] eqn:Er; [|discriminate]. cbn [bind] in H.
  destruct (accumulate_ranks (totals st) _ rows) as [t|] eqn:Ea; [|discriminate]. injection H as <-. cbn [totals batches].
  unfold Metrics.close_batch in Ec. destruct ranks as [|[i0 m] rest]; [discriminate|].
  set (ranks := (i0, m) :: rest) in *.
  assert (Nm : NoDup (map fst m)) by (apply (N (i0, m)); left; reflexivity).
  destruct (K (i0, m) (or_introl eq_refl)) as (s0 & Hs0). cbn [snd] in Hs0.
  set (f := fun kv : ustr * stat => column <- mapM (fun r : bool * list (ustr * stat) => s <- lookup (fst kv) (snd r) ;; Ok (fst r, s)) ranks ;; close_key column).
  assert (Ec' : mapM (fun kv => y <- f kv ;; Ok (fst kv, y)) (sorted_items m) = Ok closed).
  { rewrite <- Ec. unfold f. clearbody ranks. clear. induction (sorted_items m) as [|kv l IH]; [reflexivity|]. cbn [mapM]. rewrite IH.
    match goal with |- context [mapM ?g ranks] => destruct (mapM g ranks) as [a|] end; cbn [bind]; [|reflexivity]. destruct (close_key a); reflexivity. }
  destruct (@mapM_dict _ _ f (sorted_items m) closed k Ec') as (D1 & D2). rewrite sorted_get in D2 by exact Nm. rewrite Hs0 in D2.
  destruct D2 as (cl & D2 & D3). unfold f in D2. cbn [fst] in D2.
  match type of D2 with context [mapM ?g ranks] => destruct (mapM g ranks) as [column|] eqn:Em end; [|discriminate]. cbn [bind] in D2.
  exists column. split; [|split; [|reflexivity]].
  { apply mapM_Forall2 in Em. clear - Em. induction Em as [|r c rs cs E _ IH]; constructor; [|exact IH].
    unfold lookup in E. destruct (obj_get (snd r) k) as [s|]; [|discriminate]. injection E as <-. split; reflexivity. }
  unfold key_step. rewrite D2. cbn [bind].
  assert (Ef : map fst column = map fst ranks).
  { apply mapM_Forall2 in Em. symmetry. clear - Em. induction Em as [|r c rs cs E _ IH]; [reflexivity|]. cbn. rewrite IH. f_equal.
    unfold lookup in E. destruct (obj_get (snd r) k) as [s|]; [|discriminate]. injection E as <-. reflexivity. }
  rewrite Ef.
  destruct (mapM_seq Er) as (Lr & Hr). cbn [plus] in Hr.
  assert (Row : forall i r, nth_error rows i = Some r -> map fst r = map fst closed /\ obj_get r k = nth_error cl i).
  { intros i r Hi. specialize (Hr i r Hi). unfold row in Hr.
    destruct (@mapM_dict _ _ (fun kc => py_get (snd kc) i) closed r k) as (M1 & M2).
    { exact Hr. }
    rewrite D3 in M2. destruct M2 as (y & M2 & M3). split; [exact M1|]. rewrite M3. cbn [snd] in M2. apply py_get_Ok in M2. symmetry; exact M2. }
  apply acc_ranks with (rows := rows).
  - exact Ea.
  - intros r Hin. apply In_nth_error in Hin as (i & Hi). destruct (Row i r Hi) as (-> & _). rewrite D1. apply sorted_nodup. exact Nm.
  - (* lengths *) rewrite Lr. apply mapM_Ok_length in Em. etransitivity; [|exact Em].
    clear - D2. unfold Metrics.close_key in D2. destruct column as [|[i s] c]; [discriminate|].
    assert (X : mapM (keep_or_empty (R:=R) finalizers schema_valid) ((i, s) :: c) = Ok cl -> List.length cl = List.length ((i, s) :: c)) by apply mapM_Ok_length.
    destruct s as [[] t n|t n|[] fid x n]; auto.
    + repeat match type of D2 with bind ?m _ = _ => destruct m; cbn [bind] in D2; [|discriminate] end. injection D2 as <-. cbn. rewrite map_length. reflexivity.
    + repeat match type of D2 with bind ?m _ = _ => destruct m; cbn [bind] in D2; [|discriminate] end. injection D2 as <-. cbn. rewrite map_length. reflexivity.
  - intros i r Hi. apply (Row i r Hi).
Qed.

Lemma run_key k l : forall st st', run_steps st l = Ok st' ->
  (forall s r, In s l -> In r s -> NoDup (map fst (snd r)) /\ exists x, obj_get (snd r) k = Some x) ->
  exists columns, Forall2 (Forall2 (fun (r : bool * metrics) c => fst c = fst r /\ obj_get (snd r) k = Some (snd c))) l columns /\
    key_run (map (fun t => obj_get t k) (totals st)) columns = Ok (map (fun t => obj_get t k) (totals st')) /\
    batches st' = batches st + zsum (map (fun s => zsum (map (fun r : bool * metrics => if fst r then 1 else 0) s)) l).
Proof.
  induction l as [|s l IH]; intros st st' H K; cbn in H.
  - injection H as <-. exists []. split; [constructor|]. split; [reflexivity|]. cbn. lia.
  - destruct (step st s) as [st1|] eqn:E; [|discriminate]. cbn [bind] in H.
    destruct (@step_key st s st1 k E) as (c & C1 & C2 & C3); [intros r Hr; apply (K s r); [left; reflexivity|exact Hr]..|].
    destruct (IH st1 st' H) as (cs & D1 & D2 & D3); [intros s' r Hs Hr; apply (K s' r); [right; exact Hs|exact Hr]|].
    exists (c :: cs). split; [constructor; assumption|]. split; [cbn; rewrite C2; exact D2|]. cbn [map]. rewrite zsum_cons. lia.
Qed.

Lemma map_repeat (A B : Type) (f : A -> B) x n : map f (repeat x n) = repeat (f x) n.
Proof. induction n; cbn; congruence. Qed.
Theorem evaluate_key world l out k v : evaluate world l = Ok out -> obj_get out k = Some v ->
  (forall s r, In s l -> In r s -> NoDup (map fst (snd r)) /\ exists x, obj_get (snd r) k = Some x) ->
  exists columns column t,
    Forall2 (Forall2 (fun (r : bool * metrics) c => fst c = fst r /\ obj_get (snd r) k = Some (snd c))) l columns /\
    key_run (repeat None world) columns = Ok (map Some column) /\ gather_key column = Ok t /\ item t = Ok v /\
    zsum (map (fun s => zsum (map (fun r : bool * metrics => if fst r then 1 else 0) s)) l) <> 0.
Proof.
  unfold Metrics.evaluate. intros H Hv K. destruct (run_steps _ l) as [st|] eqn:E; [|discriminate]. cbn [bind] in H.
  destruct (run_key E K) as (columns & C1 & C2 & C3). cbn [totals batches] in C2, C3. rewrite map_repeat in C2. cbn [obj_get] in C2.
  unfold gather in H. apply guard_Ok in H as (Hb & H). destruct (totals st) as [|m ts] eqn:Et; [discriminate|].
  set (f := fun kv : ustr * stat => column <- mapM (lookup (fst kv)) (m :: ts) ;; t <- gather_key column ;; item t).
  assert (H' : mapM (fun kv => y <- f kv ;; Ok (fst kv, y)) (sorted_items m) = Ok out).
  { rewrite <- H. unfold f. clear. generalize (m :: ts). intros all. induction (sorted_items m) as [|kv l IH]; [reflexivity|]. cbn [mapM]. rewrite IH.
    match goal with |- context [mapM ?g all] => destruct (mapM g all) as [c|] end; cbn [bind]; [|reflexivity]. destruct (gather_key c) as [t|]; cbn [bind]; [|reflexivity]. destruct (item t); reflexivity. }
  destruct (mapM_dict k H') as (D1 & D2). destruct (obj_get (sorted_items m) k) as [s|]; [|congruence].
  destruct D2 as (y & D2 & D3). rewrite Hv in D3. injection D3 as <-. unfold f in D2. cbn [fst] in D2.
  match type of D2 with context [mapM ?g (m :: ts)] => destruct (mapM g (m :: ts)) as [column|] eqn:Em end; [|discriminate]. cbn [bind] in D2. destruct (gather_key column) as [t|] eqn:Eg; [|discriminate]. cbn [bind] in D2.
  exists columns, column, t. split; [exact C1|]. split; [|split; [exact Eg|split; [exact D2|]]].
  - rewrite C2. f_equal. apply mapM_Forall2 in Em. clear - Em. induction Em as [|r c rs cs E _ IH]; [reflexivity|]. cbn. rewrite IH. f_equal.
    unfold lookup in E. destruct (obj_get r k); [congruence|discriminate].
  - rewrite C3 in Hb. intros X. rewrite X in Hb. discriminate.
Qed.
End Key.
