(** Sums, dictionaries and the terms of the loss, for C67-C69. *)
From Coq Require Import String Field_theory Field Ring.
From Verif Require Import Base BaseFacts DecoderFacts Loss LossSpec.
Set Implicit Arguments. Unset Strict Implicit.

(** ** Dictionaries *)
Section Dict.
Definition dict_rel A B (P : A -> B -> Prop) (m : dict A) (n : dict B) : Prop := Forall2 (fun x y => fst x = fst y /\ P (snd x) (snd y)) m n.
Lemma dict_set_rel A B (P : A -> B -> Prop) m n k x y : dict_rel P m n -> P x y -> dict_rel P (dict_set m k x) (dict_set n k y).
Proof.
  intros H Hp. induction H as [|(k1, a) (k2, b) m n (E & Pab) H IH]; cbn.
  - repeat constructor. exact Hp.
  - cbn in E. subst k2. destruct (String.eqb k1 k); constructor; auto.
Qed.
Lemma dict_update_rel A B (P : A -> B -> Prop) l l' : dict_rel P l l' -> forall m n, dict_rel P m n -> dict_rel P (dict_update m l) (dict_update n l').
Proof.
  induction 1 as [|(k1, a) (k2, b) l l' (E & Pab) H IH]; intros m n Hm; [exact Hm|]. cbn in E. subst k2. apply IH. apply dict_set_rel; assumption.
Qed.
Lemma prefixed_rel A B (P : A -> B -> Prop) m n : dict_rel P m n -> dict_rel P (prefixed m) (prefixed n).
Proof. induction 1 as [|(k1, a) (k2, b) l l' (E & Pab) H IH]; constructor; auto. cbn in *. subst. auto. Qed.
Lemma dict_rel_map A B C D (P : A -> B -> Prop) (Q : C -> D -> Prop) (f : A -> C) (g : B -> D) m n :
  (forall a b, P a b -> Q (f a) (g b)) -> dict_rel P m n -> dict_rel Q (map (fun '(k, v) => (k, f v)) m) (map (fun '(k, v) => (k, g v)) n).
Proof. intros H. induction 1 as [|(k1, a) (k2, b) l l' (E & Pab) HF IH]; constructor; auto. cbn in *. auto. Qed.
Lemma dict_rel_eq A B (f : A -> B) m n : dict_rel (fun a b => b = f a) m n <-> n = map (fun '(k, v) => (k, f v)) m.
Proof.
  split.
  - induction 1 as [|(k1, a) (k2, b) l l' (E & Pab) H IH]; [reflexivity|]. cbn in *. congruence.
  - intros ->. induction m as [|(k, a) m IH]; constructor; auto.
Qed.
End Dict.

Section Facts.
Context {R : Type} {N : numbers R} {row : Type}.
Variables (ropp rinv : R -> R).
Hypothesis F : field_theory r0 r1 radd rmul rsub ropp rdiv rinv eq.
Add Field R_field : F.
Notation "x + y" := (radd x y). Notation "x * y" := (rmul x y). Notation "x - y" := (rsub x y). Notation "x / y" := (rdiv x y).
Hypothesis char0 : forall n, n <> 0%nat -> inj n <> r0.
Hypothesis constant : forall x, too_far x r0 = false.
Hypothesis softmax_length : forall l : list R, List.length (softmax l) = List.length l.

Lemma inj_add a b : inj (a + b)%nat = inj a + inj b.
Proof. induction a as [|a IH]; cbn [inj Nat.add]; [ring|]. rewrite IH. ring. Qed.
Lemma rsum_app a b : rsum (a ++ b) = rsum a + rsum b.
Proof. induction a as [|x a IH]; cbn [rsum app]; [ring|]. rewrite IH. ring. Qed.
Lemma rsum_split A (f : A -> R) p l : rsum (map f (filter p l)) + rsum (map f (filter (fun x => negb (p x)) l)) = rsum (map f l).
Proof. induction l as [|x l IH]; cbn; [ring|]. rewrite <- IH. destruct (p x); cbn; ring. Qed.

(** ** Optional sums *)
Definition osum (acc : option R) (l : list R) : option R := fold_left (fun acc x => Some (match acc with None => x | Some a => a + x end)) l acc.
Lemma osum_app l l' acc : osum (osum acc l) l' = osum acc (l ++ l').
Proof. unfold osum. rewrite fold_left_app. reflexivity. Qed.
Lemma osum_some l : forall a, osum (Some a) l = Some (a + rsum l).
Proof. induction l as [|x l IH]; intros a; cbn [osum fold_left rsum]; [f_equal; ring|]. change (osum (Some (a + x)) l = Some (a + (x + rsum l))). rewrite IH. f_equal. ring. Qed.
Lemma osum_none l : osum None l = match l with [] => None | _ => Some (rsum l) end.
Proof. destruct l as [|x l]; [reflexivity|]. change (osum (Some x) l = Some (rsum (x :: l))). rewrite osum_some. reflexivity. Qed.
Lemma osum_split A (f : A -> R) p l : osum (osum None (map f (filter p l))) (map f (filter (fun x => negb (p x)) l)) = osum None (map f l).
Proof.
  rewrite osum_app, !osum_none. pose proof (rsum_split f p l) as E. rewrite <- rsum_app in E.
  destruct l as [|x l]; [reflexivity|]. remember (map f (filter p (x :: l)) ++ map f (filter (fun y => negb (p y)) (x :: l))) as m. destruct m as [|y m].
  - exfalso. cbn in Heqm. destruct (p x); cbn in Heqm; [discriminate|]. destruct (map f (filter p l)); discriminate.
  - rewrite E. reflexivity.
Qed.
Lemma sum_terms_osum (ts : list (term R row R)) dep rows :
  sum_terms ts dep rows = osum None (map (fun t => t_weight t * t_of t rows) (filter (fun t => match dep with Some b => Bool.eqb (t_dependent t) b | None => true end) ts)).
Proof.
  unfold sum_terms; unfold osum. generalize (@None R). induction ts as [|t ts IH]; intros acc; [reflexivity|]. cbn [fold_left filter]. destruct dep as [b|].
  - destruct (Bool.eqb (t_dependent t) b); cbn [negb map fold_left]; apply IH.
  - cbn [map fold_left]. apply IH.
Qed.

(** ** One entry *)
Definition scaled (k : nat) g (u : term R row (stat R)) (rows : list row) : entry R :=
  {| e_group := g; e_stat := t_of u rows; e_weight := inj k * t_weight u; e_square := inj k * square (t_weight u); e_replicas := k |}.
Lemma constant_ok k w : k <> 0%nat -> constant_mean (inj k * w) (inj k * square w) k = Ok w.
Proof.
  intros H. unfold constant_mean. destruct (Nat.eqb_spec k 0); [contradiction|]. cbn [negb]. pose proof (char0 H) as Nz.
  assert (E1 : inj k * w / inj k = w) by (field; exact Nz). assert (E2 : inj k * square w / inj k - square w = r0) by (unfold square; field; exact Nz).
  rewrite E1, E2, constant. reflexivity.
Qed.
Lemma scaled_entry k g u rows v : k <> 0%nat -> finalize_stat (t_of u rows) = Ok v -> finalize_entry (scaled k g u rows) = Ok (t_weight u * v).
Proof.
  intros H E. unfold finalize_entry, scaled. cbn [e_stat e_weight e_square e_replicas]. rewrite (constant_ok (t_weight u) H).
  destruct (t_of u rows) as [s n|s n]; cbn [finalize_stat] in E; destruct (Nat.eqb_spec n 0); cbn [negb] in *; try discriminate E; injection E as <-; cbn [bind]; f_equal; pose proof (char0 n0); field; assumption.
Qed.

(** ** A training term and its statistic *)
Variable good : list row -> Prop.
Record corr (t : term R row R) (u : term R row (stat R)) : Prop := {
  corr_name : t_name u = t_name t; corr_dep : t_dependent u = t_dependent t; corr_weight : t_weight u = t_weight t;
  corr_add : forall a b, combine_stat (t_of u a) (t_of u b) = Ok (t_of u (a ++ b));
  corr_value : forall rows, good rows -> finalize_stat (t_of u rows) = Ok (t_of t rows) }.

Lemma finalize_list k g rows us ts : k <> 0%nat -> good rows -> Forall2 corr ts us ->
  forall acc, finalize_entries acc (map (fun u => scaled k g u rows) us) = Ok (osum acc (map (fun t => t_weight t * t_of t rows) ts)).
Proof.
  intros Hk G. induction 1 as [|t u ts us C H IH]; intros acc; [reflexivity|]. cbn [map finalize_entries osum fold_left].
  rewrite (scaled_entry g Hk (corr_value C G)). cbn [bind]. rewrite (corr_weight C). apply IH.
Qed.
Lemma Forall2_filter A B (P : A -> B -> Prop) p q l m : (forall a b, P a b -> p a = q b) -> Forall2 P l m -> Forall2 P (filter p l) (filter q m).
Proof. intros H. induction 1 as [|a b l m Pab HF IH]; cbn; [constructor|]. rewrite (H a b Pab). destruct (q b); [constructor|]; auto. Qed.
Definition mean_term rows (u : term R row (stat R)) : bool := match t_of u rows with Mean _ _ => true | Square _ _ => false end.
Lemma filter_map A B (f : A -> B) p l : filter p (map f l) = map f (filter (fun x => p (f x)) l).
Proof. induction l as [|x l IH]; cbn; [reflexivity|]. rewrite IH. destruct (p (f x)); reflexivity. Qed.
Lemma Forall2_combine A B (P : A -> B -> Prop) l m : Forall2 P l m -> l = map fst (combine l m) /\ m = map snd (combine l m) /\ Forall (fun ab => P (fst ab) (snd ab)) (combine l m).
Proof. induction 1 as [|a b l m Pab H (A1 & A2 & A3)]; [repeat constructor|]. cbn. repeat split; try congruence. constructor; assumption. Qed.
Lemma Forall_rel A B (P : A -> B -> Prop) l : Forall (fun ab : A * B => P (fst ab) (snd ab)) l -> Forall2 P (map fst l) (map snd l).
Proof. induction 1; constructor; auto. Qed.
Lemma group_same k g rows us : filter (fun e => group_eqb (e_group e) g) (map (fun u => scaled k g u rows) us) = map (fun u => scaled k g u rows) us.
Proof. induction us as [|u us IH]; cbn; [reflexivity|]. rewrite IH. destruct g; reflexivity. Qed.
Lemma finalize_scaled k g rows us ts : k <> 0%nat -> good rows -> Forall2 corr ts us ->
  finalize_group g (map (fun u => scaled k g u rows) us) = Ok (osum None (map (fun t => t_weight t * t_of t rows) ts)).
Proof.
  intros Hk G H. unfold finalize_group. 
  cbv zeta. rewrite group_same, !filter_map. destruct (Forall2_combine H) as (El & Em & Hc). set (z := combine ts us) in *.
  set (p := fun x : term R row R * term R row (stat R) => mean_term rows (snd x)).
  assert (E1 : filter (fun x => is_mean (scaled k g x rows)) us = map snd (filter p z)) by (rewrite Em, filter_map; reflexivity).
  assert (E2 : filter (fun x => negb (is_mean (scaled k g x rows))) us = map snd (filter (fun x => negb (p x)) z)) by (rewrite Em at 1; rewrite filter_map; reflexivity).
  rewrite E1, E2. assert (Hf : forall q, Forall2 corr (map fst (filter q z)) (map snd (filter q z))).
  { intros q. apply Forall_rel. rewrite Forall_forall in *. intros x Hx. apply Hc. apply filter_In in Hx. apply Hx. }
  rewrite (finalize_list g Hk G (Hf p)). cbn [bind]. rewrite (finalize_list g Hk G (Hf (fun x => negb (p x)))). f_equal. rewrite El, !map_map. apply osum_split.
Qed.
Lemma group_other k g g' rows us : group_eqb g g' = false -> filter (fun e => group_eqb (e_group e) g') (map (fun u => scaled k g u rows) us) = [].
Proof. intros E. induction us as [|u us IH]; cbn; [reflexivity|]. rewrite E. exact IH. Qed.

(** ** Combination *)
Lemma combine_cons x y l m st r : e_group x = e_group y -> combine_stat (e_stat x) (e_stat y) = Ok st -> combine_entries l m = Ok r ->
  combine_entries (x :: l) (y :: m) = Ok ({| e_group := e_group x; e_stat := st; e_weight := e_weight x + e_weight y; e_square := e_square x + e_square y; e_replicas := (e_replicas x + e_replicas y)%nat |} :: r).
Proof. intros Eg Es El. cbn [combine_entries]. rewrite Eg, Es, El. replace (group_eqb _ _) with true by (destruct (e_group y); reflexivity). reflexivity. Qed.
Lemma combine_scaled a b g ra rb us : Forall (fun u : term R row (stat R) => forall x y, combine_stat (t_of u x) (t_of u y) = Ok (t_of u (x ++ y))) us ->
  combine_entries (map (fun u => scaled a g u ra) us) (map (fun u => scaled b g u rb) us) = Ok (map (fun u => scaled (a + b) g u (ra ++ rb)) us).
Proof.
  induction 1 as [|u us Hu H IH]; [reflexivity|]. cbn [map].
  assert (Eg : e_group (scaled a g u ra) = e_group (scaled b g u rb)) by reflexivity.
  rewrite (combine_cons Eg (Hu ra rb) IH). f_equal. apply (f_equal (fun e => e :: map (fun u0 => scaled (a + b) g u0 (ra ++ rb)) us)).
  unfold scaled. cbn [e_group e_weight e_square e_replicas]. rewrite inj_add. f_equal; ring.
Qed.
Lemma combine_entries_app a a' b b' x x' : combine_entries a b = Ok x -> combine_entries a' b' = Ok x' -> combine_entries (a ++ a') (b ++ b') = Ok (x ++ x').
Proof.
  revert b x. induction a as [|e a IH]; intros [|f b] x H H'; cbn [combine_entries app] in *; try discriminate H; [injection H as <-; exact H'|].
  destruct (group_eqb _ _); [|discriminate H]. apply bind_Ok in H. destruct H as (s & Es & H). apply bind_Ok in H. destruct H as (l & E & H). injection H as <-.
  rewrite Es. cbn [bind]. rewrite (IH _ _ E H'). reflexivity.
Qed.
End Facts.
