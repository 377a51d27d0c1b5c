(** Lemmas about Filter.v. *)
From Verif Require Import Base BaseFacts Json JsonFacts Filter FilterSpec MetricsFacts.
Set Implicit Arguments. Unset Strict Implicit.

Section Ind.
Variable F : Type.
Variable P : expr F -> Prop.
Hypothesis Hconst : forall c, P (Constant c).
Hypothesis Hname : forall n, P (Name n).
Hypothesis Htuple : forall l, Forall P l -> P (Tuple l).
Hypothesis Hlist : forall l, Forall P l -> P (ListLit l).
Hypothesis Hunary : forall o e, P e -> P (UnaryOp o e).
Hypothesis Hbin : forall o l r, P l -> P r -> P (BinOp o l r).
Hypothesis Hcmp : forall l ops cs, P l -> Forall P cs -> P (Compare l ops cs).
Hypothesis Hsub : forall e s, P e -> P s -> P (Subscript e s).
Hypothesis Hattr : forall e a, P e -> P (Attribute e a).
Hypothesis Hcall : forall f args kws, P f -> Forall P args -> P (Call f args kws).
Hypothesis Hslice : forall a b c, (forall e, a = Some e \/ b = Some e \/ c = Some e -> P e) -> P (Slice a b c).
Hypothesis Hother : forall k l, P (Other k l).
Fixpoint expr_ind' (e : expr F) : P e :=
  let fix all (l : list (expr F)) : Forall P l := match l with [] => Forall_nil _ | x :: r => Forall_cons _ (expr_ind' x) (all r) end in
  match e with
  | Constant c => Hconst c
  | Name n => Hname n
  | Tuple l => Htuple (all l)
  | ListLit l => Hlist (all l)
  | UnaryOp o e => Hunary o (expr_ind' e)
  | BinOp o l r => Hbin o (expr_ind' l) (expr_ind' r)
  | Compare l ops cs => Hcmp ops (expr_ind' l) (all cs)
  | Subscript e s => Hsub (expr_ind' e) (expr_ind' s)
  | Attribute e a => Hattr a (expr_ind' e)
  | Call f args kws => Hcall kws (expr_ind' f) (all args)
  | Slice a b c =>
      let o (x : option (expr F)) : forall e, x = Some e -> P e :=
        match x with
        | Some e' => fun e H => match H in _ = y return match y with Some z => P z | None => True end with eq_refl => expr_ind' e' end
        | None => fun e H => match H in _ = y return match y with Some z => P z | None => True end with eq_refl => I end
        end in
      Hslice (fun e H => match H with or_introl H => o a e H | or_intror (or_introl H) => o b e H | or_intror (or_intror H) => o c e H end)
  | Other k l => Hother k l
  end.
End Ind.

Section Monad.
Variables (F D : Type).
Lemma andthen_inv A B (m : M F D A) (k : A -> M F D B) log b : andthen m k = (log, Ok b) ->
  exists log1 a log2, m = (log1, Ok a) /\ k a = (log2, Ok b) /\ log = log1 ++ log2.
Proof.
  unfold andthen. destruct m as [log1 [a|e]]; [|discriminate]. destruct (k a) as [log2 r] eqn:E. intros H. injection H as <- ->. exists log1, a, log2. auto.
Qed.
Lemma lift_inv A (r : res A) log a : @lift F D A r = (log, Ok a) -> r = Ok a.
Proof. intros H. injection H as _ H. exact H. Qed.
Lemma need_inv b e log u : @need F D b e = (log, Ok u) -> b = true.
Proof. unfold need. destruct b; [reflexivity|discriminate]. Qed.
Lemma ret_inv A (a b : A) log : @ret F D A a = (log, Ok b) -> a = b.
Proof. intros H. injection H as _ H. exact H. Qed.
Lemma perform_inv ev made wrap r log v : @perform F D ev made wrap r = (log, Ok v) -> r = Ok v.
Proof.
  unfold perform. intros H. apply andthen_inv in H as (l1 & u & l2 & _ & H & _). destruct r as [w|x]; [|discriminate].
  apply andthen_inv in H as (l3 & u' & l4 & _ & H & _). apply ret_inv in H. congruence.
Qed.
Variable Q : event F D -> Prop.
Lemma andthen_log A B (m : M F D A) (k : A -> M F D B) : Forall Q (fst m) -> (forall a, snd m = Ok a -> Forall Q (fst (k a))) -> Forall Q (fst (andthen m k)).
Proof.
  unfold andthen. destruct m as [log1 [a|e]]; cbn [fst snd]; intros H1 H2; [|exact H1]. specialize (H2 a eq_refl). destruct (k a) as [log2 r]. cbn [fst] in *. apply Forall_app. auto.
Qed.
Lemma perform_log ev made wrap r : Q ev -> (forall v, r = Ok v -> Q (made v)) -> Forall Q (fst (@perform F D ev made wrap r)).
Proof.
  intros H1 H2. unfold perform. apply andthen_log; [repeat constructor; exact H1|]. intros _ _. destruct r as [v|x]; [|constructor].
  apply andthen_log; [repeat constructor; apply H2; reflexivity|]. intros. constructor.
Qed.
Lemma need_log b e : Forall Q (fst (@need F D b e)).
Proof. unfold need. destruct b; constructor. Qed.
Lemma lift_log A (r : res A) : Forall Q (fst (@lift F D A r)).
Proof. constructor. Qed.
End Monad.

Lemma member_spec k l : member k l = true <-> List.In k l.
Proof.
  unfold member. rewrite existsb_exists. split.
  - intros (x & H & E). apply ustr_eqb_eq in E. subst. exact H.
  - intros H. exists k. split; [exact H|]. apply ustr_eqb_eq. reflexivity.
Qed.
Lemma dunder_spec n : dunder n = false -> firstn 2 n <> ulit "__".
Proof.
  intros H E. destruct n as [|a [|b n]]; try discriminate E. cbn in E. injection E as -> ->. discriminate H.
Qed.
Lemma each_res_inv A B (f : A -> res B) l : forall bs, each_res f l = Ok bs -> Forall2 (fun a b => f a = Ok b) l bs.
Proof.
  induction l as [|a l IH]; intros bs H; cbn in H.
  - injection H as <-. constructor.
  - destruct (f a) as [b|] eqn:E; [|discriminate]. cbn in H. destruct (each_res f l) as [bs'|]; [|discriminate]. cbn in H. injection H as <-. constructor; auto.
Qed.

Section Lang.
Variables (F : Type) (finite : F -> bool) (D : Type).
Lemma index_literal_ok (e : expr F) : forall i, index_literal finite D e = Ok i -> index_syntax e /\ index_meaning e i.
Proof.
  assert (L : forall l is, Forall (fun e : expr F => forall i, index_literal finite D e = Ok i -> index_syntax e /\ index_meaning e i) l ->
    each_res (index_literal finite D) l = Ok is -> (forall e, List.In e l -> index_syntax e) /\ index_meanings l is).
  { intros l is IH H. apply each_res_inv in H. induction H as [|a b l bs E _ IHl].
    - split; [intros e0 []|constructor].
    - inversion IH as [|? ? Ha Hl]; subst. destruct (IHl Hl) as (I1 & I2). destruct (Ha b E) as (A1 & A2). split; [intros e0 [<-|He]; auto|constructor; assumption]. }
  induction e as [c|n|l H|l H|o e IHe|o e1 e2 IHe1 IHe2|e ops cs IHe H|e1 e2 IHe1 IHe2|e a IHe|e args kws IHe H|a b c H|k l] using expr_ind'; intros i H'; cbn [index_literal] in H'; try discriminate H'.
  - destruct c; try discriminate H'.
    + cbn in H'. unfold literal in H'. destruct (_ && _) eqn:E in H'; [|discriminate H']. cbn in H'. injection H' as <-. apply andb_true_iff in E as (E1 & E2). split; constructor; lia.
    + cbn in H'. destruct (finite f); discriminate H'.
    + injection H' as <-. split; constructor.
  - apply guard_Ok in H' as (G1 & H'). inv_bind H'. apply guard_Ok in H' as (G2 & H'). injection H' as <-. destruct (L _ _ H Hm) as (I1 & I2). unfold zlen, MAX_LITERAL_ITEMS in G1. split; constructor; auto. lia.
  - apply guard_Ok in H' as (G1 & H'). inv_bind H'. apply guard_Ok in H' as (G2 & H'). apply guard_Ok in H' as (G3 & H'). injection H' as <-. destruct (L _ _ H Hm) as (I1 & I2). unfold zlen, MAX_LITERAL_ITEMS in G1. split; constructor; auto. lia.
  - destruct o; try discriminate H'. inv_bind H'. destruct v; try discriminate H'. injection H' as <-. destruct (IHe _ Hm) as (I1 & I2). split; constructor; assumption.
  - assert (O : forall x i, (forall e, x = Some e -> a = Some e \/ b = Some e \/ c = Some e) -> match x with Some e => v <- index_literal finite D e ;; Ok (Some v) | None => Ok None end = Ok i ->
      (forall e, x = Some e -> index_syntax e) /\ index_option x i).
    { intros [e|] i0 Hx E.
      - inv_bind E. injection E as <-. destruct (H e (Hx e eq_refl) _ Hm) as (I1 & I2). split; [intros e' He; injection He as <-; exact I1|constructor; exact I2].
      - injection E as <-. split; [intros e He; discriminate He|constructor]. }
    inv_bind H'. inv_bind H'. inv_bind H'. injection H' as <-. destruct (O _ _ (fun e E => or_introl E) Hm) as (A1 & A2). destruct (O _ _ (fun e E => or_intror (or_introl E)) Hm0) as (B1 & B2).
    destruct (O _ _ (fun e E => or_intror (or_intror E)) Hm1) as (C1 & C2). split; [constructor|constructor; assumption]. intros e [E|[E|E]]; auto.
Qed.
Lemma index_literals_ok l is : each_res (index_literal finite D) l = Ok is -> (forall e, List.In e l -> index_syntax e) /\ index_meanings l is.
Proof.
  intros H. apply each_res_inv in H. induction H as [|a b l bs E _ (I1 & I2)]; [split; [intros e []|constructor]|].
  destruct (index_literal_ok E) as (A1 & A2). split; [intros e [<-|He]; auto|constructor; assumption].
Qed.

Variable py_unary : uop -> value F D -> res (value F D).
Variable py_binary : bop -> value F D -> value F D -> res (value F D).
Variable py_compare : cop -> value F D -> value F D -> res (value F D).
Variable np_logical_and : value F D -> value F D -> res (value F D).
Variable np_call : ustr -> list (value F D) -> res (value F D).
Variable np_index : array D -> index -> res (value F D).
Variable arrays : list (ustr * array D).
Variable length : Z.
Notation eval := (eval finite py_unary py_binary py_compare np_logical_and np_call np_index arrays length).
Notation chain := (chain py_compare np_logical_and length).
Notation meaning := (meaning py_unary py_binary py_compare np_logical_and np_call np_index arrays).
Notation comparison := (comparison py_unary py_binary py_compare np_logical_and np_call np_index arrays).
Notation meanings := (meanings py_unary py_binary py_compare np_logical_and np_call np_index arrays).
Notation allowed := (allowed finite (map fst arrays)).

Lemma check_array_inv v b w : check_array (F:=F) (D:=D) length v b = Ok w -> w = v.
Proof. destruct v; cbn; try (intros H; injection H as <-; reflexivity). intros H. apply guard_Ok in H as (_ & H). apply guard_Ok in H as (_ & H). injection H as <-. reflexivity. Qed.
Lemma in_compare_spec o : in_compare o = true <-> List.In o comparisons.
Proof. destruct o; cbn; split; intros H; try discriminate; auto 10; decompose [or] H; try discriminate; contradiction. Qed.
Lemma in_unary_spec o : in_unary o = true <-> List.In o unary_operators.
Proof. destruct o; cbn; split; intros H; try discriminate; auto 10; decompose [or] H; try discriminate; contradiction. Qed.
Lemma in_binary_spec o : in_binary o = true <-> List.In o (Pow :: binary_operators).
Proof. destruct o; cbn; split; intros H; try discriminate; auto 15; decompose [or] H; try discriminate; contradiction. Qed.

Definition sound (e : expr F) : Prop := forall log v, eval e = (log, Ok v) -> allowed e /\ meaning e v.
Lemma chain_sound cs : Forall sound cs -> forall ops left p log v, chain eval left (Some p) ops cs = (log, Ok v) -> List.length ops = List.length cs ->
  (forall e, List.In e cs -> allowed e) /\ (forall o, List.In o ops -> List.In o comparisons) /\ comparison p left ops cs v.
Proof.
  induction 1 as [|c cs Hc _ IH]; intros ops left p log v H L.
  - destruct ops; [|discriminate L]. cbn in H. apply ret_inv in H. subst. split; [intros e []|]. split; [intros o []|constructor].
  - destruct ops as [|o ops]; [discriminate L|]. injection L as L. cbn [Filter.chain] in H.
    apply andthen_inv in H as (l1 & u1 & l2 & N & H & _). apply need_inv in N. apply andthen_inv in H as (l3 & right & l4 & E & H & _). destruct (Hc _ _ E) as (A1 & A2).
    apply andthen_inv in H as (l5 & u2 & l6 & _ & H & _). apply andthen_inv in H as (l7 & part & l8 & Pf & H & _). apply perform_inv in Pf.
    apply andthen_inv in H as (l9 & part' & l10 & Ck & H & _). apply lift_inv in Ck. apply check_array_inv in Ck. subst part'.
    apply andthen_inv in H as (l11 & r' & l12 & An & H & _). apply perform_inv in An. destruct (IH _ _ _ _ _ H L) as (I1 & I2 & I3).
    split; [intros e [<-|He]; auto|]. split; [intros o' [<-|Ho]; [apply in_compare_spec; exact N|auto]|]. eapply C_more; eassumption.
Qed.
Lemma each_sound l : Forall sound l -> forall log vs, each eval l = (log, Ok vs) -> (forall e, List.In e l -> allowed e) /\ meanings l vs.
Proof.
  induction 1 as [|e l He _ IH]; intros log vs H.
  - cbn in H. apply ret_inv in H. subst. split; [intros e []|constructor].
  - cbn [each] in H. apply andthen_inv in H as (l1 & v & l2 & E & H & _). apply andthen_inv in H as (l3 & vs' & l4 & E' & H & _). apply ret_inv in H. subst.
    destruct (He _ _ E) as (A1 & A2). destruct (IH _ _ E') as (B1 & B2). split; [intros e' [<-|H']; auto|constructor; assumption].
Qed.
Theorem eval_sound e : sound e.
Proof.
  induction e as [c|n|l H|l H|o e IHe|o e1 e2 IHe1 IHe2|e ops cs IHe H|e1 e2 IHe1 IHe2|e a IHe|e args kws IHe H|a b c H|k l] using expr_ind'; intros log v H'; cbn [Filter.eval] in H'; try discriminate H'.
  - apply lift_inv in H'. destruct c; cbn in H'; try discriminate H'.
    + injection H' as <-. split; constructor.
    + injection H' as <-. split; constructor.
    + apply guard_Ok in H' as (G & H'). injection H' as <-. apply andb_true_iff in G as (G1 & G2). split; constructor. lia.
    + apply guard_Ok in H' as (G & H'). injection H' as <-. split; constructor; assumption.
  - apply andthen_inv in H' as (l1 & u & l2 & N & H & _). apply need_inv in N. apply negb_true_iff in N. apply dunder_spec in N.
    destruct (obj_get arrays n) as [a|] eqn:E.
    + apply andthen_inv in H as (l3 & u' & l4 & _ & H & _). apply ret_inv in H. subst. split; [|constructor; exact E]. constructor; [exact N|]. apply in_or_app. left. apply obj_get_in in E. apply in_map_iff. exists (n, a). auto.
    + destruct (ustr_eqb n (ulit "np")) eqn:En.
      * apply ret_inv in H. subst. apply ustr_eqb_eq in En. subst. split; [|constructor; exact E]. constructor; [exact N|]. apply in_or_app. right. left. reflexivity.
      * destruct (member n functions) eqn:Em; [|discriminate H]. apply ret_inv in H. subst. apply member_spec in Em. split; [|constructor; assumption]. constructor; [exact N|]. apply in_or_app. right. right. exact Em.
  - apply andthen_inv in H' as (l1 & u & l2 & N & H' & _). apply need_inv in N. apply andthen_inv in H' as (l3 & vs & l4 & E & H' & _). apply lift_inv in E. apply ret_inv in H'. subst.
    destruct (index_literals_ok E) as (I1 & I2). unfold zlen, MAX_LITERAL_ITEMS in N. split; constructor; auto. lia.
  - apply andthen_inv in H' as (l1 & u & l2 & N & H' & _). apply need_inv in N. apply andthen_inv in H' as (l3 & vs & l4 & E & H' & _). apply lift_inv in E. apply ret_inv in H'. subst.
    destruct (index_literals_ok E) as (I1 & I2). unfold zlen, MAX_LITERAL_ITEMS in N. split; constructor; auto. lia.
  - destruct (in_unary o) eqn:N; [|discriminate H']. apply in_unary_spec in N. apply andthen_inv in H' as (l1 & w & l2 & E & H' & _). destruct (IHe _ _ E) as (A1 & A2).
    apply andthen_inv in H' as (l3 & u & l4 & _ & H' & _). apply andthen_inv in H' as (l5 & x & l6 & Pf & H' & _). apply perform_inv in Pf. apply lift_inv in H'. apply check_array_inv in H'. subst x.
    split; [constructor; assumption|]. eapply M_unary; eassumption.
  - destruct (in_binary o) eqn:N; [|discriminate H']. apply in_binary_spec in N. apply andthen_inv in H' as (l1 & u & l2 & Ne & H' & _). apply need_inv in Ne.
    apply andthen_inv in H' as (l3 & w1 & l4 & E1 & H' & _). apply andthen_inv in H' as (l5 & w2 & l6 & E2 & H' & _). destruct (IHe1 _ _ E1) as (A1 & A2). destruct (IHe2 _ _ E2) as (B1 & B2).
    apply andthen_inv in H' as (l7 & u' & l8 & _ & H' & _). apply andthen_inv in H' as (l9 & x & l10 & Pf & H' & _). apply perform_inv in Pf. apply lift_inv in H'. apply check_array_inv in H'. subst x.
    split; [|eapply M_binary; eassumption]. destruct N as [<- | N]; [|constructor; assumption]. destruct e2; try discriminate Ne. destruct c; try discriminate Ne. apply andb_true_iff in Ne as (N1 & N2). constructor; [exact A1|lia].
  - apply andthen_inv in H' as (l1 & u & l2 & N & H' & _). apply need_inv in N. apply Nat.eqb_eq in N. apply andthen_inv in H' as (l3 & left & l4 & E & H' & _). destruct (IHe _ _ E) as (A1 & A2).
    destruct cs as [|c cs].
    + destruct ops; [|discriminate N]. cbn in H'. apply ret_inv in H'. subst. split; [constructor; auto; intros ? []|eapply M_nothing; exact A2].
    + destruct ops as [|o ops]; [discriminate N|]. injection N as N. inversion H as [|? ? Hc Hcs]; subst. cbn [Filter.chain] in H'.
      apply andthen_inv in H' as (m1 & u1 & m2 & No & H' & _). apply need_inv in No. apply andthen_inv in H' as (m3 & right & m4 & Er & H' & _). destruct (Hc _ _ Er) as (B1 & B2).
      apply andthen_inv in H' as (l5 & u2 & l6 & _ & H' & _). apply andthen_inv in H' as (l7 & part & l8 & Pf & H' & _). apply perform_inv in Pf.
      apply andthen_inv in H' as (l9 & part' & l10 & Ck & H' & _). apply lift_inv in Ck. apply check_array_inv in Ck. subst part'.
      apply andthen_inv in H' as (l11 & r' & l12 & An & H' & _). apply ret_inv in An. subst r'. destruct (chain_sound Hcs H' N) as (I1 & I2 & I3).
      split; [constructor; [exact A1| | |]|].
      * intros o' [<-|Ho]; [apply in_compare_spec; exact No|auto].
      * cbn. lia.
      * intros e' [<-|He]; auto.
      * eapply M_compare; eassumption.
  - apply andthen_inv in H' as (l1 & w & l2 & E & H' & _). destruct (IHe1 _ _ E) as (A1 & A2). destruct w; try discriminate H'.
    apply andthen_inv in H' as (l3 & i & l4 & Ei & H' & _). apply lift_inv in Ei. destruct (index_literal_ok Ei) as (B1 & B2).
    apply andthen_inv in H' as (l5 & u & l6 & _ & H' & _). apply andthen_inv in H' as (l7 & x & l8 & Pf & H' & _). apply perform_inv in Pf. apply lift_inv in H'. apply check_array_inv in H'. subst x.
    split; [constructor; assumption|]. eapply M_subscript; eassumption.
  - destruct e; try discriminate H'. destruct (_ && _) eqn:E in H'; [|discriminate H']. apply andb_true_iff in E as (E1 & E2). apply ustr_eqb_eq in E1. apply member_spec in E2. apply ret_inv in H'. subst. split; constructor; exact E2.
  - apply andthen_inv in H' as (l1 & w & l2 & E & H' & _). destruct (IHe _ _ E) as (A1 & A2). destruct w; try discriminate H'.
    apply andthen_inv in H' as (l3 & u & l4 & N & H' & _). apply andthen_inv in H' as (l5 & u' & l6 & N' & H' & _). apply need_inv in N'. destruct kws; [|discriminate N'].
    apply andthen_inv in H' as (l7 & vs & l8 & Ea & H' & _). destruct (each_sound H Ea) as (B1 & B2).
    apply andthen_inv in H' as (l9 & u2 & l10 & _ & H' & _). apply andthen_inv in H' as (l11 & x & l12 & Pf & H' & _). apply perform_inv in Pf. apply lift_inv in H'. apply check_array_inv in H'. subst x.
    split; [constructor; assumption|]. eapply M_call; eassumption.
Qed.
End Lang.
