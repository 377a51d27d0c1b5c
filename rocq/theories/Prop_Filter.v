(** * C32: filter expressions stay within their language and limits.
    Specification vocabulary: FilterSpec.v. *)
From Verif Require Import Base BaseFacts Json JsonFacts Filter FilterSpec FilterFacts MetricsFacts.
Set Implicit Arguments. Unset Strict Implicit.

Section C32.
Variables (F : Type) (finite : F -> bool) (D : Type) (parse : ustr -> option (expr F)).
Variable py_unary : uop -> value F D -> res (value F D).
Variable py_binary : bop -> value F D -> value F D -> res (value F D).
Variable py_compare : cop -> value F D -> value F D -> res (value F D).
Variable np_logical_and : value F D -> value F D -> res (value F D).
Variable np_call : ustr -> list (value F D) -> res (value F D).
Variable np_index : array D -> index -> res (value F D).
Notation evaluate := (evaluate_filter_condition finite parse py_unary py_binary py_compare np_logical_and np_call np_index).
Notation eval := (eval finite py_unary py_binary py_compare np_logical_and np_call np_index).
Notation meaning := (meaning py_unary py_binary py_compare np_logical_and np_call np_index).

(** An accepted filter was small, is an expression of the language, and its value is what
    the expression means: a boolean vector, one entry per row. *)
Theorem C32_accepted_filters : forall text arrays log mask, evaluate text arrays = (log, Ok mask) ->
  exists name first rest n tail e, arrays = (name, first) :: rest /\ shape first = n :: tail /\
  parse text = Some e /\ allowed finite (map fst arrays) e /\ meaning arrays e (VArray mask) /\
  kind mask = KBool /\ shape mask = [n] /\
  (exists bytes, utf8_encode text = Ok bytes /\ zlen bytes <= 4096) /\ (nodes e < 128)%nat /\ (depth e < 16)%nat /\
  (forall nm a, List.In (nm, a) arrays -> firstn 2 nm <> ulit "__" /\ kind a <> KOther).
Proof.
  intros text arrays log mask H. unfold evaluate_filter_condition in H.
  apply andthen_inv in H as (l1 & length & l2 & L & H & _). apply lift_inv in L. destruct arrays as [|[name first] rest]; [discriminate L|]. destruct (shape first) as [|n tail] eqn:Sh; [discriminate L|]. injection L as <-.
  apply andthen_inv in H as (l3 & bytes & l4 & Ub & H & _). apply lift_inv in Ub. apply andthen_inv in H as (l5 & u1 & l6 & N1 & H & _). apply need_inv in N1.
  apply andthen_inv in H as (l7 & e & l8 & P & H & _). apply lift_inv in P. destruct (parse text) as [e'|] eqn:Ep; [|discriminate P]. injection P as ->.
  apply andthen_inv in H as (l9 & u2 & l10 & N2 & H & _). apply need_inv in N2. apply andthen_inv in H as (l11 & u3 & l12 & N3 & H & _). apply need_inv in N3.
  apply andthen_inv in H as (l13 & vs & l14 & C & H & _). apply lift_inv in C. apply andthen_inv in H as (l15 & v & l16 & E & H & _).
  apply eval_sound in E as (A1 & A2). destruct v; try discriminate H. apply andthen_inv in H as (l17 & u4 & l18 & K & H & _). apply need_inv in K. apply andthen_inv in H as (l19 & u5 & l20 & S1 & H & _). apply need_inv in S1.
  apply ret_inv in H. subst a. exists name, first, rest, n, tail, e. split; [reflexivity|]. split; [exact Sh|]. split; [reflexivity|]. split; [exact A1|]. split; [exact A2|].
  split; [destruct (kind mask); try discriminate K; reflexivity|]. split; [destruct (shape mask) as [|x [|y r]]; try discriminate S1; f_equal; lia|].
  split; [exists bytes; split; [exact Ub|unfold MAX_EXPRESSION_BYTES in N1; lia]|]. unfold MAX_AST_NODES in N2. unfold MAX_AST_DEPTH in N3.
  split; [apply Nat.leb_le in N2; lia|]. split; [apply Nat.leb_le in N3; lia|]. intros nm a Hin.
  apply mapM_Ok_Forall2 in C. clear - C Hin. induction C as [|x y xs ys Hx _ IH]; [destruct Hin|]. destruct Hin as [->|Hin]; [|apply IH; exact Hin].
  cbn [fst snd] in Hx. apply guard_Ok in Hx as (G1 & Hx). cbn in Hx. apply guard_Ok in Hx as (G2 & _). split; [apply dunder_spec; apply negb_true_iff; exact G1|]. intros E. rewrite E in G2. discriminate G2.
Qed.

(** Whatever the expression and whether or not it is accepted, the evaluation reads only the
    input arrays, applies only the listed operators and calls only the listed functions. *)
Lemma eval_harmless arrays length e : Forall (harmless (F:=F) (D:=D) (map fst arrays)) (fst (eval arrays length e)).
Proof.
  assert (E : forall l, Forall (fun e => Forall (harmless (F:=F) (D:=D) (map fst arrays)) (fst (eval arrays length e))) l -> Forall (harmless (map fst arrays)) (fst (each (eval arrays length) l))).
  { induction 1 as [|e0 l He _ IHl]; [constructor|]. cbn [each]. apply andthen_log; [exact He|]. intros v _. apply andthen_log; [exact IHl|]. intros; constructor. }
  assert (C : forall cs, Forall (fun e => Forall (harmless (F:=F) (D:=D) (map fst arrays)) (fst (eval arrays length e))) cs ->
    forall ops left r, Forall (harmless (map fst arrays)) (fst (chain py_compare np_logical_and length (eval arrays length) left r ops cs))).
  { induction 1 as [|c cs Hc _ IHc]; intros ops left r; [destruct ops; constructor|]. destruct ops as [|o ops]; [constructor|]. cbn [chain]. unfold need. destruct (in_compare o) eqn:Eo; [|constructor].
    apply andthen_log; [constructor|]. intros _ _. apply andthen_log; [exact Hc|]. intros right _. apply andthen_log; [constructor|]. intros _ _.
    apply andthen_log; [apply perform_log; [apply in_compare_spec; exact Eo|intros; exact I]|]. intros part _. apply andthen_log; [constructor|]. intros part' _.
    apply andthen_log; [destruct r; [apply perform_log; intros; exact I|constructor]|]. intros; apply IHc. }
  induction e as [c|n|l H|l H|o e IHe|o e1 e2 IHe1 IHe2|e ops cs IHe H|e1 e2 IHe1 IHe2|e a IHe|e args kws IHe H|a b c H|k l] using expr_ind'; cbn [Filter.eval]; try constructor.
  - unfold need. destruct (dunder n) eqn:Dn; [constructor|]. apply andthen_log; [constructor|]. intros _ _. destruct (obj_get arrays n) as [a|] eqn:Eg.
    + apply andthen_log; [repeat constructor|constructor]; [|apply dunder_spec; exact Dn]. apply obj_get_in in Eg. apply in_map_iff. exists (n, a). auto.
    + destruct (ustr_eqb n (ulit "np")); [constructor|]. destruct (member n functions); constructor.
  - apply andthen_log; [apply need_log|]. intros _ _. apply andthen_log; [constructor|]. intros; constructor.
  - apply andthen_log; [apply need_log|]. intros _ _. apply andthen_log; [constructor|]. intros; constructor.
  - destruct (in_unary o) eqn:Eo; [|constructor]. apply andthen_log; [exact IHe|]. intros v _. apply andthen_log; [constructor|]. intros _ _.
    apply andthen_log; [apply perform_log; [apply in_unary_spec; exact Eo|intros; exact I]|constructor].
  - destruct (in_binary o) eqn:Eo; [|constructor]. apply andthen_log; [apply need_log|]. intros _ _. apply andthen_log; [exact IHe1|]. intros v _. apply andthen_log; [exact IHe2|]. intros w _.
    apply andthen_log; [constructor|]. intros _ _. apply andthen_log; [apply perform_log; [apply in_binary_spec; exact Eo|intros; exact I]|constructor].
  - apply andthen_log; [apply need_log|]. intros _ _. apply andthen_log; [exact IHe|]. intros v _. apply C. exact H.
  - apply andthen_log; [exact IHe1|]. intros v _. destruct v; try constructor. apply andthen_log; [constructor|]. intros i _. apply andthen_log; [constructor|]. intros _ _.
    apply andthen_log; [apply perform_log; intros; exact I|constructor].
  - destruct e; try constructor. destruct (_ && _); constructor.
  - apply andthen_log; [exact IHe|]. intros v _. destruct v; try constructor. unfold need. destruct (member name functions) eqn:Em; [|constructor]. apply andthen_log; [constructor|]. intros _ _.
    apply andthen_log; [destruct kws; constructor|]. intros _ _. apply andthen_log; [apply E; exact H|]. intros vs _. apply andthen_log; [constructor|]. intros _ _.
    apply andthen_log; [apply perform_log; [apply member_spec; exact Em|intros; exact I]|constructor].
Qed.
Theorem C32_effects : forall text arrays, Forall (harmless (map fst arrays)) (fst (evaluate text arrays)).
Proof.
  intros text arrays. unfold evaluate_filter_condition.
  apply andthen_log; [constructor|]. intros length _. apply andthen_log; [constructor|]. intros bytes _. apply andthen_log; [apply need_log|]. intros _ _. apply andthen_log; [constructor|]. intros e _.
  apply andthen_log; [apply need_log|]. intros _ _. apply andthen_log; [apply need_log|]. intros _ _. apply andthen_log; [constructor|]. intros _ _. apply andthen_log; [apply eval_harmless|]. intros v _.
  destruct v; try constructor. apply andthen_log; [apply need_log|]. intros _ _. apply andthen_log; [apply need_log|]. intros _ _. constructor.
Qed.

(** Too long, too large, too deep or unparsable expressions, and arrays of unsupported types
    or names, are rejected before anything is computed. *)
Theorem C32_limits_come_first : forall text arrays,
  (forall bytes, utf8_encode text = Ok bytes -> 4096 < zlen bytes) \/ parse text = None \/
  (exists e, parse text = Some e /\ (nodes e >= 128 \/ depth e >= 16)%nat) \/ arrays = [] \/
  (exists nm a, List.In (nm, a) arrays /\ (firstn 2 nm = ulit "__" \/ kind a = KOther)) ->
  exists x, evaluate text arrays = ([], Err x).
Proof.
  intros text arrays H. unfold evaluate_filter_condition, lift, need, ret, fail.
  match goal with |- context [andthen ([], ?m) _] => destruct m as [length|] eqn:L end; cbn [andthen app]; [|eauto].
  destruct (utf8_encode text) as [bytes|] eqn:Ub; cbn [andthen app]; [|eauto].
  destruct (zlen bytes <=? MAX_EXPRESSION_BYTES) eqn:N1; cbn [andthen app]; [|eauto].
  destruct (parse text) as [e|] eqn:P; cbn [andthen app]; [|eauto].
  destruct ((1 + nodes e <=? MAX_AST_NODES)%nat) eqn:N2; cbn [andthen app]; [|eauto].
  destruct ((1 + depth e <=? MAX_AST_DEPTH)%nat) eqn:N3; cbn [andthen app]; [|eauto].
  match goal with |- context [mapM ?f arrays] => destruct (mapM f arrays) as [vs|] eqn:C end; cbn [andthen app]; [|eauto]. exfalso.
  apply Nat.leb_le in N2, N3. unfold MAX_AST_NODES, MAX_AST_DEPTH, MAX_EXPRESSION_BYTES in *.
  destruct H as [H|[H|[(e' & H & H')|[H|(nm & a & H & H')]]]].
  - specialize (H _ eq_refl). lia.
  - discriminate H.
  - injection H as <-. lia.
  - subst. discriminate L.
  - apply mapM_Ok_Forall2 in C. clear - C H H'. induction C as [|x y xs ys Hx _ IH]; [destruct H|]. destruct H as [->|H]; [|apply IH; exact H].
    cbn [fst snd] in Hx. apply guard_Ok in Hx as (G1 & Hx). cbn in Hx. apply guard_Ok in Hx as (G2 & _). destruct H' as [E|E].
    + apply negb_true_iff in G1. apply dunder_spec in G1. contradiction.
    + rewrite E in G2. discriminate G2.
Qed.

(** ** Sizes *)
(** An array that a subexpression hands on is an input or within the limits, or comes from a
    chained comparison. *)
Definition within (length : Z) (a : array D) : Prop := size a <= Z.max 4096 (8 * length) /\ nbytes a <= 64 * 1024 * 1024.
Lemma check_within length v w : check_array (F:=F) (D:=D) length v true = Ok w -> forall a, w = VArray a -> within length a.
Proof.
  intros H a ->. destruct v; try discriminate H. cbn in H. apply guard_Ok in H as (_ & H). apply guard_Ok in H as (G & H). injection H as ->. apply negb_true_iff, orb_false_iff in G as (G1 & G2).
  unfold within. unfold max_elements, MAX_INTERMEDIATE_BYTES in *. lia.
Qed.
Theorem C32_arrays_handed_on : forall arrays length e log a, eval arrays length e = (log, Ok (VArray a)) ->
  (exists n, e = Name n /\ List.In (n, a) arrays) \/ within length a \/ (exists l ops cs, e = Compare l ops cs /\ (2 <= List.length ops)%nat).
Proof.
  intros arrays length e log a H. destruct e; cbn [Filter.eval] in H; try discriminate H.
  - apply lift_inv in H. destruct c; cbn in H; try discriminate H; apply guard_Ok in H as (_ & H); discriminate H.
  - left. exists id. split; [reflexivity|]. apply andthen_inv in H as (l1 & u & l2 & _ & H & _). destruct (obj_get arrays id) as [b|] eqn:E.
    + apply andthen_inv in H as (l3 & u' & l4 & _ & H & _). apply ret_inv in H. injection H as ->. apply obj_get_in. exact E.
    + destruct (ustr_eqb id (ulit "np")); [discriminate H|]. destruct (member id functions); discriminate H.
  - apply andthen_inv in H as (l1 & u & l2 & _ & H & _). apply andthen_inv in H as (l3 & u' & l4 & _ & H & _). discriminate H.
  - apply andthen_inv in H as (l1 & u & l2 & _ & H & _). apply andthen_inv in H as (l3 & u' & l4 & _ & H & _). discriminate H.
  - right. left. destruct (in_unary o); [|discriminate H]. apply andthen_inv in H as (l1 & u & l2 & _ & H & _). apply andthen_inv in H as (l3 & u' & l4 & _ & H & _). apply andthen_inv in H as (l5 & u2 & l6 & _ & H & _).
    apply lift_inv in H. eapply check_within; [exact H|reflexivity].
  - right. left. destruct (in_binary o); [|discriminate H]. apply andthen_inv in H as (l1 & u & l2 & _ & H & _). apply andthen_inv in H as (l3 & u' & l4 & _ & H & _). apply andthen_inv in H as (l5 & u2 & l6 & _ & H & _).
    apply andthen_inv in H as (l7 & u3 & l8 & _ & H & _). apply andthen_inv in H as (l9 & u4 & l10 & _ & H & _). apply lift_inv in H. eapply check_within; [exact H|reflexivity].
  - right. destruct ops as [|o [|o' ops]]; [| |right; eexists _, _, _; split; [reflexivity|cbn; lia]].
    + apply andthen_inv in H as (l1 & u & l2 & _ & H & _). apply andthen_inv in H as (l3 & u' & l4 & _ & H & _). destruct comparators; discriminate H.
    + left. apply andthen_inv in H as (l1 & u & l2 & N & H & _). apply need_inv in N. destruct comparators as [|c [|c' cs]]; try discriminate N.
      apply andthen_inv in H as (l3 & u' & l4 & _ & H & _). cbn [chain] in H. apply andthen_inv in H as (l5 & u2 & l6 & _ & H & _). apply andthen_inv in H as (l7 & u3 & l8 & _ & H & _). apply andthen_inv in H as (l9 & u4 & l10 & _ & H & _).
      apply andthen_inv in H as (l11 & u5 & l12 & _ & H & _). apply andthen_inv in H as (l13 & u6 & l14 & C & H & _). apply lift_inv in C. apply andthen_inv in H as (l15 & u7 & l16 & R & H & _). apply ret_inv in R. apply ret_inv in H. subst.
      eapply check_within; [exact C|reflexivity].
  - right. left. apply andthen_inv in H as (l1 & v & l2 & _ & H & _). destruct v; try discriminate H. apply andthen_inv in H as (l3 & u' & l4 & _ & H & _). apply andthen_inv in H as (l5 & u2 & l6 & _ & H & _). apply andthen_inv in H as (l7 & u3 & l8 & _ & H & _).
    apply lift_inv in H. eapply check_within; [exact H|reflexivity].
  - destruct e; try discriminate H. destruct (_ && _); discriminate H.
  - right. left. apply andthen_inv in H as (l1 & v & l2 & _ & H & _). destruct v; try discriminate H. apply andthen_inv in H as (l3 & u' & l4 & _ & H & _). apply andthen_inv in H as (l5 & u2 & l6 & _ & H & _). apply andthen_inv in H as (l7 & u3 & l8 & _ & H & _).
    apply andthen_inv in H as (l9 & u4 & l10 & _ & H & _). apply andthen_inv in H as (l11 & u5 & l12 & _ & H & _). apply lift_inv in H. eapply check_within; [exact H|reflexivity].
Qed.

(** Expressions without chained comparisons and tuple operands: even for a moment, no operator,
    comparison or function makes an array of more than the permitted number of elements. *)
Definition few (length : Z) (ev : event F D) : Prop := match ev with EComputed (VArray a) => size a <= Z.max 4096 (8 * length) | _ => True end.
Hypothesis numpy : elementwise py_unary py_binary py_compare np_call np_index.
Lemma check_few length vs sh u : check_broadcast length vs = Ok u -> joint_shape (F:=F) (D:=D) vs sh -> prod sh <= Z.max 4096 (8 * length).
Proof.
  unfold check_broadcast, joint_shape. destruct (arrays_of vs) as [|a r]; [intros _ []|]. intros H J. rewrite J in H. unfold check_allocation in H. apply guard_Ok in H as (G & _). apply negb_true_iff, orb_false_iff in G as (G1 & _). unfold max_elements in G1. lia.
Qed.
Lemma eval_plain arrays length e : plain e -> Forall (few length) (fst (eval arrays length e)) /\ forall v, snd (eval arrays length e) = Ok v -> no_tuple v.
Proof.
  assert (Ck : forall v w, check_array length v true = Ok w -> no_tuple (F:=F) (D:=D) v -> no_tuple w) by (intros v w H; apply check_array_inv in H; subst; auto).
  assert (Res : forall A B (m : M F D A) (k : A -> M F D B) b, snd (andthen m k) = Ok b -> exists a, snd m = Ok a /\ snd (k a) = Ok b).
  { intros A B m k b H. unfold andthen in H. destruct m as [l [a|x]]; [|discriminate H]. exists a. split; [reflexivity|]. destruct (k a). exact H. }
  assert (Rp : forall ev made w r v, snd (@perform F D ev made w r) = Ok v -> r = Ok v).
  { intros ev made w r v H. unfold perform in H. apply Res in H as (u & _ & H). destruct r; [|discriminate H]. apply Res in H as (u' & _ & H). exact H. }
  induction 1 as [c|n|o e H IH|o l r H1 IH1 H2 IH2|l o c H1 IH1 H2 IH2|e s H IH|e f|f args H IH Ha IHa]; cbn [Filter.eval].
  - split; [constructor|]. cbn. intros v E. destruct c; cbn in E; try discriminate E; try (injection E as <-; exact I); apply guard_Ok in E as (_ & E); injection E as <-; exact I.
  - unfold need. destruct (dunder n); [split; [constructor|intros v E; discriminate E]|]. destruct (obj_get arrays n) as [a|].
    + split; [apply Forall_cons; [exact I|apply Forall_nil]|]. intros v E. injection E as <-. exact I.
    + destruct (ustr_eqb n (ulit "np")); [split; [apply Forall_nil|]; intros v E; injection E as <-; exact I|].
      destruct (member n functions); (split; [apply Forall_nil|]); intros v E; [injection E as <-; exact I|discriminate E].
  - destruct IH as (I1 & I2). destruct (in_unary o); [|split; [constructor|intros v E; discriminate E]]. split.
    + apply andthen_log; [exact I1|]. intros v Hv. apply andthen_log; [constructor|]. intros u Hc. apply andthen_log; [|constructor]. apply perform_log; [exact I|]. intros w Hw.
      destruct (of_unary numpy (I2 v Hv) Hw) as (_ & J). destruct w; try exact I. specialize (J a eq_refl). unfold joint_shape in J. destruct v; cbn in J; try contradiction. injection J as J.
      cbn in Hc. unfold check_allocation in Hc. apply guard_Ok in Hc as (G & _). apply negb_true_iff, orb_false_iff in G as (G1 & _). unfold few, size. rewrite <- J. unfold max_elements in G1. lia.
    + intros v E. apply Res in E as (w & Hw & E). apply Res in E as (u & _ & E). apply Res in E as (x & Hx & E). apply Rp in Hx. cbn in E. apply (Ck _ _ E). exact (proj1 (of_unary numpy (I2 w Hw) Hx)).
  - destruct IH1 as (I1 & I2). destruct IH2 as (J1 & J2). destruct (in_binary o); [|split; [constructor|intros v E; discriminate E]]. split.
    + apply andthen_log; [apply need_log|]. intros _ _. apply andthen_log; [exact I1|]. intros v Hv. apply andthen_log; [exact J1|]. intros w Hw. apply andthen_log; [constructor|]. intros u Hc. apply andthen_log; [|constructor].
      apply perform_log; [exact I|]. intros x Hx. destruct (of_binary numpy (I2 v Hv) (J2 w Hw) Hx) as (_ & J). destruct x; try exact I. exact (check_few Hc (J a eq_refl)).
    + intros v E. apply Res in E as (u0 & _ & E). apply Res in E as (v1 & Hv1 & E). apply Res in E as (v2 & Hv2 & E). apply Res in E as (u & _ & E). apply Res in E as (x & Hx & E). apply Rp in Hx. cbn in E. apply (Ck _ _ E).
      exact (proj1 (of_binary numpy (I2 _ Hv1) (J2 _ Hv2) Hx)).
  - destruct IH1 as (I1 & I2). destruct IH2 as (J1 & J2). cbn [chain]. split.
    + apply andthen_log; [apply need_log|]. intros _ _. apply andthen_log; [exact I1|]. intros v Hv. apply andthen_log; [apply need_log|]. intros _ _. apply andthen_log; [exact J1|]. intros w Hw. apply andthen_log; [constructor|]. intros u Hc.
      apply andthen_log; [apply perform_log; [exact I|]|intros; apply andthen_log; [constructor|]; intros; apply andthen_log; [constructor|]; intros; constructor].
      intros x Hx. destruct (of_compare numpy (I2 v Hv) (J2 w Hw) Hx) as (_ & J). destruct x; try exact I. exact (check_few Hc (J a eq_refl)).
    + intros v E. apply Res in E as (u0 & _ & E). apply Res in E as (v1 & Hv1 & E). apply Res in E as (u1 & _ & E). apply Res in E as (v2 & Hv2 & E). apply Res in E as (u & _ & E). apply Res in E as (x & Hx & E). apply Rp in Hx.
      apply Res in E as (y & Hy & E). apply Res in E as (z & Hz & E). cbn in Hy, Hz, E. injection Hz as <-. injection E as <-. apply (Ck _ _ Hy). exact (proj1 (of_compare numpy (I2 _ Hv1) (J2 _ Hv2) Hx)).
  - destruct IH as (I1 & I2). split.
    + apply andthen_log; [exact I1|]. intros v Hv. destruct v; try constructor. apply andthen_log; [constructor|]. intros i _. apply andthen_log; [constructor|]. intros u _. apply andthen_log; [|constructor]. apply perform_log; intros; exact I.
    + intros v E. apply Res in E as (w & Hw & E). destruct w; try discriminate E. apply Res in E as (i & Hi & E). apply Res in E as (u & _ & E). apply Res in E as (x & Hx & E). apply Rp in Hx. cbn in E. apply (Ck _ _ E). exact (of_index numpy Hx).
  - destruct e; try (split; [constructor|intros v E; discriminate E]). destruct (_ && _); (split; [constructor|]); intros v E; [injection E as <-; exact I|discriminate E].
  - destruct IH as (I1 & I2).
    assert (Q : Forall (few length) (fst (each (eval arrays length) args)) /\ forall vs, snd (each (eval arrays length) args) = Ok vs -> Forall (@no_tuple F D) vs).
    { clear H I1 I2. induction args as [|x xs IHx]; [split; [constructor|intros vs E; injection E as <-; constructor]|]. destruct (IHa x (or_introl eq_refl)) as (X1 & X2).
      destruct (IHx (fun e0 H0 => Ha e0 (or_intror H0)) (fun e0 H0 => IHa e0 (or_intror H0))) as (Y1 & Y2). cbn [each]. split.
      - apply andthen_log; [exact X1|]. intros v _. apply andthen_log; [exact Y1|]. intros; constructor.
      - intros vs E. apply Res in E as (v & Hv & E). apply Res in E as (ws & Hws & E). injection E as <-. constructor; auto. }
    destruct Q as (Q1 & Q2). split.
    + apply andthen_log; [exact I1|]. intros v Hv. destruct v; try constructor. apply andthen_log; [apply need_log|]. intros _ _. apply andthen_log; [constructor|]. intros _ _. apply andthen_log; [exact Q1|]. intros vs Hvs. apply andthen_log; [constructor|]. intros u Hc. apply andthen_log; [|constructor].
      apply perform_log; [exact I|]. intros x Hx. destruct (of_call numpy (Q2 vs Hvs) Hx) as (_ & J). destruct x; try exact I. exact (check_few Hc (J a eq_refl)).
    + intros v E. apply Res in E as (w & Hw & E). destruct w; try discriminate E. apply Res in E as (u0 & _ & E). apply Res in E as (u1 & _ & E). apply Res in E as (vs & Hvs & E). apply Res in E as (u2 & _ & E). apply Res in E as (x & Hx & E). apply Rp in Hx. cbn in E. apply (Ck _ _ E).
      exact (proj1 (of_call numpy (Q2 vs Hvs) Hx)).
Qed.
Theorem C32_element_limit : forall text name first rest n tail e, shape first = n :: tail -> parse text = Some e -> plain e ->
  Forall (few n) (fst (evaluate text ((name, first) :: rest))).
Proof.
  intros text name first rest n tail e Sh P Pl. unfold evaluate_filter_condition. rewrite Sh, P.
  apply andthen_log; [constructor|]. intros length L. injection L as <-. apply andthen_log; [constructor|]. intros bytes _. apply andthen_log; [apply need_log|]. intros _ _. apply andthen_log; [constructor|]. intros e' E. injection E as <-.
  apply andthen_log; [apply need_log|]. intros _ _. apply andthen_log; [apply need_log|]. intros _ _. apply andthen_log; [constructor|]. intros _ _. apply andthen_log; [apply eval_plain; exact Pl|]. intros v _.
  destruct v; try constructor. apply andthen_log; [apply need_log|]. intros _ _. apply andthen_log; [apply need_log|]. intros _ _. constructor.
Qed.
End C32.

(** ** Concrete filters.  A small NumPy that knows shapes and Python integers. *)
Section Concrete.
Definition val := value unit unit.
Definition arr (sh : list Z) (k : dkind) (isz : Z) : array unit := mk_array sh k isz tt.
Definition spread (k : dkind) (isz : Z) (vs : list val) : res val :=
  match arrays_of vs with
  | [] => Ok (VScalar isz tt)
  | a :: l => match broadcast_all (shape a) (map (@shape unit) l) with Some sh => Ok (VArray (arr sh k isz)) | None => Err ValueError end
  end.
Definition t_unary (o : uop) (v : val) : res val := match o, v with USub, VInt z => Ok (VInt (- z)) | _, VTuple _ | _, VNumpy | _, VFunction _ => Err TypeError | _, _ => spread KInt 8 [v] end.
Definition t_binary (o : bop) (v w : val) : res val :=
  match o, v, w with
  | Pow, VInt a, VInt b => Ok (VInt (a ^ b))
  | Add, VInt a, VInt b => Ok (VInt (a + b))
  | Mult, VInt a, VInt b => Ok (VInt (a * b))
  | Mult, VTuple l, VInt n => Ok (VTuple (List.concat (repeat l (Z.to_nat n))))
  | BitAnd, _, _ => spread KBool 1 [v; w]
  | _, VTuple _, _ | _, _, VTuple _ | _, VNumpy, _ | _, _, VNumpy | _, VFunction _, _ | _, _, VFunction _ => Err TypeError
  | _, _, _ => spread KInt 8 [v; w]
  end.
Definition t_compare (o : cop) (v w : val) : res val :=
  match v, w with
  | VInt a, VInt b => Ok (VBool (a <? b))
  | VTuple _, VTuple _ => Ok (VBool false)
  | _, _ => spread KBool 1 [v; w]
  end.
Definition t_and (v w : val) : res val := spread KBool 1 [v; w].
Definition t_call (f : ustr) (vs : list val) : res val := spread KBool 1 vs.
(** x[:, i], x[:, i:j] and x[:, [..]] for two dimensions, x[i] for one. *)
Definition t_index (a : array unit) (i : index) : res val :=
  match shape a, i with
  | [n; m], ITuple [ISlice None None None; IInt _] => Ok (VArray (arr [n] (kind a) (itemsize a)))
  | [n; m], ITuple [ISlice None None None; ISlice (Some (IInt x)) (Some (IInt y)) None] => Ok (VArray (arr [n; y - x] (kind a) (itemsize a)))
  | [n; m], ITuple [ISlice None None None; IList l] => Ok (VArray (arr [n; zlen l] (kind a) (itemsize a)))
  | [n], IInt _ => Ok (VScalar (itemsize a) tt)
  | _, _ => Err IndexError
  end.
Lemma spread_shape k isz vs w : spread k isz vs = Ok w -> no_tuple w /\ forall a, w = VArray a -> joint_shape vs (shape a).
Proof.
  unfold spread, joint_shape. destruct (arrays_of vs) as [|a l]; intros H; [injection H as <-; split; [exact I|intros a Ha; discriminate Ha]|].
  destruct (broadcast_all _ _) as [sh|] eqn:E; [|discriminate H]. injection H as <-. split; [exact I|]. intros b Hb. injection Hb as <-. reflexivity.
Qed.
Example C32_elementwise : elementwise t_unary t_binary t_compare t_call t_index.
Proof.
  constructor.
  - intros o v w N H. destruct o, v; try discriminate H; try (destruct N; fail); try (apply spread_shape in H; exact H); injection H as <-; split; try exact I; intros a Ha; discriminate Ha.
  - intros o v w x N1 N2 H. destruct v, w; try (destruct N1; fail); try (destruct N2; fail); destruct o; try discriminate H; try (apply spread_shape in H; exact H); injection H as <-; split; try exact I; intros a Ha; discriminate Ha.
  - intros o v w x N1 N2 H. destruct v, w; try (destruct N1; fail); try (destruct N2; fail); try (apply spread_shape in H; exact H); injection H as <-; split; try exact I; intros a Ha; discriminate Ha.
  - intros f vs x _ H. apply spread_shape in H. exact H.
  - intros a i x H. unfold t_index in H.
    repeat match type of H with (match ?y with _ => _ end) = _ => destruct y; try discriminate H end; injection H as <-; exact I.
Qed.
Notation run := (fun e => evaluate_filter_condition (fun _ : unit => true) (fun _ => Some e) t_unary t_binary t_compare t_and t_call t_index (ulit "...")).
Definition int (z : Z) : expr unit := Constant (CInt z).
Definition x_ : expr unit := Name (ulit "x").
Definition col (i : Z) : expr unit := Subscript x_ (Tuple [Slice None None None; int i]).
Definition cols (i j : Z) : expr unit := Subscript x_ (Tuple [Slice None None None; Slice (Some (int i)) (Some (int j)) None]).
Definition data (n : Z) : list (ustr * array unit) := [(ulit "x", arr [n; 4] KFloat 4)].

(** (x[:, 0] > 0) & np.isfinite(x[:, 1] + 1) *)
Definition good : expr unit := BinOp BitAnd (Compare (col 0) [Gt] [int 0]) (Call (Attribute (Name (ulit "np")) (ulit "isfinite")) [BinOp Add (col 1) (int 1)] []).
Example C32_accepted : snd (run good (data 1000)) = Ok (arr [1000] KBool 1) /\ plain good.
Proof. split; [vm_compute; reflexivity|]. unfold good, col, x_, int. repeat constructor. intros e [<-|[]]. repeat constructor. Qed.
Example C32_rejected : map (fun e => match snd (run e (data 1000)) with Ok _ => true | Err _ => false end)
  [Other 2 []; BinOp BitAnd good (Other 1 []); Call (Name (ulit "eval")) [] []; Attribute x_ (ulit "tofile"); Attribute (Name (ulit "np")) (ulit "load");
   BinOp Pow (col 0) (int 9); Name (ulit "__import__"); Call (Name (ulit "np")) [] []; Compare (col 0) [Is] [int 0]; col 0] = repeat false 10.
Proof. vm_compute. reflexivity. Qed.

(** *** What does not hold *)
(** Forbidden syntax is found only when the evaluation reaches it. *)
Theorem C32_forbidden_syntax_is_found_first_refuted : exists e arrays a, ~ allowed (fun _ => true) (map fst arrays) e /\
  (exists x, snd (run e arrays) = Err x) /\ List.In (EComputed (VArray a)) (fst (run e arrays)).
Proof.
  exists (BinOp Add (BinOp Add (col 0) (int 1)) (Other 1 [])), (data 10), (arr [10] KInt 8). split; [|split; [eexists; vm_compute; reflexivity|vm_compute; tauto]].
  intros H. inversion H as [| | | | | | | |? ? ? ? ? R| | | | |]; subst. inversion R.
Qed.
(** Finding F18: a chained comparison joins its parts without a size check: n rows make an
    array of n * n elements.  x[:, 0:1] < 0 < x[:, 0] *)
Theorem C32_chained_comparisons_are_limited_refuted : exists e arrays a, let n := 100000 in
  arrays = data n /\ allowed (fun _ => true) (map fst arrays) e /\
  List.In (EComputed (VArray a)) (fst (run e arrays)) /\ size a = n * n /\ nbytes a > 64 * 1024 * 1024.
Proof.
  exists (Compare (cols 0 1) [Lt; Lt] [int 0; col 0]), (data 100000), (arr [100000; 100000] KBool 1). split; [reflexivity|]. split.
  - assert (X : allowed (fun _ : unit => true) (map fst (data 100000)) x_) by (constructor; [discriminate|left; reflexivity]).
    constructor; [|intros o [<-|[<-|[]]]; cbn; tauto|reflexivity|].
    + constructor; [exact X|]. constructor; [cbn; lia|]. intros e [<-|[<-|[]]]; constructor; intros e [E|[E|E]]; try discriminate E; injection E as <-; constructor; lia.
    + intros e [<-|[<-|[]]]; [constructor; lia|]. constructor; [exact X|]. constructor; [cbn; lia|]. intros e [<-|[<-|[]]]; constructor; [|lia]. intros e [E|[E|E]]; discriminate E.
  - split; [vm_compute; tauto|]. split; vm_compute; reflexivity.
Qed.
(** A list of columns is estimated as if it selected rows.  x[:, [0, 0, ...]] with 64 zeros *)
Theorem C32_column_lists_are_estimated_refuted : exists e arrays a, let n := 100000 in
  arrays = data n /\ List.In (EIndexed (VArray a)) (fst (run e arrays)) /\ size a = 64 * n /\ size a > Z.max 4096 (8 * n).
Proof.
  exists (Subscript x_ (Tuple [Slice None None None; ListLit (repeat (int 0) 64)])), (data 100000), (arr [100000; 64] KFloat 4).
  split; [reflexivity|]. split; [vm_compute; tauto|]. split; vm_compute; reflexivity.
Qed.
(** Integers are not limited: 13 nested powers. *)
Fixpoint tower (k : nat) : expr unit := match k with O => int 9 | S k => BinOp Pow (tower k) (int 8) end.
Notation inner := (eval (fun _ : unit => true) t_unary t_binary t_compare t_and t_call t_index).
Lemma power_step arrays n e log z : inner arrays n e = (log, Ok (VInt z)) ->
  inner arrays n (BinOp Pow e (int 8)) = (log ++ [EBinary Pow; EComputed (VInt (z ^ 8))], Ok (VInt (z ^ 8))).
Proof. intros H. cbn [Filter.eval in_binary int]. rewrite H. reflexivity. Qed.
Lemma tower_value arrays n k : exists log, inner arrays n (tower (S k)) = (log ++ [EComputed (VInt (9 ^ (8 ^ Z.of_nat (S k))))], Ok (VInt (9 ^ (8 ^ Z.of_nat (S k))))).
Proof.
  assert (E : forall k, exists log, inner arrays n (tower k) = (log, Ok (VInt (9 ^ (8 ^ Z.of_nat k))))).
  { induction k0 as [|k0 (log & IH)]; [eexists; reflexivity|]. cbn [tower]. rewrite (power_step IH). rewrite Nat2Z.inj_succ, Z.pow_succ_r, (Z.mul_comm 8), Z.pow_mul_r by lia. eexists. reflexivity. }
  destruct (E k) as (log & H). exists (log ++ [EBinary Pow]). cbn [tower]. rewrite (power_step H). rewrite Nat2Z.inj_succ, Z.pow_succ_r, (Z.mul_comm 8), Z.pow_mul_r by lia. rewrite <- app_assoc. reflexivity.
Qed.
Lemma run_log e arrays name first rest n tail : arrays = (name, first) :: rest -> shape first = n :: tail -> (nodes e < 128)%nat -> (depth e < 16)%nat ->
  (forall nm a, List.In (nm, a) arrays -> dunder nm = false /\ kind a = KFloat) -> forall ev, List.In ev (fst (inner arrays n e)) -> List.In ev (fst (run e arrays)).
Proof.
  intros -> Sh Nn Nd Na ev H. unfold evaluate_filter_condition. rewrite Sh. unfold lift, need, ret. change (utf8_encode (ulit "...")) with (@Ok (list Z) [46; 46; 46]). cbn [andthen].
  change (zlen [46; 46; 46] <=? MAX_EXPRESSION_BYTES) with true. cbn [andthen].
  replace ((1 + nodes e <=? MAX_AST_NODES)%nat) with true by (symmetry; apply Nat.leb_le; unfold MAX_AST_NODES; lia).
  replace ((1 + depth e <=? MAX_AST_DEPTH)%nat) with true by (symmetry; apply Nat.leb_le; unfold MAX_AST_DEPTH; lia). cbn [andthen].
  assert (C : exists vs, mapM (fun na => guard negb (dunder (fst na)) else ValueError ;; check_array (F:=unit) n (VArray (snd na)) false) ((name, first) :: rest) = Ok vs).
  { revert Na. generalize ((name, first) :: rest). clear. intros l Na. induction l as [|[nm a] l IH]; [eexists; reflexivity|]. destruct (Na nm a (or_introl eq_refl)) as (N1 & N2).
    destruct IH as (vs & IH); [intros; apply Na; right; assumption|]. cbn [mapM fst snd]. rewrite N1, IH. cbn [negb check_array]. rewrite N2. eexists. reflexivity. }
  destruct C as (vs & ->). cbn [andthen].
  assert (Z0 : forall A (m : M unit unit A), (let (l, r) := m in ([] ++ l, r)) = m) by (intros A [l r]; reflexivity). rewrite !Z0.
  destruct (inner ((name, first) :: rest) n e) as [log [v|x]]; cbn [andthen fst] in *; [|exact H].
  match goal with |- context [let (_, _) := ?m in _] => destruct m as [log' r] end. cbn [fst]. apply in_or_app. left. exact H.
Qed.
Theorem C32_integers_are_limited_refuted : exists e arrays z, allowed (fun _ => true) (map fst arrays) e /\
  (nodes e < 128)%nat /\ (depth e < 16)%nat /\ List.In (EComputed (VInt z)) (fst (run e arrays)) /\ 2 ^ (2 ^ 39) < z.
Proof.
  exists (tower 13), (data 10), (9 ^ (8 ^ Z.of_nat 13)). split; [|split; [|split; [|split]]].
  - cbn [tower]. repeat (constructor; [|lia]). constructor. lia.
  - cbn. lia.
  - cbn. lia.
  - eapply run_log; [reflexivity|reflexivity|cbn; lia|cbn; lia| |].
    + intros nm a [E|[]]. injection E as <- <-. split; reflexivity.
    + destruct (tower_value (data 10) 10 12) as (log & ->). cbn [fst]. apply in_or_app. right. left. reflexivity.
  - change (2 ^ 39) with (8 ^ Z.of_nat 13). assert (H : 0 < 8 ^ Z.of_nat 13) by (vm_compute; reflexivity). apply Z.pow_lt_mono_l; [exact H|lia].
Qed.
(** Nor are tuples: the tuple (0,) times 2 ** 40. *)
Theorem C32_tuples_are_limited_refuted : exists e arrays l, allowed (fun _ => true) (map fst arrays) e /\
  List.In (EComputed (VTuple l)) (fst (run e arrays)) /\ zlen l = 2 ^ 40.
Proof.
  exists (BinOp Mult (Tuple [int 0]) (int (2 ^ 40))), (data 10), (List.concat (repeat [IInt 0] (Z.to_nat (2 ^ 40)))). split; [|split].
  - constructor; [cbn; tauto| |constructor; lia]. constructor; [cbn; lia|]. intros e [<-|[]]. constructor. lia.
  - eapply run_log; [reflexivity|reflexivity|cbn; lia|cbn; lia| |].
    + intros nm a [E|[]]. injection E as <- <-. split; reflexivity.
    + right. left. reflexivity.
  - assert (L : forall k, zlen (List.concat (repeat [IInt 0] k)) = Z.of_nat k).
    { induction k as [|k IH]; [reflexivity|]. cbn [repeat List.concat app]. rewrite zlen_cons, IH. lia. }
    rewrite L, Z2Nat.id; [reflexivity|lia].
Qed.
End Concrete.
