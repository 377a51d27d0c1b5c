(** Reading the arguments of an export. *)
From Verif Require Import Base BaseFacts Json JsonFacts MetricsFacts Codec Export ExportSpec.
Set Implicit Arguments. Unset Strict Implicit.

Lemma mem_in x l : mem x l = true <-> In x l.
Proof.
  unfold mem. rewrite existsb_exists. split; [intros (y & H & E); apply ustr_eqb_eq in E; subst; exact H|].
  intros H. exists x. split; [exact H|apply ustr_eqb_refl].
Qed.
Lemma get_without (a : args) k k' : obj_get (without a k) k' = if ustr_eqb k k' then None else obj_get a k'.
Proof.
  unfold without. induction a as [|[x v] a IH]; cbn [filter obj_get fst]; [destruct (ustr_eqb k k'); reflexivity|].
  destruct (ustr_eqb k x) eqn:E; cbn [negb obj_get].
  - apply ustr_eqb_eq in E. subst x. rewrite IH. destruct (ustr_eqb k k') eqn:E'; [reflexivity|].
    destruct (ustr_eqb k' k) eqn:E2; [|reflexivity]. apply ustr_eqb_eq in E2. subst. rewrite ustr_eqb_refl in E'. discriminate.
  - destruct (ustr_eqb k' x) eqn:E2; [|exact IH]. apply ustr_eqb_eq in E2. subst x. rewrite E. reflexivity.
Qed.
Lemma has_get a k : has a k = true <-> given a k.
Proof. unfold has, given. destruct (obj_get a k); split; congruence. Qed.
Lemma has_not a k : has a k = false <-> obj_get a k = None.
Proof. unfold has. destruct (obj_get a k); split; congruence. Qed.
Lemma without_absent a k : obj_get a k = None -> without a k = a.
Proof.
  unfold without. induction a as [|[x v] a IH]; cbn [filter obj_get fst]; [reflexivity|]. destruct (ustr_eqb k x) eqn:E; [discriminate|]. intros H.
  cbn [negb]. rewrite IH by exact H. reflexivity.
Qed.
Definition withouts (a : args) (ks : list ustr) : args := fold_left without ks a.
Lemma get_withouts ks : forall a k, obj_get (withouts a ks) k = if mem k ks then None else obj_get a k.
Proof.
  induction ks as [|x ks IH]; intros a k; cbn; [reflexivity|]. unfold withouts in IH. rewrite IH, get_without.
  unfold mem. destruct (existsb (ustr_eqb k) ks); [rewrite orb_true_r; reflexivity|]. rewrite orb_false_r.
  destruct (ustr_eqb x k) eqn:E; destruct (ustr_eqb k x) eqn:E'; try reflexivity.
  - apply ustr_eqb_eq in E. subst. rewrite ustr_eqb_refl in E'. discriminate.
  - apply ustr_eqb_eq in E'. subst. rewrite ustr_eqb_refl in E. discriminate.
Qed.
Lemma withouts_in ks : forall a e, In e (withouts a ks) <-> In e a /\ ~ In (fst e) ks.
Proof.
  induction ks as [|x ks IH]; intros a e; cbn; [tauto|]. unfold withouts in IH. rewrite IH. unfold without. rewrite filter_In.
  destruct (ustr_eqb x (fst e)) eqn:E; cbn.
  - apply ustr_eqb_eq in E. intuition (try discriminate).
  - apply ustr_eqb_neq in E. intuition.
Qed.

(** Checked values. *)
Lemma check_rule_ok j s : check_rule j = Ok s <-> j = JStr s /\ In s legal_rules.
Proof.
  destruct j; cbn [check_rule]; try (split; [discriminate|intros (? & _); discriminate]).
  destruct (mem s0 [freestyle; standard; renju]) eqn:E.
  - split; [intros H; injection H as ->; split; [reflexivity|apply mem_in; exact E]|]. intros (H & _). congruence.
  - split; [discriminate|]. intros (H & I). injection H as ->. apply mem_in in I. unfold legal_rules, freestyle, standard, renju in *. congruence.
Qed.
Lemma rules_checked l rs : mapM check_rule l = Ok rs -> l = map JStr rs /\ incl rs legal_rules.
Proof.
  intros H. apply mapM_Forall2 in H. induction H as [|j s l rs H _ IH]; [split; [reflexivity|intros ? []]|].
  apply check_rule_ok in H. destruct H as (-> & H). destruct IH as (-> & IH). split; [reflexivity|]. intros x [<-|I]; [exact H|apply IH; exact I].
Qed.
Lemma rules_check rs : incl rs legal_rules -> mapM check_rule (map JStr rs) = Ok rs.
Proof.
  intros H. apply mapM_Forall2. induction rs as [|r rs IH]; cbn; constructor.
  - apply check_rule_ok. split; [reflexivity|apply H; left; reflexivity].
  - apply IH. intros x I. apply H. right. exact I.
Qed.
Lemma int_of_number j n : int_of j = Some n <-> number j n.
Proof.
  destruct j; cbn [int_of]; split; intros H; try discriminate; try (inversion H; fail).
  - injection H as <-. constructor.
  - inversion H. reflexivity.
  - injection H as <-. constructor.
  - inversion H. reflexivity.
Qed.
Lemma check_size_ok j n : check_size j = Ok n <-> number j n /\ 1 <= n <= 32.
Proof.
  unfold check_size. rewrite <- int_of_number. destruct (int_of j) as [m|]; [|split; [discriminate|intros (? & _); discriminate]].
  split.
  - intros H. apply guard_Ok in H. destruct H as (H & E). injection E as ->. split; [reflexivity|lia].
  - intros (H & L). injection H as ->. replace ((1 <=? n) && (n <=? 32)) with true by lia. reflexivity.
Qed.
Lemma sizes_checked l ns : mapM check_size l = Ok ns -> Forall2 number l ns /\ Forall (fun n => 1 <= n <= 32) ns.
Proof.
  intros H. apply mapM_Forall2 in H. induction H as [|j n l ns H _ IH]; [split; constructor|].
  apply check_size_ok in H. destruct IH. destruct H. split; constructor; assumption.
Qed.
Lemma numbers_ints ns : Forall2 number (map JInt ns) ns.
Proof. induction ns; cbn; constructor; [constructor|assumption]. Qed.
Lemma numbers_unique l : forall ns ms, Forall2 number l ns -> Forall2 number l ms -> ns = ms.
Proof.
  induction l as [|j l IH]; intros ns ms H K; inversion H; inversion K; subst; [reflexivity|]. f_equal; [|apply IH; assumption].
  match goal with A : number j _, B : number j _ |- _ => apply int_of_number in A; apply int_of_number in B; congruence end.
Qed.
Lemma sizes_check l ns : Forall2 number l ns -> Forall (fun n => 1 <= n <= 32) ns -> mapM check_size l = Ok ns.
Proof.
  intros H K. apply mapM_Forall2. induction H as [|j n l ns H _ IH]; [constructor|]. inversion K; subst.
  constructor; [apply check_size_ok; split; assumption|apply IH; assumption].
Qed.
Lemma in_int_range lo hi n : In n (int_range lo hi) <-> lo <= n < hi.
Proof.
  unfold int_range. rewrite in_map_iff. split.
  - intros (k & <- & H). apply in_seq in H. lia.
  - intros H. exists (Z.to_nat (n - lo)). split; [lia|]. apply in_seq. lia.
Qed.

Definition rule_keys := [k_rule; k_rule_list; k_rules].
Definition size_keys := [k_size; k_min; k_max; k_size_list; k_sizes].

Lemma get_rules_ok a rs rest : get_rules_from_args a = Ok (rs, rest) ->
  names_rules a rs /\ rs <> [] /\ incl rs legal_rules /\ exists k, In k rule_keys /\ given a k /\ rest = without a k.
Proof.
  unfold get_rules_from_args. intros H. inv_bind H. destruct v as [values r]. apply guard_Ok in H. destruct H as (G & H).
  inv_bind H. injection H as <- <-. apply rules_checked in Hm0. destruct Hm0 as (-> & L).
  assert (N : v <> []) by (destruct v; [cbn in G; discriminate|discriminate]).
  destruct (obj_get a k_rule) as [j|] eqn:E1.
  - injection Hm as Q <-. destruct v as [|x [|? ?]]; try discriminate. cbn in Q. injection Q as ->. repeat split; auto; [apply by_rule; exact E1|].
    exists k_rule. repeat split; [left; reflexivity|unfold given; congruence].
  - destruct (obj_get a k_rule_list) as [j|] eqn:E2.
    + inv_bind Hm. injection Hm as Q <-. destruct j; try discriminate. cbn in Hm0. injection Hm0 as <-. subst l.
      repeat split; auto; [apply by_rules with k_rule_list; [left; reflexivity|exact E2]|].
      exists k_rule_list. repeat split; [right; left; reflexivity|unfold given; congruence].
    + destruct (obj_get a k_rules) as [j|] eqn:E3; [|discriminate].
      inv_bind Hm. injection Hm as Q <-. destruct j; try discriminate. cbn in Hm0. injection Hm0 as <-. subst l.
      repeat split; auto; [apply by_rules with k_rules; [right; left; reflexivity|exact E3]|].
      exists k_rules. repeat split; [right; right; left; reflexivity|unfold given; congruence].
Qed.

Definition size_ways := [[k_size]; [k_min; k_max]; [k_size_list]; [k_sizes]; []].
Lemma get_sizes_ok a ns rest : get_boardsizes_from_args a = Ok (ns, rest) ->
  (exists P, names_sizes a P /\ forall n, P n <-> In n ns) /\ Forall (fun n => 1 <= n <= 32) ns
  /\ exists ks, In ks size_ways /\ (forall k, In k ks -> given a k) /\ rest = withouts a ks.
Proof.
  unfold get_boardsizes_from_args. intros H. inv_bind H. destruct v as [values r]. inv_bind H. injection H as -> ->.
  apply sizes_checked in Hm0. destruct Hm0 as (F & L).
  assert (X : exists P ks, names_sizes a P /\ (forall n, P n <-> In n ns) /\ In ks size_ways /\ (forall k, In k ks -> given a k) /\ rest = withouts a ks).
  2:{ destruct X as (P & ks & X1 & X2 & X3 & X4 & X5). split; [exists P; auto|]. split; [exact L|]. exists ks. auto. }
  destruct (obj_get a k_size) as [j|] eqn:E1.
  { injection Hm as <- <-. inversion F as [|? n ? ? N1 N2]; subst. inversion N2; subst. exists (eq n), [k_size]. repeat split.
    - apply by_size with j; assumption.
    - intros ->. left. reflexivity.
    - intros [H|[]]. exact H.
    - left. reflexivity.
    - intros k [<-|[]]. unfold given. congruence. }
  assert (Rest : (l <- (match obj_get a k_size_list with
        | Some j => l <- as_list j ;; Ok (l, without a k_size_list)
        | None => match obj_get a k_sizes with
          | Some j => l <- as_list j ;; Ok (l, without a k_sizes)
          | None => Ok (map JInt (int_range 1 (32 + 1)), a)
          end end) ;; Ok l) = Ok (values, rest) -> obj_get a k_min = None \/ obj_get a k_max = None ->
     exists P ks, names_sizes a P /\ (forall n, P n <-> In n ns) /\ In ks size_ways /\ (forall k, In k ks -> given a k) /\ rest = withouts a ks).
  { clear Hm. intros Hm M. inv_bind Hm. injection Hm as ->. destruct (obj_get a k_size_list) as [j|] eqn:E2.
    - inv_bind Hm0. injection Hm0 as -> <-. destruct j; try discriminate. injection Hm as ->.
      exists (fun n => In n ns), [k_size_list]. repeat split; auto.
      + apply by_sizes with k_size_list values; [left; reflexivity|exact E2|exact F].
      + cbn; auto.
      + intros k [<-|[]]. unfold given. congruence.
    - destruct (obj_get a k_sizes) as [j|] eqn:E3.
      + inv_bind Hm0. injection Hm0 as -> <-. destruct j; try discriminate. injection Hm as ->.
        exists (fun n => In n ns), [k_sizes]. repeat split; auto.
        * apply by_sizes with k_sizes values; [right; left; reflexivity|exact E3|exact F].
        * cbn; auto.
        * intros k [<-|[]]. unfold given. congruence.
      + pose proof (f_equal (fun x => match x with Ok (v, _) => v | Err _ => [] end) Hm0) as Q. cbn beta iota in Q.
        assert (Q2 : a = rest) by (pose proof (f_equal (fun x => match x with Ok (_, v) => v | Err _ => [] end) Hm0) as Q2; exact Q2).
        clear Hm0. subst values rest.
        assert (E : ns = int_range 1 (32 + 1)) by exact (numbers_unique F (numbers_ints _)).
        exists (fun n => 1 <= n <= 32), []. repeat split.
        * apply by_default; [|exact M]. intros k [<-|[<-|[<-|[]]]]; assumption.
        * intros H. rewrite E. apply in_int_range. lia.
        * rewrite E in H. apply in_int_range in H. lia.
        * rewrite E in H. apply in_int_range in H. lia.
        * cbn; auto 6.
        * intros k []. }
  destruct (obj_get a k_min) as [jlo|] eqn:E2; [|apply Rest; [rewrite Hm; reflexivity|auto]].
  destruct (obj_get a k_max) as [jhi|] eqn:E3; [|apply Rest; [rewrite Hm; reflexivity|auto]].
  destruct (int_of jlo) as [lo|] eqn:E4; [|discriminate]. destruct (int_of jhi) as [hi|] eqn:E5; [|discriminate].
  injection Hm as <- <-. assert (E : ns = int_range lo (hi + 1)) by exact (numbers_unique F (numbers_ints _)).
  exists (fun n => lo <= n <= hi), [k_min; k_max]. repeat split.
  - apply by_range with jlo jhi; try assumption; apply int_of_number; assumption.
  - intros H. rewrite E. apply in_int_range. lia.
  - rewrite E in H. apply in_int_range in H. lia.
  - rewrite E in H. apply in_int_range in H. lia.
  - cbn; auto.
  - intros k [<-|[<-|[]]]; unfold given; congruence.
Qed.

(** Reading the arguments again, after the first reading put its result under [rules] and [boardsizes]. *)
Lemma get_rules_again l rest rs r : obj_get rest k_rules = None ->
  get_rules_from_args ((k_rules, JList l) :: rest) = Ok (rs, r) -> has r k_rules = true \/ (r = rest /\ mapM check_rule l = Ok rs).
Proof.
  intros N. unfold get_rules_from_args. intros H. inv_bind H. destruct v as [values r']. apply guard_Ok in H. destruct H as (_ & H).
  inv_bind H. injection H as -> ->. change (obj_get ((k_rules, JList l) :: rest) k_rule) with (obj_get rest k_rule) in Hm.
  change (obj_get ((k_rules, JList l) :: rest) k_rule_list) with (obj_get rest k_rule_list) in Hm.
  change (obj_get ((k_rules, JList l) :: rest) k_rules) with (Some (JList l)) in Hm.
  destruct (obj_get rest k_rule); [injection Hm as _ <-; left; reflexivity|].
  destruct (obj_get rest k_rule_list); [inv_bind Hm; injection Hm as _ <-; left; reflexivity|].
  right. cbn [as_list bind] in Hm. injection Hm as <- <-.
  change (without ((k_rules, JList l) :: rest) k_rules) with (without rest k_rules). rewrite without_absent by exact N. auto.
Qed.
Lemma get_sizes_again l rest ns r : obj_get rest k_sizes = None ->
  get_boardsizes_from_args ((k_sizes, JList l) :: rest) = Ok (ns, r) -> has r k_sizes = true \/ (r = rest /\ mapM check_size l = Ok ns).
Proof.
  intros N. unfold get_boardsizes_from_args. intros H. inv_bind H. destruct v as [values r'].
  inv_bind H. injection H as -> ->. change (obj_get ((k_sizes, JList l) :: rest) k_size) with (obj_get rest k_size) in Hm.
  change (obj_get ((k_sizes, JList l) :: rest) k_size_list) with (obj_get rest k_size_list) in Hm.
  change (obj_get ((k_sizes, JList l) :: rest) k_min) with (obj_get rest k_min) in Hm.
  change (obj_get ((k_sizes, JList l) :: rest) k_max) with (obj_get rest k_max) in Hm.
  change (obj_get ((k_sizes, JList l) :: rest) k_sizes) with (Some (JList l)) in Hm.
  destruct (obj_get rest k_size); [injection Hm as _ <-; left; reflexivity|].
  assert (Rest : match obj_get rest k_size_list with
        | Some j => l0 <- as_list j ;; Ok (l0, without ((k_sizes, JList l) :: rest) k_size_list)
        | None => l0 <- as_list (JList l) ;; Ok (l0, without ((k_sizes, JList l) :: rest) k_sizes)
        end = Ok (values, r) -> has r k_sizes = true \/ (r = rest /\ mapM check_size l = Ok ns)).
  { clear Hm. intros Hm. destruct (obj_get rest k_size_list); [inv_bind Hm; injection Hm as _ <-; left; reflexivity|].
    right. cbn [as_list bind] in Hm. injection Hm as <- <-.
    change (without ((k_sizes, JList l) :: rest) k_sizes) with (without rest k_sizes). rewrite without_absent by exact N. auto. }
  destruct (obj_get rest k_min) as [jlo|]; [|apply Rest; exact Hm]. destruct (obj_get rest k_max) as [jhi|]; [|apply Rest; exact Hm].
  destruct (int_of jlo); [|discriminate]. destruct (int_of jhi); [|discriminate]. injection Hm as _ <-. left. reflexivity.
Qed.

Lemma names_sizes_same a b P : (forall k, In k size_keys -> obj_get a k = obj_get b k) -> names_sizes a P -> names_sizes b P.
Proof.
  intros E H. destruct H as [j n H K|jlo jhi lo hi H1 H2 H3 H4|k js ns H1 H2 H3|H1 H2].
  - apply by_size with j; [|exact K]. rewrite <- E; [exact H|cbn; auto].
  - apply by_range with jlo jhi; try assumption; rewrite <- E; try assumption; cbn; auto.
  - apply by_sizes with k js; try assumption. rewrite <- E; [exact H2|]. destruct H1 as [<-|[<-|[]]]; cbn; auto 6.
  - apply by_default.
    + intros k I. rewrite <- E; [apply H1; exact I|]. destruct I as [<-|[<-|[<-|[]]]]; cbn; auto 6.
    + rewrite <- !E; [exact H2| |]; cbn; auto.
Qed.
Lemma rule_size_differ k k' : In k rule_keys -> In k' size_keys -> ustr_eqb k k' = false.
Proof. intros [<-|[<-|[<-|[]]]] [<-|[<-|[<-|[<-|[<-|[]]]]]]; reflexivity. Qed.

(** What is passed on to the serializer. *)
Definition options (a : args) : args := filter (fun e => negb (mem (fst e) reserved)) a.
Lemma options_of a ks : (forall k, In k ks -> In k reserved) -> (forall e, In e (withouts a ks) -> ~ In (fst e) reserved) -> withouts a ks = options a.
Proof.
  revert a. induction ks as [|x ks IH]; intros a I H.
  - cbn in *. unfold options. clear I. induction a as [|e a IHa]; [reflexivity|]. cbn [filter].
    destruct (mem (fst e) reserved) eqn:E; [apply mem_in in E; exfalso; apply (H e); [left; reflexivity|exact E]|]. cbn [negb].
    rewrite <- IHa; [reflexivity|]. intros e' I. apply H. right. exact I.
  - change (withouts a (x :: ks)) with (withouts (without a x) ks) in *. rewrite IH; [|intros k K; apply I; right; exact K|exact H].
    unfold options, without. clear IH H. induction a as [|e a IHa]; [reflexivity|]. cbn [filter]. destruct (ustr_eqb x (fst e)) eqn:E; cbn [negb filter].
    + rewrite IHa. apply ustr_eqb_eq in E. rewrite <- E. replace (mem x reserved) with true; [reflexivity|]. symmetry. apply mem_in. apply I. left. reflexivity.
    + rewrite IHa. reflexivity.
Qed.

Lemma prepare_ok registry mt a s : usual_classes registry -> prepare registry mt a = Ok s ->
  exists c rs ns, obj_get registry mt = Some c /\ construct c (options a) = Ok (s_traits s) /\ s_rules s = rs /\ s_sizes s = ns
  /\ names_rules a rs /\ rs <> [] /\ incl rs legal_rules
  /\ (exists P, names_sizes a P /\ forall n, P n <-> In n ns) /\ Forall (fun n => 1 <= n <= 32) ns
  /\ (forall e, In e (options a) -> In (fst e) (accepts c)) /\ ~ two_ways a.
Proof.
  unfold prepare, build_serializer. intros U H.
  apply bind_Ok in H. destruct H as ((rs & r1) & G1 & H). apply bind_Ok in H. destruct H as ((ns & r2) & G2 & H).
  apply guard_Ok in H. destruct H as (N & H). apply negb_true_iff in N. apply orb_false_iff in N. destruct N as (N & N3). apply orb_false_iff in N. destruct N as (N1 & N2).
  apply bind_Ok in H. destruct H as (c & C & H). destruct (obj_get registry mt) as [c'|] eqn:Ec; [|discriminate]. injection C as ->.
  change (has_rules_in_args _) with (true || has r2 k_rules) in H || idtac.
  assert (HR : has_rules_in_args ((k_rules, JList (map JStr rs)) :: (k_sizes, JList (map JInt ns)) :: r2) = true).
  { unfold has_rules_in_args. rewrite !orb_true_iff. right. reflexivity. }
  rewrite HR in H. apply bind_Ok in H. destruct H as ((rs' & r3) & G3 & H). apply get_rules_again in G3.
  2:{ apply has_not in N1. exact N1. }
  apply bind_Ok in H. destruct H as ((ns' & r4) & G4 & H). unfold call in H. apply guard_Ok in H. destruct H as (M & H).
  apply guard_Ok in H. destruct H as (A & H). apply bind_Ok in H. destruct H as (t & T & H). injection H as <-. cbn [s_traits s_rules s_sizes].
  apply negb_true_iff in M. apply orb_false_iff in M. destruct M as (M1 & M2).
  destruct (get_rules_ok G1) as (R1 & R2 & R3 & k & R4 & R5 & R6). destruct (get_sizes_ok G2) as ((P & S1 & S2) & S3 & ks & S4 & S5 & S6).
  destruct G3 as [G3|(-> & G3)].
  { exfalso. assert (Q : has r4 k_rules = true); [|congruence]. apply has_get in G3. apply has_get. destruct (has_boardsizes_in_args r3); [|injection G4 as _ <-; exact G3].
    destruct (get_sizes_ok G4) as (_ & _ & ks' & Q1 & _ & ->). unfold given. rewrite get_withouts.
    replace (mem k_rules ks') with false; [exact G3|]. symmetry.
    destruct Q1 as [<-|[<-|[<-|[<-|[<-|[]]]]]]; reflexivity. }
  rewrite (rules_check R3) in G3. injection G3 as <-.
  assert (HS : has_boardsizes_in_args ((k_sizes, JList (map JInt ns)) :: r2) = true).
  { unfold has_boardsizes_in_args. rewrite !orb_true_iff. right. right. reflexivity. }
  rewrite HS in G4. apply get_sizes_again in G4; [|apply has_not in N2; exact N2].
  destruct G4 as [G4|(-> & G4)]; [congruence|]. rewrite (sizes_check (numbers_ints ns) S3) in G4. injection G4 as <-.
  assert (W : r2 = withouts a (k :: ks)) by (rewrite S6, R6; reflexivity).
  assert (KR : forall k0, In k0 (k :: ks) -> In k0 reserved).
  { intros k0 [<-|I]; [destruct R4 as [<-|[<-|[<-|[]]]]; cbn; auto|].
    destruct S4 as [<-|[<-|[<-|[<-|[<-|[]]]]]]; repeat (destruct I as [<-|I]; [cbn; auto 10|]); destruct I. }
  assert (FR : forall e, In e r2 -> ~ In (fst e) reserved).
  { intros e I J. rewrite forallb_forall in A. specialize (A e I). apply mem_in in A. apply (U mt c (fst e)); [|exact J|exact A].
    apply obj_get_in. exact Ec. }
  assert (O : r2 = options a) by (rewrite W; apply options_of; [exact KR|rewrite <- W; exact FR]).
  assert (GK : forall k0, given a k0 -> In k0 reserved -> In k0 (k :: ks)).
  { intros k0 G I. unfold given in G. destruct (obj_get a k0) as [v|] eqn:E; [|congruence]. destruct (mem k0 (k :: ks)) eqn:B; [apply mem_in; exact B|].
    exfalso. assert (Q : obj_get r2 k0 = Some v) by (rewrite W, get_withouts, B; exact E). apply obj_get_in in Q. apply (FR _ Q). exact I. }
  exists c, rs, ns. repeat split; auto.
  - rewrite <- O. exact T.
  - exists P. split; [|exact S2]. apply names_sizes_same with r1; [|exact S1]. intros k' I. rewrite R6, get_without, (rule_size_differ R4 I). reflexivity.
  - intros e I. rewrite forallb_forall in A. rewrite <- O in I. apply mem_in. apply A. exact I.
  - intros [(k1 & k2 & D & I1 & I2 & V1 & V2)|(k1 & k2 & D & I1 & I2 & V1 & V2)]; apply D.
    + assert (J1 : In k1 (k :: ks)) by (apply GK; [exact V1|destruct I1 as [<-|[<-|[<-|[]]]]; cbn; auto]).
      assert (J2 : In k2 (k :: ks)) by (apply GK; [exact V2|destruct I2 as [<-|[<-|[<-|[]]]]; cbn; auto]).
      assert (OnlyRule : forall x, In x [ulit "rule"; ulit "rule_list"; ulit "rules"] -> In x (k :: ks) -> x = k).
      { intros x X [->|Y]; [reflexivity|]. exfalso.
        assert (In x size_keys) by (destruct S4 as [<-|[<-|[<-|[<-|[<-|[]]]]]]; repeat (destruct Y as [<-|Y]; [cbn; auto 10|]); destruct Y).
        pose proof (rule_size_differ (k := x) X H) as Q. rewrite ustr_eqb_refl in Q. discriminate. }
      rewrite (OnlyRule k1 I1 J1), (OnlyRule k2 I2 J2). reflexivity.
    + assert (J1 : In k1 (k :: ks)) by (apply GK; [exact V1|destruct I1 as [<-|[<-|[<-|[<-|[]]]]]; cbn; auto 10]).
      assert (J2 : In k2 (k :: ks)) by (apply GK; [exact V2|destruct I2 as [<-|[<-|[<-|[<-|[]]]]]; cbn; auto 10]).
      assert (Sz : forall x, In x [ulit "board_size"; ulit "min_board_size"; ulit "board_size_list"; ulit "boardsizes"] -> In x (k :: ks) -> In x ks).
      { intros x X [->|Y]; [|exact Y]. exfalso.
        assert (In x size_keys) by (destruct X as [<-|[<-|[<-|[<-|[]]]]]; cbn; auto 10).
        pose proof (rule_size_differ R4 H) as Q. rewrite ustr_eqb_refl in Q. discriminate. }
      apply Sz in J1; [|exact I1]. apply Sz in J2; [|exact I2]. clear - S4 I1 I2 J1 J2.
      assert (M : ~ In k_max [ulit "board_size"; ulit "min_board_size"; ulit "board_size_list"; ulit "boardsizes"]).
      { intros M. repeat (destruct M as [M|M]; [vm_compute in M; discriminate M|]). destruct M. }
      destruct S4 as [<-|[<-|[<-|[<-|[<-|[]]]]]]; cbn [In] in J1, J2;
        repeat match goal with H : _ \/ _ |- _ => destruct H as [H|H] | H : False |- _ => destruct H end; try congruence;
        exfalso; apply M; congruence.
Qed.
