(** Facts about the profile cache under interleaved calls: names, the directory, and the invariant. *)
From Verif Require Import Base BaseFacts Checkpoint Json JsonFacts FieldDigestFacts MetricsFacts ProfileStore ProfileStoreSpec.
Set Implicit Arguments. Unset Strict Implicit.

(** ** The directory *)
Lemma get_remove_same l n : obj_get (remove l n) n = None.
Proof.
  induction l as [|[k v] l IH]; [reflexivity|]. cbn [remove filter fst]. destruct (ustr_eqb n k) eqn:E; cbn; [exact IH|].
  rewrite E. exact IH.
Qed.
Lemma get_remove_other l n n' : n <> n' -> obj_get (remove l n) n' = obj_get l n'.
Proof.
  intros N. induction l as [|[k v] l IH]; [reflexivity|]. cbn [remove filter fst obj_get].
  destruct (ustr_eqb n k) eqn:E; cbn [negb].
  - apply ustr_eqb_eq in E. subst k. assert (Q : ustr_eqb n' n = false) by (apply ustr_eqb_neq; congruence). rewrite Q. exact IH.
  - cbn [obj_get]. destruct (ustr_eqb n' k); [reflexivity|]. exact IH.
Qed.

(** ** Names *)
Lemma hex_digest k : List.length k = 64%nat -> (digest k <-> forallb hex_char k = true).
Proof.
  intros L. unfold digest. rewrite forallb_forall. split.
  - intros (_ & F) c Hc. rewrite Forall_forall in F. specialize (F c Hc). unfold hex_char. lia.
  - intros F. split; [exact L|]. rewrite Forall_forall. intros c Hc. specialize (F c Hc). unfold hex_char in F. lia.
Qed.
Lemma is_profile_ok n : is_profile n = true <-> profile n.
Proof.
  unfold is_profile, profile. split.
  - intros H. apply andb_prop in H. destruct H as (H & H3). apply andb_prop in H. destruct H as (H1 & H2).
    apply Nat.eqb_eq in H1. exists (firstn 64 n). split.
    + apply hex_digest; [rewrite firstn_length; lia|exact H2].
    + apply ustr_eqb_eq in H3. change (ulit ".json") with suffix. rewrite <- H3. symmetry. apply firstn_skipn.
  - intros (k & D & ->). pose proof D as (L & _). rewrite app_length, L. change (List.length (ulit ".json")) with 5%nat.
    cbn [Nat.add Nat.eqb andb].
    rewrite (firstn_app 64 k (ulit ".json")), (skipn_app 64 k (ulit ".json")), L, Nat.sub_diag, firstn_O, app_nil_r.
    rewrite <- L, firstn_all, skipn_all. cbn [app skipn]. rewrite ustr_eqb_refl, andb_true_r. apply hex_digest; assumption.
Qed.
Lemma is_profile_name k : digest k -> is_profile (profile_name k) = true.
Proof. intros D. apply is_profile_ok. exists k. auto. Qed.
Lemma profile_name_inj a b : profile_name a = profile_name b -> a = b.
Proof. unfold profile_name. apply app_inv_tail. Qed.
Lemma temporary_not_profile p t k : is_profile (temporary_name p t k) = false.
Proof.
  destruct (is_profile (temporary_name p t k)) eqn:E; [|reflexivity]. apply is_profile_ok in E. destruct E as (h & (L & F) & E).
  destruct h as [|c h]; [discriminate L|]. unfold temporary_name in E. cbn in E. injection E as E _. subst c.
  inversion F as [|x y B]; subst. lia.
Qed.
Definition no_dot (k : ustr) : Prop := ~ In 46 k.
Lemma digest_no_dot k : digest k -> no_dot k.
Proof. intros (_ & F) H. rewrite Forall_forall in F. specialize (F _ H). lia. Qed.
Lemma digits_no_dot n : 0 <= n -> no_dot (digits n).
Proof.
  intros Hn H. destruct (digits_ok Hn) as (_ & F & _). rewrite forallb_forall in F. specialize (F _ H). unfold digit in F. lia.
Qed.
Lemma digits_inj n m : 0 <= n -> 0 <= m -> digits n = digits m -> n = m.
Proof.
  intros Hn Hm E. destruct (digits_ok Hn) as (A & _). destruct (digits_ok Hm) as (B & _). congruence.
Qed.
Lemma temporary_inj p t k p' t' k' : 0 <= p -> 0 <= p' -> 0 <= t -> 0 <= t' -> no_dot k -> no_dot k' ->
  temporary_name p t k = temporary_name p' t' k' -> p = p' /\ t = t' /\ k = k'.
Proof.
  intros Hp Hp' Ht Ht' Hk Hk' E. unfold temporary_name in E. apply app_inv_head in E.
  change (ulit ".") with [46] in E. change (ulit ".tmp") with (46 :: ulit "tmp") in E. cbn [app] in E.
  apply split_sep in E; [|exact Hk|exact Hk']. destruct E as (-> & E).
  apply split_sep in E; [|apply digits_no_dot; assumption|apply digits_no_dot; assumption]. destruct E as (E1 & E).
  apply split_sep in E; [|apply digits_no_dot; assumption|apply digits_no_dot; assumption]. destruct E as (E2 & _).
  split; [apply digits_inj; assumption|]. split; [apply digits_inj; assumption|reflexivity].
Qed.

Section Inv.
Variables (parse : list Z -> option json) (render : json -> list Z) (max_entries : Z).

(** ** What a running call may still do: only its own temporary file [tmp] and profiles change, and a
    profile only by moving the complete text of a record there. *)
Section Good.
Variables (A : Type) (L : list json) (tmp : ustr) (Q : A -> Prop).
Definition text_ok (n : ustr) (a : ans) : Prop :=
  forall b, a = Text b -> is_profile n = true -> exists r, In r L /\ b = render r /\ n = profile_name (exact_key r).
Fixpoint good (cur : option (list Z)) (p : prog A) : Prop :=
  match p with
  | Ret a => Q a
  | Raise _ => True
  | Do o k =>
    match o with
    | Create n => n = tmp /\ good (Some []) (k Done) /\ forall e, good cur (k (Failed e))
    | Append n b => n = tmp /\ (forall t, cur = Some t -> good (Some (t ++ b)) (k Done)) /\ forall e, good cur (k (Failed e))
    | Replace x y => x = tmp /\ (exists r, In r L /\ digest (exact_key r) /\ y = profile_name (exact_key r) /\ cur = Some (render r))
                     /\ good None (k Done) /\ forall e, good cur (k (Failed e))
    | Unlink n => is_profile n = true /\ good cur (k Done) /\ forall e, good cur (k (Failed e))
    | Read n => forall a, text_ok n a -> good cur (k a)
    | _ => forall a, good cur (k a)
    end
  end.
End Good.

Lemma good_bind (A B : Type) L tmp (Q : A -> Prop) (R : B -> Prop) (f : A -> prog B) (p : prog A) : forall cur,
  good L tmp Q cur p -> (forall cur' a, Q a -> good L tmp R cur' (f a)) -> good L tmp R cur (pbind p f).
Proof.
  induction p as [a|e|o k IH]; intros cur H F; cbn in *; [apply F; exact H|exact I|].
  destruct o; try (intros a; apply IH; [apply H|exact F]).
  - intros a T. apply IH; [apply H; exact T|exact F].
  - destruct H as (H1 & H2 & H3). split; [exact H1|]. split; [apply IH; auto|]. intros e. apply IH; auto.
  - destruct H as (H1 & H2 & H3). split; [exact H1|]. split; [intros t E; apply IH; auto|]. intros e. apply IH; auto.
  - destruct H as (H1 & H2 & H3 & H4). split; [exact H1|]. split; [exact H2|]. split; [apply IH; auto|]. intros e. apply IH; auto.
  - destruct H as (H1 & H2 & H3). split; [exact H1|]. split; [apply IH; auto|]. intros e. apply IH; auto.
Qed.
Definition passive (o : op) : bool := match o with Mkdir | IsDir | Glob | Exists _ | Stat _ => true | _ => false end.
Lemma good_must (B : Type) L tmp (R : B -> Prop) (f : ans -> prog B) o cur : passive o = true ->
  (forall a, (forall e, a <> Failed e) -> good L tmp R cur (f a)) -> good L tmp R cur (pbind (must o) f).
Proof.
  intros P H. assert (G : forall a, good L tmp R cur (pbind (match a with Failed e => Raise e | _ => Ret a end) f)).
  { intros a. destruct a; try (apply H; discriminate). exact I. }
  destruct o; try discriminate P; exact G.
Qed.
Lemma good_stats L tmp names : forall cur, good L tmp (fun l => map fst l = names) cur (stats names).
Proof.
  induction names as [|n r IH]; intros cur; [reflexivity|]. cbn. intros a.
  destruct a; cbn; try exact I. eapply good_bind; [apply IH|]. intros cur' l E. cbn. rewrite E. reflexivity.
Qed.
Lemma newest_in l n : In n (newest_first l) <-> In n (map fst l).
Proof.
  unfold newest_first. split; intros H; (eapply Permutation_in; [|exact H]).
  - apply Permutation_map. apply CheckpointFacts.sort_perm.
  - apply Permutation_map. apply Permutation_sym. apply CheckpointFacts.sort_perm.
Qed.
Lemma good_sorted L tmp cur : good L tmp (Forall (fun n => is_profile n = true)) cur sorted_profiles.
Proof.
  unfold sorted_profiles. cbn. intros a. destruct a; cbn; try exact I. eapply good_bind; [apply good_stats|].
  intros cur' s E. cbn. rewrite Forall_forall. intros n Hn. apply (proj1 (newest_in s n)) in Hn. cbn beta in E. rewrite E in Hn. apply filter_In in Hn. apply Hn.
Qed.
Definition matches (L : list json) (e c : ustr) (m : reuse_mode) (x : option (json * kind)) : Prop :=
  match x with
  | None => True
  | Some (r, IsExact) => In r L /\ valid r = true /\ exact_key r = e /\ m <> Off
  | Some (r, IsCompatible) => In r L /\ valid r = true /\ compatible_key r = c /\ m = Compatible
  end.
Lemma good_first L tmp e c m : (forall r, In r L -> parse (render r) = Some r) -> m <> Off -> forall names cur,
  Forall (fun n => is_profile n = true) names ->
  good L tmp (matches L e c m) cur (first_match parse e c (match m with Compatible => true | _ => false end) names).
Proof.
  intros P M. induction names as [|n r IH]; intros cur F; [exact I|]. inversion F as [|x y F1 F2]; subst.
  cbn [first_match good]. intros a T. destruct a as [|b|l|t|b|f]; try (apply IH; exact F2).
  destruct (T b eq_refl F1) as (rec & R1 & R2 & R3). subst b. rewrite (P _ R1).
  destruct (valid rec) eqn:V; cbn [negb]; [|apply IH; exact F2].
  destruct (ustr_eqb (exact_key rec) e) eqn:E1; [cbn; apply ustr_eqb_eq in E1; auto|].
  destruct m; cbn [andb]; try (apply IH; exact F2).
  destruct (ustr_eqb (compatible_key rec) c) eqn:E2; [cbn; apply ustr_eqb_eq in E2; auto|]. apply IH; exact F2.
Qed.
Lemma good_load L tmp e c m cur : (forall r, In r L -> parse (render r) = Some r) -> digest e ->
  good L tmp (matches L e c m) cur (load parse e c m).
Proof.
  intros P D. unfold load. destruct m; [exact I| |].
  - apply good_must; [reflexivity|]. intros a _. destruct a as [|b|l|t|b|f]; try exact I. destruct b; [|exact I].
    apply (@good_first L tmp e c Exact P ltac:(discriminate)). constructor; [apply is_profile_name; exact D|constructor].
  - apply good_must; [reflexivity|]. intros a _. destruct a as [|b|l|t|b|f]; try exact I. destruct b; [|exact I].
    eapply good_bind with (Q := Forall (fun n => is_profile n = true)).
    + apply good_must; [reflexivity|]. intros a _. destruct a as [|b|l|t|b|f]; try constructor.
      destruct b; [constructor|]. apply good_sorted.
    + intros cur' more F. apply (@good_first L tmp e c Compatible P ltac:(discriminate)).
      constructor; [apply is_profile_name; exact D|exact F].
Qed.
Lemma good_unlink (L : list json) tmp names : Forall (fun n => is_profile n = true) names -> forall cur,
  good L tmp (fun _ : unit => True) cur (unlink_all names).
Proof.
  induction 1 as [|n r F1 F2 IH]; intros cur; [exact I|]. cbn. split; [exact F1|]. split; [apply IH|].
  intros e. destruct e; [apply IH|exact I|exact I].
Qed.
Lemma good_appends (B : Type) L tmp (R : B -> Prop) (f : unit -> prog B) chunks : forall t,
  good L tmp R (Some (t ++ List.concat chunks)) (f tt) ->
  good L tmp R (Some t) (pbind (appends tmp chunks) f).
Proof.
  induction chunks as [|b r IH]; intros t H; cbn in *; [rewrite app_nil_r in H; exact H|].
  split; [reflexivity|]. split; [|intros e; exact I]. intros t' E. injection E as <-. apply IH. rewrite <- app_assoc. exact H.
Qed.
Lemma good_save L p t r chunks cur : In r L -> digest (exact_key r) -> List.concat chunks = render r ->
  good L (temporary_name p t (exact_key r)) (fun _ => True) cur (save max_entries p t r chunks).
Proof.
  intros I1 D C. unfold save. destruct (negb (valid r)); [exact I|]. apply good_must; [reflexivity|]. intros a _.
  cbv zeta. set (tmp := temporary_name p t (exact_key r)).
  unfold write_text. split; [reflexivity|]. split; [|intros e; exact I].
  change (good L tmp (fun _ : unit => True) (Some []) (pbind (appends tmp chunks) (fun _ =>
     pbind (must (Replace tmp (profile_name (exact_key r)))) (fun _ =>
     pbind sorted_profiles (fun profiles => unlink_all (skipn (Z.to_nat max_entries) profiles)))))).
  apply good_appends. cbn [app]. split; [reflexivity|]. split.
  { exists r. rewrite C. auto. }
  split; [|intros e; exact I].
  change (good L tmp (fun _ : unit => True) None
     (pbind sorted_profiles (fun profiles => unlink_all (skipn (Z.to_nat max_entries) profiles)))).
  eapply good_bind; [apply good_sorted|]. intros cur' a' F.
  apply good_unlink. rewrite Forall_forall in *. intros n Hn. apply F.
  rewrite <- (firstn_skipn (Z.to_nat max_entries) a'). apply in_or_app. right. exact Hn.
Qed.

(** ** One operation *)
Definition cur_of (d : dir) (tmp : ustr) : option (list Z) := option_map content (at_name d tmp).
Lemma serve_good (A : Type) L tmp (Q : A -> Prop) o k now d d' a :
  is_profile tmp = false -> holds render L d -> good L tmp Q (cur_of d tmp) (Do o k) -> served true now d o d' a ->
  holds render L d' /\ good L tmp Q (cur_of d' tmp) (k a)
  /\ (forall n, is_profile n = false -> n <> tmp -> at_name d' n = at_name d n).
Proof.
  intros NP H G S. unfold cur_of in *.
  assert (same : forall x, good L tmp Q (option_map content (at_name d tmp)) (k x) -> d' = d -> a = x ->
     holds render L d' /\ good L tmp Q (option_map content (at_name d' tmp)) (k a)
     /\ (forall n, is_profile n = false -> n <> tmp -> at_name d' n = at_name d n)).
  { intros x Gx -> ->. auto. }
  inversion S; subst; cbn [good] in G.
  - (* fail *) eapply same; [|reflexivity|reflexivity].
    destruct o; try apply G. intros b E. discriminate E.
  - (* mkdir *) split; [exact H|]. split; [apply G|]. reflexivity.
  - eapply same; [|reflexivity|reflexivity]. apply G.
  - eapply same; [|reflexivity|reflexivity]. apply G.
  - eapply same; [|reflexivity|reflexivity]. apply G.
  - eapply same; [|reflexivity|reflexivity]. apply G.
  - eapply same; [|reflexivity|reflexivity]. apply G.
  - eapply same; [|reflexivity|reflexivity]. apply G.
  - eapply same; [|reflexivity|reflexivity]. apply G. intros b E IP. injection E as <-.
    apply H; [assumption|]. apply is_profile_ok. exact IP.
  - eapply same; [|reflexivity|reflexivity]. apply G. intros b E. discriminate E.
  - (* create *) destruct G as (-> & G & _). unfold at_name. cbn [entries]. rewrite obj_get_set_same. split; [|split; [exact G|]].
    + intros n f E P. unfold at_name in E. cbn [entries] in E. rewrite obj_get_set_other in E; [apply H; assumption|].
      intros ->. apply is_profile_ok in P. congruence.
    + intros n _ N. apply obj_get_set_other. congruence.
  - eapply same; [|reflexivity|reflexivity]. apply G.
  - (* append *) destruct G as (-> & G & _). unfold at_name. cbn [entries]. rewrite obj_get_set_same. split; [|split].
    + intros n f' E P. unfold at_name in E. cbn [entries] in E. rewrite obj_get_set_other in E; [apply H; assumption|].
      intros ->. apply is_profile_ok in P. congruence.
    + cbn. apply G. unfold at_name. cbn [entries]. match goal with Hf : obj_get _ tmp = Some _ |- _ => rewrite Hf end. reflexivity.
    + intros n _ N. apply obj_get_set_other. congruence.
  - (* replace *) destruct G as (-> & (r & R1 & R2 & -> & R3) & G & _). unfold at_name in *. cbn [entries] in *.
    match goal with Hf : obj_get _ tmp = Some _ |- _ => rewrite Hf in R3 end. injection R3 as R3. split; [|split].
    + intros n f' E P. unfold at_name in E. cbn [entries] in E. destruct (ustr_eqb (profile_name (exact_key r)) n) eqn:En.
      * apply ustr_eqb_eq in En. subst n. rewrite obj_get_set_same in E. injection E as <-. exists r. auto.
      * apply ustr_eqb_neq in En. rewrite obj_get_set_other in E by exact En. rewrite get_remove_other in E; [apply H; assumption|].
        intros <-. apply is_profile_ok in P. congruence.
    + rewrite obj_get_set_other by congruence. rewrite get_remove_same. exact G.
    + intros n N1 N2. rewrite obj_get_set_other; [apply get_remove_other; congruence|].
      intros <-. rewrite is_profile_name in N1 by exact R2. discriminate.
  - eapply same; [|reflexivity|reflexivity]. apply G.
  - (* unlink *) destruct G as (IP & G & _). unfold at_name in *. cbn [entries] in *. split; [|split].
    + intros n' f' E P. unfold at_name in E. cbn [entries] in E. destruct (ustr_eqb n n') eqn:En.
      * apply ustr_eqb_eq in En. subst n'. rewrite get_remove_same in E. discriminate.
      * apply ustr_eqb_neq in En. rewrite get_remove_other in E by exact En. apply H; assumption.
    + rewrite get_remove_other by congruence. exact G.
    + intros n' N1 N2. apply get_remove_other. congruence.
  - eapply same; [|reflexivity|reflexivity]. apply G.
Qed.

(** ** The invariant *)
Definition temp_of (x : task) : ustr :=
  temporary_name (pid x) (tid x) (match called x with CSave r _ => exact_key r | CLoad _ _ _ => [] end).
Definition sound (L : list json) (c : call) (x : outcome) : Prop :=
  match c, x with CLoad e c m, Loaded y => matches L e c m y | _, _ => True end.
Definition ok_task (L : list json) (d : dir) (x : task) : Prop :=
  0 <= pid x /\ 0 <= tid x /\ match called x with CSave r _ => digest (exact_key r) | _ => True end
  /\ good L (temp_of x) (sound L (called x)) (cur_of d (temp_of x)) (left_to_do x).
Definition who (x : task) := (pid x, tid x).
Lemma temp_distinct L d x y : ok_task L d x -> ok_task L d y -> who x <> who y -> temp_of x <> temp_of y.
Proof.
  intros (X1 & X2 & X3 & _) (Y1 & Y2 & Y3 & _) N E. apply temporary_inj in E; auto.
  - destruct E as (E1 & E2 & _). apply N. unfold who. congruence.
  - destruct (called x); [intros []|apply digest_no_dot; exact X3].
  - destruct (called y); [intros []|apply digest_no_dot; exact Y3].
Qed.
Definition temporary (n : ustr) : Prop := exists p t k, n = temporary_name p t k.
Lemma reach_inv log0 d0 log d ts : reach parse render max_entries log0 d0 log d ts ->
  holds render log0 d0 -> (forall r, In r log0 -> parse (render r) = Some r) ->
  (forall r, In r log -> parse (render r) = Some r) /\ NoDup (map who ts)
  /\ (forall n, is_profile n = false -> ~ temporary n -> at_name d n = at_name d0 n)
  /\ forall L, incl log L -> (forall r, In r L -> parse (render r) = Some r) -> holds render L d /\ Forall (ok_task L d) ts.
Proof.
  intros R H0 P0. induction R as [|log d ts p t e c m R IH Hp Ht N D|log d ts p t r chunks R IH Hp Ht N ST C
    |log d ts1 p t c o k ts2 now d' a R IH S|log d ts1 x ts2 R IH].
  - split; [exact P0|]. split; [constructor|]. split; [auto|]. intros L I1 _. split; [|constructor].
    intros n f E P. destruct (H0 n f E P) as (r & R1 & R2). exists r. auto.
  - destruct IH as (I1 & I2 & I3 & I4). split; [exact I1|]. split; [constructor; [exact N|exact I2]|].
    split; [exact I3|]. intros L I5 I6. destruct (I4 L I5 I6) as (J1 & J2). split; [exact J1|]. constructor; [|exact J2].
    split; [exact Hp|]. split; [exact Ht|]. split; [exact I|]. cbn [left_to_do called program]. eapply good_bind.
    + apply good_load; [exact I6|exact D].
    + intros cur x Hx. exact Hx.
  - destruct IH as (I1 & I2 & I3 & I4). destruct ST as (S1 & S2). split; [intros y [<-|Hy]; auto|].
    split; [constructor; [exact N|exact I2]|]. split; [exact I3|]. intros L I5 I6.
    destruct (I4 L) as (J1 & J2); [intros y Hy; apply I5; right; exact Hy|exact I6|]. split; [exact J1|]. constructor; [|exact J2].
    split; [exact Hp|]. split; [exact Ht|]. split; [exact S2|]. cbn [left_to_do called program]. eapply good_bind.
    + unfold temp_of. cbn [pid tid called]. apply good_save; [apply I5; left; reflexivity|exact S2|exact C].
    + intros cur x _. exact I.
  - destruct IH as (I1 & I2 & I3 & I4). split; [exact I1|]. split; [rewrite map_app in *; exact I2|]. split.
    + destruct (I4 log (incl_refl _) I1) as (J1 & J2). apply Forall_app in J2. destruct J2 as (_ & J2).
      inversion J2 as [|x y K1 K2]; subst. destruct K1 as (_ & _ & _ & K1).
      destruct (serve_good (temporary_not_profile _ _ _) J1 K1 S) as (_ & _ & U). intros n N1 N2. rewrite U; [apply I3; assumption|exact N1|].
      intros ->. apply N2. eexists _, _, _. reflexivity.
    + intros L I5 I6. destruct (I4 L I5 I6) as (J1 & J2). apply Forall_app in J2. destruct J2 as (J2 & J3).
      inversion J3 as [|x y K1 K2]; subst. pose proof K1 as (K3 & K4 & K5 & K6).
      destruct (serve_good (temporary_not_profile _ _ _) J1 K6 S) as (U1 & U2 & U3). split; [exact U1|].
      assert (others : forall x, ok_task L d x -> who x <> (p, t) -> ok_task L d' x).
      { intros x Hx Nx. pose proof Hx as (X1 & X2 & X3 & X4). split; [exact X1|]. split; [exact X2|]. split; [exact X3|].
        unfold cur_of. rewrite U3; [exact X4|apply temporary_not_profile|]. apply (temp_distinct Hx K1). exact Nx. }
      rewrite map_app in I2. cbn [map who pid tid] in I2.
      apply Forall_app. split; [|constructor].
      * rewrite Forall_forall in *. intros x Hx. apply others; [apply J2; exact Hx|]. intros E.
        apply NoDup_remove_2 in I2. apply I2. apply in_or_app. left. change (In (p, t) (map who ts1)). rewrite <- E. apply in_map. exact Hx.
      * split; [exact K3|]. split; [exact K4|]. split; [exact K5|]. exact U2.
      * rewrite Forall_forall in *. intros x Hx. apply others; [apply K2; exact Hx|]. intros E.
        apply NoDup_remove_2 in I2. apply I2. apply in_or_app. right. change (In (p, t) (map who ts2)). rewrite <- E. apply in_map. exact Hx.
  - destruct IH as (I1 & I2 & I3 & I4). split; [exact I1|]. split.
    { rewrite map_app in *. cbn [map] in I2. apply NoDup_remove_1 in I2. exact I2. }
    split; [exact I3|]. intros L I5 I6. destruct (I4 L I5 I6) as (J1 & J2). split; [exact J1|].
    apply Forall_app in J2. destruct J2 as (J2 & J3). inversion J3; subst. apply Forall_app. auto.
Qed.
End Inv.
