(** The profile cache when one call runs at a time. *)
From Coq Require Import Sorted.
From Verif Require Import Base BaseFacts Checkpoint CheckpointFacts Json JsonFacts MetricsFacts ProfileStore ProfileStoreSpec ProfileStoreFacts.
Set Implicit Arguments. Unset Strict Implicit.

Lemma runs_bind (A B : Type) since (p : prog A) (f : A -> prog B) : forall d d2 r, runs since (pbind p f) d d2 r ->
  (exists d1 a, runs since p d d1 (inl a) /\ runs since (f a) d1 d2 r) \/ (exists e, runs since p d d2 (inr e) /\ r = inr e).
Proof.
  induction p as [a|e|o k IH]; intros d d2 r H; cbn in H.
  - left. exists d, a. split; [constructor|exact H].
  - right. inversion H; subst. exists e. split; [constructor|reflexivity].
  - inversion H; subst. match goal with X : runs _ (pbind (k _) f) _ _ _ |- _ => apply IH in X; destruct X as [(dd & x & X1 & X2)|(e & X1 & X2)] end.
    + left. exists dd, x. split; [|exact X2]. econstructor; eassumption.
    + right. exists e. split; [|exact X2]. econstructor; eassumption.
Qed.
Lemma runs_must (B : Type) since o (f : ans -> prog B) d d2 r : runs since (pbind (must o) f) d d2 r ->
  exists now d1 a, since <= now /\ served false now d o d1 a /\
  match a with Failed e => r = inr e /\ d2 = d1 | _ => runs since (f a) d1 d2 r end.
Proof.
  intros H. cbn in H. inversion H as [| |o' k now d' d1 a d2' r' Hn S R]; subst. exists now, d1, a. split; [exact Hn|]. split; [exact S|].
  destruct a; cbn in R; try exact R. inversion R; subst. auto.
Qed.

Definition present (d : dir) (n : ustr) : Prop := exists f, at_name d n = Some f.
Lemma runs_stats since d names : Forall (present d) names -> forall d2 r, runs since (stats names) d d2 r ->
  d2 = d /\ exists l, r = inl l /\ map fst l = names /\ Forall (fun x => exists f, at_name d (fst x) = Some f /\ snd x = mtime f) l.
Proof.
  induction 1 as [|n names (f & Hf) F IH]; intros d2 r H; cbn [stats] in H.
  - inversion H; subst. split; [reflexivity|]. exists []. repeat split. constructor.
  - apply runs_must in H. destruct H as (now & d1 & a & _ & S & H). inversion S; subst; try discriminate.
    + apply runs_bind in H. destruct H as [(dd & l & K1 & K2)|(e & K1 & K2)].
      * apply IH in K1. destruct K1 as (-> & l' & E & E1 & E2). injection E as <-. inversion K2; subst. split; [reflexivity|].
        exists ((n, mtime f0) :: l). cbn. repeat split. constructor; [|exact E2]. exists f0. auto.
      * apply IH in K1. destruct K1 as (_ & l' & E & _). discriminate.
    + unfold at_name in Hf. congruence.
Qed.

Definition mtime_of (d : dir) (n : ustr) : Z := match at_name d n with Some f => mtime f | None => 0 end.
Lemma newer_asym : forall x y, newer x y = true -> newer y x = false.
Proof. unfold newer. intros x y. lia. Qed.
Lemma newer_trans : forall x y z, newer y x = false -> newer z y = false -> newer z x = false.
Proof. unfold newer. intros x y z. lia. Qed.
Definition descending (d : dir) (ps : list ustr) : Prop := StronglySorted (fun a b => mtime_of d b <= mtime_of d a) ps.
Lemma newest_first_sorted d l : Forall (fun x => exists f, at_name d (fst x) = Some f /\ snd x = mtime f) l ->
  descending d (newest_first l).
Proof.
  intros F. unfold newest_first, descending.
  assert (G : Forall (fun x => exists f, at_name d (fst x) = Some f /\ snd x = mtime f) (sort_by newer l)).
  { rewrite Forall_forall in *. intros x Hx. apply F. eapply Permutation_in; [apply sort_perm|exact Hx]. }
  pose proof (sort_sorted newer_asym newer_trans l) as S. revert G S. generalize (sort_by newer l). intros s G S.
  induction S as [|x s S IH H]; [constructor|]. inversion G as [|y z G1 G2]; subst. cbn. constructor; [apply IH; exact G2|].
  rewrite Forall_forall in *. intros n Hn. apply in_map_iff in Hn. destruct Hn as (y & <- & Hy).
  specialize (H y Hy). specialize (G2 y Hy). destruct G1 as (f & E1 & E2). destruct G2 as (f' & E1' & E2').
  unfold mtime_of. rewrite E1, E1'. unfold newer in H. lia.
Qed.
Lemma filter_map_fst (l : list (ustr * file)) : filter is_profile (map fst l) = map fst (filter (fun e => is_profile (fst e)) l).
Proof. induction l as [|[n f] l IH]; [reflexivity|]. cbn. destruct (is_profile n); cbn; rewrite IH; reflexivity. Qed.
Lemma filter_perm (A : Type) (f : A -> bool) l l' : Permutation l l' -> Permutation (filter f l) (filter f l').
Proof.
  induction 1 as [|x l l' P IH|x y l|l l' l'' P1 IH1 P2 IH2]; cbn; auto.
  - destruct (f x); auto.
  - destruct (f x), (f y); auto. apply perm_swap.
  - eapply Permutation_trans; eassumption.
Qed.
Lemma in_present (l : list (ustr * file)) n : In n (map fst l) -> present (Some l) n.
Proof.
  intros H. unfold present, at_name. cbn [entries]. destruct (obj_get l n) eqn:E; [eauto|]. apply obj_get_none in E. contradiction.
Qed.
Lemma runs_sorted since l d2 r : runs since sorted_profiles (Some l) d2 r ->
  d2 = Some l /\ exists ps, r = inl ps /\ Permutation ps (map fst (profiles (Some l))) /\ descending (Some l) ps.
Proof.
  unfold sorted_profiles. intros H. apply runs_must in H. destruct H as (now & d1 & a & _ & S & H). inversion S; subst; try discriminate.
  match goal with X : Permutation names _ |- _ => rename X into P end.
  apply runs_bind in H. assert (F : Forall (present (Some l)) (filter is_profile names)).
  { rewrite Forall_forall. intros n Hn. apply filter_In in Hn. apply in_present. eapply Permutation_in; [exact P|apply Hn]. }
  destruct H as [(dd & s & K1 & K2)|(e & K1 & _)].
  - destruct (runs_stats F K1) as (-> & s' & E & E1 & E2). injection E as <-. inversion K2; subst. split; [reflexivity|].
    exists (newest_first s). split; [reflexivity|]. split; [|apply newest_first_sorted; exact E2].
    unfold newest_first. eapply Permutation_trans; [apply Permutation_map, sort_perm|]. rewrite E1.
    unfold profiles. cbn [entries]. rewrite <- filter_map_fst. apply filter_perm. exact P.
  - destruct (runs_stats F K1) as (_ & s' & E & _). discriminate.
Qed.

Lemma nodup_remove l n : NoDup (map fst l) -> NoDup (map fst (remove l n)).
Proof.
  induction l as [|[k v] l IH]; intros H; [constructor|]. inversion H as [|x y N1 N2]; subst. cbn [remove filter fst].
  destruct (negb (ustr_eqb n k)); [|apply IH; exact N2]. cbn. constructor; [|apply IH; exact N2].
  intros Q. apply N1. apply in_map_iff in Q. destruct Q as (e & <- & Q). apply filter_In in Q. apply in_map. apply Q.
Qed.
Lemma obj_set_keys (l : list (ustr * file)) n f : map fst (obj_set l n f) = if existsb (fun k => ustr_eqb n k) (map fst l) then map fst l else map fst l ++ [n].
Proof.
  induction l as [|[k v] l IH]; [reflexivity|]. cbn. destruct (ustr_eqb n k) eqn:E; cbn; [reflexivity|]. rewrite IH.
  destruct (existsb _ (map fst l)); reflexivity.
Qed.
Lemma nodup_set (l : list (ustr * file)) n f : NoDup (map fst l) -> NoDup (map fst (obj_set l n f)).
Proof.
  intros H. rewrite obj_set_keys. destruct (existsb _ _) eqn:E; [exact H|]. apply NoDup_rev in H. rewrite <- (rev_involutive (map fst l)).
  rewrite <- (rev_involutive [n]), <- rev_app_distr. apply NoDup_rev. cbn. constructor; [|exact H].
  intros Q. apply in_rev in Q. assert (T : existsb (fun k => ustr_eqb n k) (map fst l) = true); [|congruence].
  apply existsb_exists. exists n. split; [exact Q|apply ustr_eqb_refl].
Qed.
Lemma get_removed names : forall l n, obj_get (fold_left remove names l) n = if existsb (ustr_eqb n) names then None else obj_get l n.
Proof.
  induction names as [|x names IH]; intros l n; [reflexivity|]. cbn. rewrite IH. destruct (ustr_eqb n x) eqn:E; cbn.
  - apply ustr_eqb_eq in E. subst x. rewrite get_remove_same. destruct (existsb _ names); reflexivity.
  - apply ustr_eqb_neq in E. rewrite get_remove_other by congruence. reflexivity.
Qed.
Lemma nodup_removed names : forall l, NoDup (map fst l) -> NoDup (map fst (fold_left remove names l)).
Proof. induction names as [|x names IH]; intros l H; [exact H|]. cbn. apply IH. apply nodup_remove. exact H. Qed.
Lemma remove_absent l n : obj_get l n = None -> remove l n = l.
Proof.
  induction l as [|[k v] l IH]; intros H; [reflexivity|]. cbn in *. destruct (ustr_eqb n k); [discriminate|]. cbn. f_equal. apply IH. exact H.
Qed.
Lemma runs_unlink since names : forall l d2 r, runs since (unlink_all names) (Some l) d2 r -> r = inl tt /\ d2 = Some (fold_left remove names l).
Proof.
  induction names as [|n names IH]; intros l d2 r H; cbn [unlink_all] in H; inversion H as [| |o' k now d' d1 a d2' r' Hn S R]; subst; [auto|].
  inversion S; subst; cbn in R; try discriminate; apply IH in R; destruct R as (-> & ->); split; try reflexivity.
  cbn. rewrite remove_absent by assumption. reflexivity.
Qed.
Lemma runs_appends since n chunks : forall l f d2 r, obj_get l n = Some f -> since <= mtime f -> runs since (appends n chunks) (Some l) d2 r ->
  r = inl tt /\ exists l' f', d2 = Some l' /\ obj_get l' n = Some f' /\ since <= mtime f' /\ content f' = content f ++ List.concat chunks
  /\ (forall n', n' <> n -> obj_get l' n' = obj_get l n') /\ (NoDup (map fst l) -> NoDup (map fst l')).
Proof.
  induction chunks as [|b r IH]; intros l f d2 res E M H; cbn [appends] in H.
  - inversion H; subst. split; [reflexivity|]. exists l, f. cbn. rewrite app_nil_r. auto 10.
  - apply runs_must in H. destruct H as (now & d1 & a & Hn & S & H). inversion S; subst; try discriminate.
    destruct (IH (obj_set l n (File now (content f0 ++ b))) (File now (content f0 ++ b)) d2 res) as (R1 & l' & f' & R2 & R3 & R4 & R5 & R6 & R7).
    { apply obj_get_set_same. } { exact Hn. } { exact H. }
    split; [exact R1|]. exists l', f'. split; [exact R2|]. split; [exact R3|]. split; [exact R4|]. split.
    + rewrite R5. cbn. assert (f0 = f) by congruence. subst f0. apply eq_sym, app_assoc.
    + split; [|intros N; apply R7, nodup_set; exact N]. intros n' N. rewrite R6 by exact N. apply obj_get_set_other. congruence.
Qed.

(** What a [save] running alone leaves behind. *)
Definition entry_count (l : list (ustr * file)) := List.length l.
Lemma runs_save max p t r chunks since d d2 res : one_per_name d -> valid r = true -> digest (exact_key r) ->
  runs since (save max p t r chunks) d d2 res ->
  res = inl tt /\ exists l f ps, since <= mtime f /\ content f = List.concat chunks
  /\ NoDup (map fst l)
  /\ (forall n, obj_get l n = if ustr_eqb n (profile_name (exact_key r)) then Some f
                              else if ustr_eqb n (temporary_name p t (exact_key r)) then None else at_name d n)
  /\ Permutation ps (map fst (profiles (Some l))) /\ descending (Some l) ps
  /\ d2 = Some (fold_left remove (skipn (Z.to_nat max) ps) l).
Proof.
  intros ND V D H. unfold save in H. rewrite V in H. cbn [negb] in H.
  set (tmp := temporary_name p t (exact_key r)) in *. set (dst := profile_name (exact_key r)) in *.
  assert (TD : tmp <> dst).
  { intros E. pose proof (temporary_not_profile p t (exact_key r)) as X. fold tmp in X. rewrite E in X. unfold dst in X.
    rewrite is_profile_name in X by exact D. discriminate. }
  apply runs_must in H. destruct H as (now & d1 & a & _ & S & H). inversion S; subst; try discriminate. cbv zeta in H.
  apply runs_bind in H. assert (W : forall d1 res, runs since (write_text tmp chunks) (Some (entries d)) d1 res ->
    res = inl tt /\ exists l f, d1 = Some l /\ obj_get l tmp = Some f /\ since <= mtime f /\ content f = List.concat chunks
      /\ (forall n', n' <> tmp -> obj_get l n' = at_name d n') /\ NoDup (map fst l)).
  { intros d1 res' W. unfold write_text in W. apply runs_must in W. destruct W as (now1 & d3 & a & Hn1 & S1 & W). inversion S1; subst; try discriminate.
    eapply runs_appends in W; [|apply obj_get_set_same|exact Hn1]. destruct W as (-> & l' & f' & W1 & W2 & W3 & W4 & W5 & W6).
    split; [reflexivity|]. exists l', f'. split; [exact W1|]. split; [exact W2|]. split; [exact W3|]. split; [exact W4|]. split.
    - intros n' N. rewrite W5 by exact N. apply obj_get_set_other. congruence.
    - apply W6. apply nodup_set. exact ND. }
  destruct H as [(d1 & u & K1 & K2)|(e & K1 & _)]; [|apply W in K1; destruct K1 as (E & _); discriminate].
  apply W in K1. destruct K1 as (_ & l & f & -> & E1 & M & C & O & N). clear W.
  apply runs_must in K2. destruct K2 as (now2 & d3 & a & _ & S2 & K2). inversion S2; subst; try discriminate; [|cbn [entries] in *; congruence].
  assert (f0 = f) by congruence. subst f0.
  apply runs_bind in K2. destruct K2 as [(d4 & ps & K2 & K3)|(e & K2 & _)].
  2:{ apply runs_sorted in K2. destruct K2 as (_ & ps & E & _). discriminate. }
  apply runs_sorted in K2. destruct K2 as (-> & ps' & E & P & Dsc). injection E as <-.
  apply runs_unlink in K3. destruct K3 as (-> & ->). split; [reflexivity|].
  exists (obj_set (remove l tmp) dst f), f, ps. split; [exact M|]. split; [exact C|]. split; [apply nodup_set, nodup_remove; exact N|].
  split; [|auto]. intros n. destruct (ustr_eqb n dst) eqn:En.
  - apply ustr_eqb_eq in En. subst n. apply obj_get_set_same.
  - apply ustr_eqb_neq in En. rewrite obj_get_set_other by congruence. destruct (ustr_eqb n tmp) eqn:Et.
    + apply ustr_eqb_eq in Et. subst n. apply get_remove_same.
    + apply ustr_eqb_neq in Et. rewrite get_remove_other by congruence. apply O. exact Et.
Qed.

(** ** Loading *)
Section Load.
Variable parse : list Z -> option json.
Definition usable (d : dir) (n : ustr) (P : json -> Prop) : Prop :=
  exists f r, at_name d n = Some f /\ parse (content f) = Some r /\ valid r = true /\ P r.
Definition wanted (e c : ustr) (ok : bool) (r : json) : Prop := exact_key r = e \/ (ok = true /\ compatible_key r = c).
Lemma runs_first since e c ok names : forall d d2 r, runs since (first_match parse e c ok names) d d2 r ->
  d2 = d /\ ((r = inl None /\ forall n, In n names -> ~ usable d n (wanted e c ok))
  \/ exists before n rest f rec, names = before ++ n :: rest /\ (forall n', In n' before -> ~ usable d n' (wanted e c ok))
     /\ at_name d n = Some f /\ parse (content f) = Some rec /\ valid rec = true
     /\ ((exact_key rec = e /\ r = inl (Some (rec, IsExact)))
         \/ (exact_key rec <> e /\ ok = true /\ compatible_key rec = c /\ r = inl (Some (rec, IsCompatible))))).
Proof.
  induction names as [|n names IH]; intros d d2 r H; cbn [first_match] in H; inversion H as [| |o' k now d' d1 a d2' r' Hn S R]; subst.
  { split; [reflexivity|]. left. split; [reflexivity|]. intros n []. }
  assert (skip : forall d1, d1 = d -> ~ usable d n (wanted e c ok) -> runs since (first_match parse e c ok names) d1 d2 r ->
    d2 = d /\ ((r = inl None /\ forall n0, In n0 (n :: names) -> ~ usable d n0 (wanted e c ok))
  \/ exists before n0 rest f rec, n :: names = before ++ n0 :: rest /\ (forall n', In n' before -> ~ usable d n' (wanted e c ok))
     /\ at_name d n0 = Some f /\ parse (content f) = Some rec /\ valid rec = true
     /\ ((exact_key rec = e /\ r = inl (Some (rec, IsExact)))
         \/ (exact_key rec <> e /\ ok = true /\ compatible_key rec = c /\ r = inl (Some (rec, IsCompatible)))))).
  { intros dd -> U R'. apply IH in R'. destruct R' as (E & R'). split; [exact E|].
    destruct R' as [(R1 & R2)|(before & n0 & rest & f & rec & R1 & R2 & R3)].
    - left. split; [exact R1|]. intros n0 [<-|Hn0]; auto.
    - right. exists (n :: before), n0, rest, f, rec. split; [rewrite R1; reflexivity|]. split; [|exact R3]. intros n' [<-|Hn']; auto. }
  inversion S; subst; try discriminate.
  2:{ cbn in R. apply (skip d1 eq_refl); [|exact R]. intros (f & rec & U & _). unfold at_name in U. congruence. }
  match goal with X : obj_get (entries d1) n = Some _ |- _ => rename X into Ef end.
  destruct (parse (content f)) as [rec|] eqn:P.
  2:{ apply (skip d1 eq_refl); [|exact R]. intros (f' & rec & U1 & U2 & _). unfold at_name in U1. congruence. }
  destruct (valid rec) eqn:V; cbn [negb] in R.
  2:{ apply (skip d1 eq_refl); [|exact R]. intros (f' & rec' & U1 & U2 & U3 & _). unfold at_name in U1. congruence. }
  destruct (ustr_eqb (exact_key rec) e) eqn:E1.
  { apply ustr_eqb_eq in E1. inversion R; subst. split; [reflexivity|]. right. exists [], n, names, f, rec. split; [reflexivity|].
    split; [intros n' []|]. split; [exact Ef|]. split; [exact P|]. split; [exact V|]. left. auto. }
  apply ustr_eqb_neq in E1. destruct (ok && ustr_eqb (compatible_key rec) c) eqn:E2.
  { apply andb_prop in E2. destruct E2 as (-> & E2). apply ustr_eqb_eq in E2. inversion R; subst. split; [reflexivity|].
    right. exists [], n, names, f, rec. split; [reflexivity|]. split; [intros n' []|]. split; [exact Ef|]. split; [exact P|]. split; [exact V|].
    right. auto. }
  apply (skip d1 eq_refl); [|exact R]. intros (f' & rec' & U1 & U2 & U3 & U4). unfold at_name in U1. assert (rec' = rec) by congruence. subst rec'.
  destruct U4 as [U4|(-> & U4)]; [contradiction|]. rewrite U4, ustr_eqb_refl in E2. discriminate.
Qed.
End Load.
