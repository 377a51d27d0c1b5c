(** C48: the cache of tuning profiles. *)
From Coq Require Import Sorted.
From Verif Require Import Base BaseFacts Checkpoint Json JsonFacts MetricsFacts ProfileStore ProfileStoreSpec ProfileStoreFacts ProfileStoreRun.
Set Implicit Arguments. Unset Strict Implicit.

Section Any.
Variables (parse : list Z -> option json) (render : json -> list Z) (max_entries : Z).
(** The directory before anybody of us used it: profiles of earlier runs, and anything else. *)
Variables (log0 : list json) (d0 : dir).
Hypothesis before : holds render log0 d0.
Hypothesis readable : forall r, In r log0 -> parse (render r) = Some r.

(** Whatever processes and threads save and load, in whatever interleaving, with operations that fail
    and calls that are killed anywhere: a profile is always the complete text of one saved record, under
    that record's own key, and files that are neither profiles nor temporary files are never touched. *)
Theorem C48_profiles_are_always_complete : forall log d ts, reach parse render max_entries log0 d0 log d ts ->
  holds render log d
  /\ forall n, ~ profile n -> (forall p t k, n <> temporary_name p t k) -> at_name d n = at_name d0 n.
Proof.
  intros log d ts R. destruct (reach_inv R before readable) as (I1 & _ & I3 & I4).
  destruct (I4 log (incl_refl _) I1) as (J & _). split; [exact J|]. intros n N1 N2. apply I3.
  - destruct (is_profile n) eqn:E; [|reflexivity]. apply is_profile_ok in E. contradiction.
  - intros (p & t & k & ->). exact (N2 _ _ _ eq_refl).
Qed.

(** A [load] returns a valid record that was passed to [save], unchanged: one with the exact key, or,
    only in compatible mode, one with the compatible key; with reuse off, nothing. *)
Theorem C48_load_returns_only_saved_matching_profiles : forall log d ts1 p t e c m r k ts2,
  reach parse render max_entries log0 d0 log d (ts1 ++ Task p t (CLoad e c m) (Ret (Loaded (Some (r, k)))) :: ts2) ->
  In r log /\ valid r = true /\ m <> Off
  /\ match k with IsExact => exact_key r = e | IsCompatible => compatible_key r = c /\ m = Compatible end.
Proof.
  intros log d ts1 p t e c m r k ts2 R. destruct (reach_inv R before readable) as (I1 & _ & _ & I4).
  destruct (I4 log (incl_refl _) I1) as (_ & J). apply Forall_app in J. destruct J as (_ & J).
  inversion J as [|x y K _]; subst. destruct K as (_ & _ & _ & K). cbn in K. destruct k.
  - destruct K as (K1 & K2 & K3 & K4). auto.
  - destruct K as (K1 & K2 & K3 & K4). rewrite K4. repeat split; auto. discriminate.
Qed.
(** and it is a record of the current format: one that another version wrote is passed over. *)
Theorem C48_loaded_profiles_have_the_current_format : forall log d ts1 p t e c m r k ts2,
  reach parse render max_entries log0 d0 log d (ts1 ++ Task p t (CLoad e c m) (Ret (Loaded (Some (r, k)))) :: ts2) -> current_format r.
Proof.
  intros log d ts1 p t e c m r k ts2 R. destruct (C48_load_returns_only_saved_matching_profiles R) as (_ & V & _). unfold valid in V. destruct r as [| | | | | |l]; try discriminate V.
  rewrite !Bool.andb_true_iff in V. destruct V as (((V1 & V2) & V3) & V4). unfold current_format.
  destruct (obj_get l key_schema) as [[]|] eqn:E1; try discriminate V1. destruct (obj_get l key_exact) as [[]|] eqn:E2; try discriminate V2. destruct (obj_get l key_compatible) as [[]|] eqn:E3; try discriminate V3. destruct (obj_get l key_resolved) as [[]|] eqn:E4; try discriminate V4.
  apply ustr_eqb_eq in V1. subst. do 4 eexists. split; [reflexivity|]. split; [exact E1|]. split; [exact E2|]. split; [exact E3|exact E4].
Qed.
End Any.

(** ** A call that is not disturbed *)
Section Alone.
Variables (render : json -> list Z) (max_entries : Z).
Hypothesis some_entries : 0 <= max_entries.
Variables (p t : Z) (r : json) (chunks : list (list Z)) (d d' : dir) (since : Z) (result : unit + failure).
Hypothesis Hd : one_per_name d.
Hypothesis Hr : valid r = true.
Hypothesis Hk : digest (exact_key r).
Hypothesis Hc : List.concat chunks = render r.
Hypothesis Hs : runs since (save max_entries p t r chunks) d d' result.
Let own := exact_key r ++ ulit ".json".
Let tmp := temporary_name p t (exact_key r).

Lemma profile_bool n : profile n -> is_profile n = true. Proof. apply is_profile_ok. Qed.
Lemma not_tmp n : profile n -> n <> tmp.
Proof. intros P ->. apply profile_bool in P. unfold tmp in P. rewrite temporary_not_profile in P. discriminate. Qed.
Lemma in_profiles l n : In n (map fst (profiles (Some l))) <-> (exists f, obj_get l n = Some f) /\ profile n.
Proof.
  unfold profiles. cbn [entries]. split.
  - intros H. apply in_map_iff in H. destruct H as ([n' f] & <- & H). apply filter_In in H. destruct H as (H1 & H2). cbn [fst] in *.
    split; [|apply is_profile_ok; exact H2]. destruct (obj_get l n') eqn:E; [eauto|]. apply obj_get_none in E. exfalso. apply E.
    change n' with (fst (n', f)). apply in_map. exact H1.
  - intros ((f & H) & P). apply obj_get_in in H. apply in_map_iff. exists (n, f). split; [reflexivity|]. apply filter_In.
    split; [exact H|]. apply profile_bool. exact P.
Qed.
Lemma nodup_profiles l : NoDup (map fst l) -> NoDup (map fst (profiles (Some l))).
Proof.
  unfold profiles. cbn [entries]. induction l as [|[n f] l IH]; intros H; [constructor|]. inversion H as [|x y N1 N2]; subst. cbn [filter fst].
  destruct (is_profile n); [|apply IH; exact N2]. cbn. constructor; [|apply IH; exact N2]. intros Q. apply N1.
  apply in_map_iff in Q. destruct Q as (e & <- & Q). apply filter_In in Q. apply in_map. apply Q.
Qed.
Lemma in_skip_or_keep (ps : list ustr) n : In n ps -> ~ In n (skipn (Z.to_nat max_entries) ps) -> In n (firstn (Z.to_nat max_entries) ps).
Proof. intros H N. rewrite <- (firstn_skipn (Z.to_nat max_entries) ps) in H. apply in_app_or in H. destruct H; [assumption|contradiction]. Qed.
Lemma existsb_in n l : existsb (ustr_eqb n) l = true <-> In n l.
Proof.
  rewrite existsb_exists. split; [intros (x & H & E); apply ustr_eqb_eq in E; subst; exact H|].
  intros H. exists n. split; [exact H|apply ustr_eqb_refl].
Qed.
Lemma cut_older l ps x y : descending (Some l) ps -> In x (firstn (Z.to_nat max_entries) ps) -> In y (skipn (Z.to_nat max_entries) ps) ->
  mtime_of (Some l) y <= mtime_of (Some l) x.
Proof.
  intros S X Y. unfold descending in S. rewrite <- (firstn_skipn (Z.to_nat max_entries) ps) in S. revert S X.
  generalize (firstn (Z.to_nat max_entries) ps). intros a. induction a as [|z a IH]; intros S X; [contradiction|].
  cbn in S. inversion S as [|u v S1 S2]; subst. destruct X as [->|X]; [|apply IH; assumption].
  rewrite Forall_forall in S2. apply S2. apply in_or_app. right. exact Y.
Qed.

(** [save] succeeds; afterwards there are at most [max_entries] profiles, the other profiles that are
    left are unchanged, those removed are not newer than any that are left, no temporary file is left
    and every other file is as before. *)
Theorem C48_save_keeps_the_newest_profiles :
  result = inl tt
  /\ zlen (profiles d') <= max_entries
  /\ (forall n f, at_name d' n = Some f -> profile n -> n <> own -> at_name d n = Some f)
  /\ (forall n f n' f', at_name d n = Some f -> profile n -> n <> own -> at_name d' n = None ->
        at_name d' n' = Some f' -> profile n' -> mtime f <= mtime f')
  /\ at_name d' tmp = None
  /\ (forall n, ~ profile n -> n <> tmp -> at_name d' n = at_name d n).
Proof.
  destruct (runs_save Hd Hr Hk Hs) as (-> & l & f0 & ps & M & C & ND & G & P & Dsc & ->).
  change (profile_name (exact_key r)) with own in G. fold tmp in G. split; [reflexivity|].
  assert (OWN : profile own) by (exists (exact_key r); auto).
  assert (AT : forall n, at_name (Some (fold_left remove (skipn (Z.to_nat max_entries) ps) l)) n
     = if existsb (ustr_eqb n) (skipn (Z.to_nat max_entries) ps) then None else obj_get l n).
  { intros n. unfold at_name. cbn [entries]. apply get_removed. }
  assert (INP : forall n, (exists f, obj_get l n = Some f) -> profile n -> In n ps).
  { intros n E Pn. eapply Permutation_in; [apply Permutation_sym; exact P|]. apply in_profiles. auto. }
  split; [|split; [|split; [|split]]].
  - unfold zlen. rewrite <- (map_length fst).
    assert (L : (List.length (map fst (profiles (Some (fold_left remove (skipn (Z.to_nat max_entries) ps) l)))) <= List.length (firstn (Z.to_nat max_entries) ps))%nat).
    { apply NoDup_incl_length; [apply nodup_profiles, nodup_removed; exact ND|]. intros n Hn. apply in_profiles in Hn. destruct Hn as ((f & E) & Pn).
      rewrite get_removed in E. destruct (existsb (ustr_eqb n) _) eqn:X; [discriminate|]. apply in_skip_or_keep; [apply INP; eauto|].
      intros Q. apply existsb_in in Q. congruence. }
    rewrite firstn_length in L. lia.
  - intros n f E Pn N. rewrite AT in E. destruct (existsb _ _); [discriminate|]. rewrite G in E.
    rewrite (proj2 (ustr_eqb_neq n own) N) in E. rewrite (proj2 (ustr_eqb_neq n tmp) (not_tmp Pn)) in E. exact E.
  - intros n f n' f' E Pn N R E' Pn'. rewrite AT in R, E'. 
    assert (Ol : obj_get l n = Some f).
    { rewrite G. rewrite (proj2 (ustr_eqb_neq n own) N). rewrite (proj2 (ustr_eqb_neq n tmp) (not_tmp Pn)). exact E. }
    rewrite Ol in R. destruct (existsb (ustr_eqb n) _) eqn:X; [|discriminate]. apply existsb_in in X.
    destruct (existsb (ustr_eqb n') _) eqn:X'; [discriminate|].
    assert (K : In n' (firstn (Z.to_nat max_entries) ps)).
    { apply in_skip_or_keep; [apply INP; eauto|]. intros Q. apply existsb_in in Q. congruence. }
    pose proof (cut_older Dsc K X) as T. unfold mtime_of, at_name in T. cbn [entries] in T. rewrite Ol, E' in T. exact T.
  - rewrite AT, G. rewrite ustr_eqb_refl. rewrite (proj2 (ustr_eqb_neq tmp own)); [destruct (existsb _ _); reflexivity|].
    intros E. apply (not_tmp OWN). congruence.
  - intros n N1 N2. rewrite AT. destruct (existsb (ustr_eqb n) _) eqn:X.
    + apply existsb_in in X. assert (Q : In n ps) by (rewrite <- (firstn_skipn (Z.to_nat max_entries) ps); apply in_or_app; right; exact X).
      eapply Permutation_in in Q; [|exact P]. apply in_profiles in Q. destruct Q as (_ & Q). contradiction.
    + rewrite G. rewrite (proj2 (ustr_eqb_neq n tmp) N2). destruct (ustr_eqb n own) eqn:Eo; [|reflexivity].
      apply ustr_eqb_eq in Eo. subst n. contradiction.
Qed.

(** The other profiles of the directory with at least some modification time. *)
Definition others_since (lo : option Z) : list (ustr * file) :=
  filter (fun e => is_profile (fst e) && negb (ustr_eqb (fst e) own) && match lo with Some lo => lo <=? mtime (snd e) | None => true end) (entries d).

Lemma others_in lo n : In n (map fst (others_since lo)) <->
  exists f, In (n, f) (entries d) /\ profile n /\ n <> own /\ match lo with Some lo => lo <= mtime f | None => True end.
Proof.
  unfold others_since. rewrite in_map_iff. split.
  - intros ([n' f] & <- & H). apply filter_In in H. cbn [fst snd] in H. destruct H as (H1 & H2). apply andb_prop in H2. destruct H2 as (H2 & H4).
    apply andb_prop in H2. destruct H2 as (H2 & H3). exists f. cbn [fst]. split; [exact H1|]. split; [apply is_profile_ok; exact H2|]. split.
    + intros E. subst n'. rewrite ustr_eqb_refl in H3. discriminate.
    + destruct lo; [lia|exact I].
  - intros (f & H1 & H2 & H3 & H4). exists (n, f). split; [reflexivity|]. apply filter_In. cbn [fst snd]. split; [exact H1|].
    apply profile_bool in H2. rewrite H2. rewrite (proj2 (ustr_eqb_neq n own) H3). cbn. destruct lo; [lia|reflexivity].
Qed.

(** The saved record is then in the cache, complete, provided that fewer than [max_entries] other
    profiles are dated as new as the clock shows or newer; and while there is room, no profile goes. *)
Theorem C48_saved_profiles_are_stored :
  (zlen (others_since (Some since)) < max_entries ->
     exists f, at_name d' own = Some f /\ content f = render r /\ since <= mtime f)
  /\ (zlen (others_since None) < max_entries -> forall n, n <> own -> n <> tmp -> at_name d' n = at_name d n).
Proof.
  destruct (runs_save Hd Hr Hk Hs) as (-> & l & f0 & ps & M & C & ND & G & P & Dsc & ->).
  change (profile_name (exact_key r)) with own in G. fold tmp in G.
  assert (OWN : profile own) by (exists (exact_key r); auto).
  assert (AT : forall n, at_name (Some (fold_left remove (skipn (Z.to_nat max_entries) ps) l)) n
     = if existsb (ustr_eqb n) (skipn (Z.to_nat max_entries) ps) then None else obj_get l n).
  { intros n. unfold at_name. cbn [entries]. apply get_removed. }
  assert (NP : NoDup ps). { eapply Permutation_NoDup; [apply Permutation_sym; exact P|]. apply nodup_profiles. exact ND. }
  assert (Gown : obj_get l own = Some f0) by (rewrite G, ustr_eqb_refl; reflexivity).
  assert (INP : forall n, In n ps -> n <> own -> exists f, In (n, f) (entries d) /\ profile n /\ obj_get l n = Some f).
  { intros n Hn N. eapply Permutation_in in Hn; [|exact P]. apply in_profiles in Hn. destruct Hn as ((f & E) & Pn). exists f.
    pose proof E as E'. rewrite G in E. rewrite (proj2 (ustr_eqb_neq n own) N) in E. rewrite (proj2 (ustr_eqb_neq n tmp) (not_tmp Pn)) in E.
    split; [apply obj_get_in; exact E|auto]. }
  split.
  - intros FEW. exists f0. rewrite AT, Gown. destruct (existsb (ustr_eqb own) _) eqn:X; [exfalso|rewrite C, Hc; auto].
    apply existsb_in in X.
    assert (LEN : List.length (firstn (Z.to_nat max_entries) ps) = Z.to_nat max_entries).
    { rewrite firstn_length. pose proof (skipn_length (Z.to_nat max_entries) ps) as Q. destruct (skipn (Z.to_nat max_entries) ps); [contradiction|]. cbn in Q. lia. }
    assert (INC : incl (firstn (Z.to_nat max_entries) ps) (map fst (others_since (Some since)))).
    { intros n Hn. assert (Np : In n ps) by (rewrite <- (firstn_skipn (Z.to_nat max_entries) ps); apply in_or_app; left; exact Hn).
      assert (N : n <> own).
      { intros ->. rewrite <- (firstn_skipn (Z.to_nat max_entries) ps) in NP. clear - NP Hn X. induction (firstn (Z.to_nat max_entries) ps) as [|z a IH]; [contradiction|].
        cbn in NP. inversion NP as [|u v N1 N2]; subst. destruct Hn as [->|Hn]; [apply N1; apply in_or_app; right; exact X|apply IH; assumption]. }
      destruct (INP n Np N) as (f & I1 & I2 & I3). apply others_in. exists f. split; [exact I1|]. split; [exact I2|]. split; [exact N|].
      pose proof (cut_older Dsc Hn X) as T. unfold mtime_of, at_name in T. cbn [entries] in T. rewrite I3, Gown in T. lia. }
    apply NoDup_incl_length in INC.
    + rewrite map_length in INC. unfold zlen in FEW. lia.
    + rewrite <- (firstn_skipn (Z.to_nat max_entries) ps) in NP. clear - NP. induction (firstn (Z.to_nat max_entries) ps) as [|z a IH]; [constructor|].
      cbn in NP. inversion NP as [|u v N1 N2]; subst. constructor; [intros Q; apply N1; apply in_or_app; left; exact Q|apply IH; exact N2].
  - intros FEW n N1 N2. rewrite AT. assert (S0 : skipn (Z.to_nat max_entries) ps = []).
    { apply skipn_all2. assert (INC : incl ps (own :: map fst (others_since None))).
      { intros x Hx. destruct (ustr_eqb x own) eqn:E; [apply ustr_eqb_eq in E; left; auto|]. apply ustr_eqb_neq in E. right.
        destruct (INP x Hx E) as (f & I1 & I2 & I3). apply others_in. exists f. auto. }
      apply NoDup_incl_length in INC; [|exact NP]. cbn in INC. rewrite map_length in INC. unfold zlen in FEW. lia. }
    rewrite S0. cbn [existsb]. rewrite G. rewrite (proj2 (ustr_eqb_neq n own) N1), (proj2 (ustr_eqb_neq n tmp) N2). reflexivity.
Qed.
End Alone.

(** A [load] that is not disturbed never raises and changes nothing.  It finds the profile with the
    exact key; without a file of that name, and in compatible mode, the newest profile that matches. *)
Definition matching (parse : list Z -> option json) (d : dir) (n : ustr) (f : file) (r : json) : Prop :=
  at_name d n = Some f /\ parse (content f) = Some r /\ valid r = true.
Theorem C48_undisturbed_load_finds_the_newest_match : forall parse since e c m d d' result,
  one_per_name d -> digest e -> runs since (load parse e c m) d d' result ->
  d' = d /\
  match result with
  | inr _ => False
  | inl None => m = Off \/
      (forall f r, matching parse d (e ++ ulit ".json") f r -> exact_key r <> e /\ (m = Compatible -> compatible_key r <> c))
      /\ (m = Compatible -> at_name d (e ++ ulit ".json") = None ->
          forall n f r, profile n -> matching parse d n f r -> exact_key r <> e /\ compatible_key r <> c)
  | inl (Some (r, k)) => m <> Off /\ exists n f, profile n /\ matching parse d n f r
      /\ match k with IsExact => exact_key r = e | IsCompatible => m = Compatible /\ exact_key r <> e /\ compatible_key r = c end
      /\ (n <> e ++ ulit ".json" -> m = Compatible /\ at_name d (e ++ ulit ".json") = None
          /\ forall n' f' r', profile n' -> matching parse d n' f' r' -> mtime f < mtime f' -> exact_key r' <> e /\ compatible_key r' <> c)
  end.
Proof.
  intros parse since e c m d d' result ND De H.
  assert (EX : profile (e ++ ulit ".json")) by (exists e; auto). set (ex := e ++ ulit ".json") in *.
  assert (off : forall (ok : bool) r, runs since (Ret (None : option (json * kind))) d d' r -> d' = d /\ r = inl None).
  { intros _ r R. inversion R; subst. auto. }
  unfold load in H. destruct m.
  { destruct (off true _ H) as (-> & ->). split; [reflexivity|]. left. reflexivity. }
  - apply runs_must in H. destruct H as (now & d1 & a & _ & S & H). inversion S; subst; try discriminate.
    destruct d1 as [l|].
    2:{ destruct (off true _ H) as (-> & ->). split; [reflexivity|]. right. split; [|discriminate].
        intros f r (X & _). discriminate. }
    change (profile_name e) with ex in H. cbn [pbind] in H. cbv zeta in H. apply runs_first in H. destruct H as (-> & H). split; [reflexivity|].
    destruct H as [(-> & H)|(bf & n & rest & f & rec & E & _ & A & P & V & H)].
    + right. split; [|discriminate]. intros f r (X1 & X2 & X3). split; [|discriminate]. intros E. apply (H ex (or_introl eq_refl)).
      exists f, r. repeat split; auto. left. exact E.
    + destruct bf as [|u [|v bf]]; try discriminate E. injection E as <- <-.
      destruct H as [(H1 & ->)|(_ & H1 & _)]; [|discriminate H1]. split; [discriminate|]. exists ex, f. split; [exact EX|].
      split; [repeat split; assumption|]. split; [exact H1|]. intros N. contradiction.
  - apply runs_must in H. destruct H as (now & d1 & a & _ & S & H). inversion S; subst; try discriminate.
    destruct d1 as [l|].
    2:{ destruct (off true _ H) as (-> & ->). split; [reflexivity|]. right. split.
        - intros f r (X & _). discriminate.
        - intros _ _ n f r _ (X & _). discriminate. }
    cbv zeta in H. change (profile_name e) with ex in H. apply runs_bind in H.
    assert (MORE : forall d1 res, runs since (pbind (must (Exists ex)) (fun a => match a with Yes false => sorted_profiles | _ => Ret [] end)) (Some l) d1 res ->
      d1 = Some l /\ exists more, res = inl more /\
        (more = [] /\ at_name (Some l) ex <> None
         \/ at_name (Some l) ex = None /\ Permutation more (map fst (profiles (Some l))) /\ descending (Some l) more)).
    { intros d1 res K. apply runs_must in K. destruct K as (now1 & d2 & a & _ & S1 & K). inversion S1; subst; try discriminate.
      unfold at_name. cbn [entries] in *. destruct (obj_get l ex) as [f|] eqn:Eo.
      - inversion K; subst. split; [reflexivity|]. exists []. split; [reflexivity|]. left. split; [reflexivity|discriminate].
      - apply runs_sorted in K. destruct K as (-> & ps & -> & K). split; [reflexivity|]. exists ps. split; [reflexivity|]. right. auto. }
    destruct H as [(d2 & more & H1 & H2)|(e' & H1 & _)].
    2:{ apply MORE in H1. destruct H1 as (_ & more & E & _). discriminate. }
    apply MORE in H1. destruct H1 as (-> & more' & E & W). injection E as <-. clear MORE.
    apply runs_first in H2. destruct H2 as (-> & H2). split; [reflexivity|].
    assert (NOT : forall n, ~ usable parse (Some l) n (wanted e c true) -> forall f r, matching parse (Some l) n f r -> exact_key r <> e /\ compatible_key r <> c).
    { intros n U f r (X1 & X2 & X3). split; intros E; apply U; exists f, r; repeat split; auto; [left; exact E|right; auto]. }
    assert (IN : at_name (Some l) ex = None -> forall n f r, profile n -> matching parse (Some l) n f r -> In n (map fst (profiles (Some l)))).
    { intros _ n f r Pn (X & _). apply in_profiles. split; [exists f; exact X|exact Pn]. }
    destruct H2 as [(-> & H2)|(bf & n & rest & f & rec & E & B & A & P & V & H2)].
    + right. split.
      * intros f r X. destruct (NOT ex (H2 ex (or_introl eq_refl)) f r X). auto.
      * intros _ NO n f r Pn X. apply (NOT n) with f; [|exact X]. apply H2. right. destruct W as [(_ & W)|(_ & W & _)]; [contradiction|].
        eapply Permutation_in; [apply Permutation_sym; exact W|]. eapply IN; eassumption.
    + assert (PN : profile n).
      { assert (Q : In n (bf ++ n :: rest)) by (apply in_or_app; right; left; reflexivity). rewrite <- E in Q. destruct Q as [<-|Q]; [exact EX|].
        destruct W as [(-> & _)|(_ & W & _)]; [contradiction|]. eapply Permutation_in in Q; [|exact W]. apply in_profiles in Q. apply Q. }
      assert (REST : n <> ex -> Compatible = Compatible /\ at_name (Some l) ex = None
          /\ forall n' f' r', profile n' -> matching parse (Some l) n' f' r' -> mtime f < mtime f' -> exact_key r' <> e /\ compatible_key r' <> c).
      { intros N. split; [reflexivity|]. destruct bf as [|u bf]; [injection E as E _; congruence|]. injection E as <- E.
        destruct W as [(-> & _)|(W0 & W & Dsc)]; [destruct bf; discriminate E|]. split; [exact W0|].
        intros n' f' r' Pn' X T. apply (NOT n') with f'; [|exact X]. apply B. right.
        assert (Q : In n' more) by (eapply Permutation_in; [apply Permutation_sym; exact W|eapply IN; eassumption]).
        rewrite E in Q, Dsc. apply in_app_or in Q. destruct Q as [Q|[<-|Q]]; [exact Q| |].
        - destruct X as (X & _). rewrite A in X. injection X as <-. lia.
        - exfalso. unfold descending in Dsc. assert (TT : mtime_of (Some l) n' <= mtime_of (Some l) n).
          { clear - Dsc Q. induction bf as [|z bf IH]; cbn in Dsc.
            - inversion Dsc as [|u v S1 S2]; subst. rewrite Forall_forall in S2. apply S2. exact Q.
            - inversion Dsc; subst. auto. }
          unfold mtime_of in TT. destruct X as (X & _). rewrite X, A in TT. lia. }
      destruct H2 as [(H2 & ->)|(H3 & _ & H4 & ->)]; (split; [discriminate|]); exists n, f; (split; [exact PN|]);
        (split; [repeat split; assumption|]); split; auto.
Qed.

(** A saved profile is found again by the next [load] with its key. *)
Theorem C48_saved_profiles_are_found_again : forall parse render max p t r chunks d d1 d2 since s1 c m result,
  0 <= max -> one_per_name d -> valid r = true -> storable parse render r -> List.concat chunks = render r -> m <> Off ->
  runs s1 (save max p t r chunks) d d1 (inl tt) ->
  zlen (filter (fun e => is_profile (fst e) && negb (ustr_eqb (fst e) (exact_key r ++ ulit ".json")) && (s1 <=? mtime (snd e))) (entries d)) < max ->
  runs since (load parse (exact_key r) c m) d1 d2 result -> result = inl (Some (r, IsExact)).
Proof.
  intros parse render max p t r chunks d d1 d2 since s1 c m result Hm ND V (S1 & S2) C M SV FEW LD.
  destruct (C48_saved_profiles_are_stored ND V S2 C SV) as (K & _).
  destruct (K FEW) as (f & A & F & _).
  unfold load in LD. destruct m; [contradiction| |].
  - apply runs_must in LD. destruct LD as (now & d3 & a & _ & S & LD). inversion S; subst; try discriminate.
    destruct d3 as [l|]; [|discriminate A]. cbv zeta in LD. cbn [pbind] in LD. apply runs_first in LD. destruct LD as (_ & LD).
    destruct LD as [(_ & LD)|(bf & n & rest & f' & rec & E & _ & A' & P & W & LD)].
    + exfalso. apply (LD (profile_name (exact_key r)) (or_introl eq_refl)). exists f, r. rewrite F. repeat split; auto. left. reflexivity.
    + destruct bf as [|u [|v bf]]; try discriminate E. injection E as <- <-. unfold profile_name, suffix in A'. rewrite A in A'. injection A' as <-. rewrite F, S1 in P. injection P as <-.
      destruct LD as [(_ & ->)|(LD & _)]; [reflexivity|contradiction].
  - apply runs_must in LD. destruct LD as (now & d3 & a & _ & S & LD). inversion S; subst; try discriminate.
    destruct d3 as [l|]; [|discriminate A]. cbv zeta in LD. apply runs_bind in LD. destruct LD as [(d4 & more & L1 & L2)|(e' & L1 & _)].
    + assert (Q : d4 = Some l).
      { apply runs_must in L1. destruct L1 as (now1 & d5 & a & _ & S3 & L1). inversion S3; subst; try discriminate.
        destruct (obj_get (entries (Some l)) _); [inversion L1; reflexivity|]. apply runs_sorted in L1. apply L1. }
      subst d4. apply runs_first in L2. destruct L2 as (_ & L2).
      assert (U : forall n', ~ usable parse (Some l) n' (wanted (exact_key r) c true) -> n' <> profile_name (exact_key r)).
      { intros n' U ->. apply U. exists f, r. rewrite F. repeat split; auto. left. reflexivity. }
      destruct L2 as [(_ & L2)|(bf & n & rest & f' & rec & E & B & A' & P & W & L2)].
      * exfalso. apply (U _ (L2 _ (or_introl eq_refl)) eq_refl).
      * destruct bf as [|u bf].
        -- injection E as <- _. unfold profile_name, suffix in A'. rewrite A in A'. injection A' as <-. rewrite F, S1 in P. injection P as <-.
           destruct L2 as [(_ & ->)|(L2 & _)]; [reflexivity|contradiction].
        -- exfalso. injection E as <- _. apply (U _ (B _ (or_introl eq_refl)) eq_refl).
    + exfalso. apply runs_must in L1. destruct L1 as (now1 & d5 & a & _ & S3 & L1). inversion S3; subst; try discriminate.
      unfold at_name in A. cbn [entries] in *. unfold profile_name, suffix in L1. rewrite A in L1. inversion L1.
Qed.

(** ** Concrete cases *)
(** A file system that lists the directory in its own order and never fails. *)
Definition serve (now : Z) (d : dir) (o : op) : dir * ans :=
  match o with
  | Mkdir => (Some (entries d), Done)
  | IsDir => (d, Yes (match d with Some _ => true | None => false end))
  | Glob => (d, Names (map fst (entries d)))
  | Exists n => (d, Yes (match obj_get (entries d) n with Some _ => true | None => false end))
  | Stat n => (d, match obj_get (entries d) n with Some f => Time (mtime f) | None => Failed NotFound end)
  | Read n => (d, match obj_get (entries d) n with Some f => Text (content f) | None => Failed NotFound end)
  | Create n => match d with Some l => (Some (obj_set l n (File now [])), Done) | None => (d, Failed NotFound) end
  | Append n b => match d with
                  | Some l => match obj_get l n with
                              | Some f => (Some (obj_set l n (File now (content f ++ b))), Done)
                              | None => (d, Failed OtherOSError) end
                  | None => (d, Failed OtherOSError) end
  | Replace a b => match d with
                   | Some l => match obj_get l a with
                               | Some f => if ustr_eqb a b then (d, Failed OtherOSError) else (Some (obj_set (remove l a) b f), Done)
                               | None => (d, Failed NotFound) end
                   | None => (d, Failed NotFound) end
  | Unlink n => match d with
                | Some l => match obj_get l n with Some _ => (Some (remove l n), Done) | None => (d, Failed NotFound) end
                | None => (d, Failed NotFound) end
  end.
Lemma serve_ok now d o : served true now d o (fst (serve now d o)) (snd (serve now d o)).
Proof.
  destruct o; cbn [serve fst snd]; try (constructor; reflexivity).
  - destruct d as [l|]; constructor. apply Permutation_refl.
  - destruct (obj_get (entries d) n) eqn:E; constructor; assumption.
  - destruct (obj_get (entries d) n) eqn:E; constructor; assumption.
  - destruct d; constructor.
  - destruct d as [l|]; [|constructor; reflexivity]. destruct (obj_get l n) eqn:E; [constructor; exact E|constructor; reflexivity].
  - destruct d as [l|]; [|constructor; reflexivity]. destruct (obj_get l a) eqn:E; [|constructor; exact E].
    destruct (ustr_eqb a b) eqn:Q; [constructor; reflexivity|]. constructor; [exact E|]. apply ustr_eqb_neq. exact Q.
  - destruct d as [l|]; [|constructor; reflexivity]. destruct (obj_get l n) eqn:E; [econstructor; exact E|constructor; exact E].
Qed.
(** One operation of the [i]-th running call. *)
Fixpoint tick (now : Z) (i : nat) (d : dir) (ts : list task) : dir * list task :=
  match ts, i with
  | Task p t c (Do o k) :: r, 0%nat => let x := serve now d o in (fst x, Task p t c (k (snd x)) :: r)
  | x :: r, 0%nat => (d, x :: r)
  | x :: r, S i => let y := tick now i d r in (fst y, x :: snd y)
  | [], _ => (d, [])
  end.
Fixpoint ticks (schedule : list nat) (now : Z) (s : dir * list task) : dir * list task :=
  match schedule with [] => s | i :: r => ticks r (now + 1) (tick now i (fst s) (snd s)) end.
Section Ticks.
Variables (parse : list Z -> option json) (render : json -> list Z) (max_entries : Z) (log0 : list json) (d0 : dir).
Lemma tick_reach log now : forall ts i pre d, reach parse render max_entries log0 d0 log d (pre ++ ts) ->
  reach parse render max_entries log0 d0 log (fst (tick now i d ts)) (pre ++ snd (tick now i d ts)).
Proof.
  induction ts as [|[p t c [a|e|o k]] ts IH]; intros [|i] pre d R; cbn [tick fst snd]; try exact R;
    try (specialize (IH i (pre ++ [Task p t c (Ret a)]) d); rewrite <- !app_assoc in IH; apply IH; exact R).
  - specialize (IH i (pre ++ [Task p t c (Raise e)]) d); rewrite <- !app_assoc in IH; apply IH; exact R.
  - eapply operation; [exact R|apply serve_ok].
  - specialize (IH i (pre ++ [Task p t c (Do o k)]) d); rewrite <- !app_assoc in IH; apply IH; exact R.
Qed.
Lemma ticks_reach log schedule : forall now d ts, reach parse render max_entries log0 d0 log d ts ->
  reach parse render max_entries log0 d0 log (fst (ticks schedule now (d, ts))) (snd (ticks schedule now (d, ts))).
Proof.
  induction schedule as [|i r IH]; intros now d ts R; [exact R|]. cbn [ticks fst snd].
  destruct (tick now i d ts) as [d1 ts1] eqn:E. apply IH. pose proof (@tick_reach log now ts i [] d R) as T. rewrite E in T. exact T.
Qed.
End Ticks.

(** The text without indentation, and UTF-8 for reading. *)
Definition ex_render (j : json) : list Z := dumps (fun _ => []) j ++ [10].
Definition ex_parse (b : list Z) : option json :=
  match utf8_decode b with Ok s => match loads (fun _ => 0) s with Ok j => Some j | Err _ => None end | Err _ => None end.
Definition ex_key (c : Z) : ustr := repeat c 64.
Definition ex_record (exact compatible : ustr) (threads : Z) : json :=
  JObj [(key_compatible, JStr compatible); (key_exact, JStr exact); (key_resolved, JObj [(ulit "prefetch_threads", JInt threads)]);
        (key_schema, JStr schema_text)].
Definition recA := ex_record (ex_key 97) (ex_key 49) 3.
Definition recB := ex_record (ex_key 98) (ex_key 49) 5.
Lemma ex_digest c : 48 <= c <= 57 \/ 97 <= c <= 102 -> digest (ex_key c).
Proof.
  intros H. split; [apply repeat_length|]. apply Forall_forall. intros x Hx. apply repeat_spec in Hx. subst x. exact H.
Qed.
Example records_are_storable : storable ex_parse ex_render recA /\ storable ex_parse ex_render recB /\ valid recA = true /\ valid recB = true.
Proof.
  assert (A : ex_parse (ex_render recA) = Some recA) by (vm_compute; reflexivity).
  assert (B : ex_parse (ex_render recB) = Some recB) by (vm_compute; reflexivity).
  split; [split; [exact A|]|split; [split; [exact B|]|split; vm_compute; reflexivity]].
  - change (exact_key recA) with (ex_key 97). apply ex_digest. lia.
  - change (exact_key recB) with (ex_key 98). apply ex_digest. lia.
Qed.
(** A directory with the profile of an earlier run and another file. *)
Definition dirA : dir := Some [(profile_name (ex_key 97), File 10 (ex_render recA)); (ulit "notes.txt", File 11 [104; 105])].
Lemma dirA_holds : holds ex_render [recA] dirA.
Proof.
  intros n f E P. unfold at_name, dirA in E. cbn [entries obj_get] in E. destruct (ustr_eqb n (profile_name (ex_key 97))) eqn:E1.
  - injection E as <-. apply ustr_eqb_eq in E1. exists recA. split; [left; reflexivity|]. split; [reflexivity|exact E1].
  - destruct (ustr_eqb n (ulit "notes.txt")) eqn:E2; [|discriminate]. apply ustr_eqb_eq in E2. subst n. apply is_profile_ok in P. vm_compute in P. discriminate.
Qed.
Lemma recA_readable : forall r, In r [recA] -> ex_parse (ex_render r) = Some r.
Proof. intros r [<-|[]]. vm_compute. reflexivity. Qed.
(** The text in two pieces. *)
Definition chunksB := [firstn 20 (ex_render recB); skipn 20 (ex_render recB)].

(** Process 1 saves B while process 2 looks for a profile compatible with another data set: it finds A,
    because B is not there yet. *)
Example load_during_save : exists d, reach ex_parse ex_render 64 [recA] dirA [recB; recA] d
    [Task 2 7 (CLoad (ex_key 99) (ex_key 49) Compatible) (Ret (Loaded (Some (recA, IsCompatible))));
     Task 1 7 (CSave recB chunksB) (Ret Saved)]
  /\ map fst (entries d) = [profile_name (ex_key 97); ulit "notes.txt"; profile_name (ex_key 98)].
Proof.
  pose proof (@at_start ex_parse ex_render 64 [recA] dirA) as R.
  apply (@save_called _ _ _ _ _ _ _ _ 1 7 recB chunksB) in R; [|lia|lia|intros []|apply records_are_storable|reflexivity].
  apply (@ticks_reach _ _ _ _ _ _ [0;0;0]%nat 20) in R. cbn [fst snd] in R.
  apply (@load_called _ _ _ _ _ _ _ _ 2 7 (ex_key 99) (ex_key 49) Compatible) in R;
    [|lia|lia|vm_compute; intros [X|[]]; discriminate X|apply ex_digest; lia].
  pose (s := ticks [0;0;0;1;1;0;0;0;1;1;1;1;1]%nat 30
     (fst (ticks [0;0;0]%nat 20 (dirA, [Task 1 7 (CSave recB chunksB) (program ex_parse 64 1 7 (CSave recB chunksB))])),
      Task 2 7 (CLoad (ex_key 99) (ex_key 49) Compatible) (program ex_parse 64 2 7 (CLoad (ex_key 99) (ex_key 49) Compatible))
      :: snd (ticks [0;0;0]%nat 20 (dirA, [Task 1 7 (CSave recB chunksB) (program ex_parse 64 1 7 (CSave recB chunksB))])))).
  apply (@ticks_reach _ _ _ _ _ _ [0;0;0;1;1;0;0;0;1;1;1;1;1]%nat 30) in R. change (ticks _ 30 _) with s in R.
  exists (fst s). split; [|vm_compute; reflexivity].
  assert (E : snd s = [Task 2 7 (CLoad (ex_key 99) (ex_key 49) Compatible) (Ret (Loaded (Some (recA, IsCompatible))));
     Task 1 7 (CSave recB chunksB) (Ret Saved)]) by (vm_compute; reflexivity).
  rewrite <- E. exact R.
Qed.

(** Not: that [load] raises only when the disk fails.  In compatible mode it lists the profiles and
    then asks for the time of each; if another process's [save] removes an expired one in between,
    [load] raises FileNotFoundError.  (Nothing catches it: the tuner calls [load] while it is built,
    telemetry.py line 717.)  The case below uses a cache of one entry; with the default of 64 the same
    happens to the oldest of 64 profiles. *)
Definition raced :=
  let s1 := ticks [0;0;0]%nat 20 (dirA, [Task 2 7 (CLoad (ex_key 99) (ex_key 49) Compatible) (program ex_parse 1 2 7 (CLoad (ex_key 99) (ex_key 49) Compatible))]) in
  ticks (repeat 0%nat 9 ++ [1%nat]) 30 (fst s1, Task 1 7 (CSave recB chunksB) (program ex_parse 1 1 7 (CSave recB chunksB)) :: snd s1).
Lemma raced_end : snd raced = [Task 1 7 (CSave recB chunksB) (Ret Saved); Task 2 7 (CLoad (ex_key 99) (ex_key 49) Compatible) (Raise NotFound)].
Proof. vm_compute. reflexivity. Qed.
Lemma raced_reach : reach ex_parse ex_render 1 [recA] dirA [recB; recA] (fst raced) (snd raced).
Proof.
  unfold raced. cbv zeta. apply ticks_reach. apply save_called; [|lia|lia|vm_compute; intros [X|[]]; discriminate X|apply records_are_storable|reflexivity].
  apply ticks_reach. apply load_called; [apply at_start|lia|lia|intros []|apply ex_digest; lia].
Qed.
Theorem C48_load_raises_only_when_the_disk_fails_refuted :
  ~ (forall parse render max log0 d0 log d ts1 p t e c m failure ts2,
     0 < max -> holds render log0 d0 -> (forall r, In r log0 -> parse (render r) = Some r) ->
     reach parse render max log0 d0 log d (ts1 ++ Task p t (CLoad e c m) (Raise failure) :: ts2) -> failure = OtherOSError).
Proof.
  intros H. pose proof raced_reach as R. rewrite raced_end in R.
  specialize (H ex_parse ex_render 1 [recA] dirA [recB; recA] (fst raced) [Task 1 7 (CSave recB chunksB) (Ret Saved)] 2 7
    (ex_key 99) (ex_key 49) Compatible NotFound [] ltac:(lia) dirA_holds recA_readable R). discriminate H.
Qed.

(** One call alone, all operations at the same time. *)
Fixpoint solo (A : Type) (now : Z) (p : prog A) (fuel : nat) (d : dir) : option (dir * (A + failure)) :=
  match fuel, p with
  | _, Ret a => Some (d, inl a)
  | _, Raise e => Some (d, inr e)
  | 0%nat, _ => None
  | S f, Do o k => match serve now d o with
                   | (_, Failed OtherOSError) => None
                   | (d1, a) => solo now (k a) f d1
                   end
  end.
Lemma serve_false now d o : snd (serve now d o) <> Failed OtherOSError -> served false now d o (fst (serve now d o)) (snd (serve now d o)).
Proof.
  destruct o; cbn [serve fst snd]; intros H; try (constructor; reflexivity).
  - destruct d as [l|]; constructor. apply Permutation_refl.
  - destruct (obj_get (entries d) n) eqn:E; constructor; assumption.
  - destruct (obj_get (entries d) n) eqn:E; constructor; assumption.
  - destruct d; constructor.
  - destruct d as [l|]; [|contradiction H; reflexivity]. destruct (obj_get l n) eqn:E; [constructor; exact E|contradiction H; reflexivity].
  - destruct d as [l|]; [|constructor; reflexivity]. destruct (obj_get l a) eqn:E; [|constructor; exact E].
    destruct (ustr_eqb a b) eqn:Q; [contradiction H; reflexivity|]. constructor; [exact E|]. apply ustr_eqb_neq. exact Q.
  - destruct d as [l|]; [|constructor; reflexivity]. destruct (obj_get l n) eqn:E; [econstructor; exact E|constructor; exact E].
Qed.
Lemma solo_runs (A : Type) now fuel : forall (p : prog A) d d' r, solo now p fuel d = Some (d', r) -> runs now p d d' r.
Proof.
  induction fuel as [|fuel IH]; intros [a|e|o k] d d' r H; cbn [solo] in H; try discriminate; try (injection H as <- <-; constructor).
  pose proof (serve_false (now := now) (d := d) (o := o)) as S. destruct (serve now d o) as [d1 a]. cbn [fst snd] in S.
  destruct a as [| | | | |[]]; try discriminate; (econstructor; [|apply S; discriminate|apply IH; exact H]; lia).
Qed.
(** A save with room in the cache, and the two loads after it. *)
Example save_then_load : exists d1,
  runs 20 (save 64 1 7 recB chunksB) dirA d1 (inl tt)
  /\ runs 21 (load ex_parse (ex_key 98) (ex_key 49) Exact) d1 d1 (inl (Some (recB, IsExact)))
  /\ runs 21 (load ex_parse (ex_key 99) (ex_key 49) Compatible) d1 d1 (inl (Some (recB, IsCompatible)))
  /\ one_per_name dirA /\ map fst (entries d1) = [profile_name (ex_key 97); ulit "notes.txt"; profile_name (ex_key 98)].
Proof.
  exists (match solo 20 (save 64 1 7 recB chunksB) 20 dirA with Some (d, _) => d | None => None end).
  split; [apply (@solo_runs _ _ 20%nat); vm_compute; reflexivity|].
  split; [apply (@solo_runs _ _ 20%nat); vm_compute; reflexivity|].
  split; [apply (@solo_runs _ _ 20%nat); vm_compute; reflexivity|]. split; [|vm_compute; reflexivity].
  unfold one_per_name, dirA. cbn. constructor; [|constructor; [intros []|constructor]]. intros [E|[]]. vm_compute in E. discriminate E.
Qed.
(** Not: that a save always stores its record.  The age of a profile is the time the clock showed; when
    [max_entries] profiles are dated at or after it (the clock was set back, or is coarse), the record
    just saved can be the one that is removed. *)
Theorem C48_every_save_is_stored_refuted :
  ~ (forall (render : json -> list Z) max p t r chunks d d' since,
     0 < max -> one_per_name d -> valid r = true -> digest (exact_key r) -> List.concat chunks = render r ->
     runs since (save max p t r chunks) d d' (inl tt) -> exists f, at_name d' (exact_key r ++ ulit ".json") = Some f).
Proof.
  intros H. destruct save_then_load as (_ & _ & _ & _ & N & _).
  specialize (H ex_render 1 1 7 recB chunksB dirA
    (match solo 10 (save 1 1 7 recB chunksB) 20 dirA with Some (d, _) => d | None => None end) 10 ltac:(lia) N).
  destruct H as (f & H).
  - vm_compute. reflexivity.
  - apply (ex_digest (c := 98)). lia.
  - reflexivity.
  - apply (@solo_runs _ _ 20%nat). vm_compute. reflexivity.
  - vm_compute in H. discriminate H.
Qed.
