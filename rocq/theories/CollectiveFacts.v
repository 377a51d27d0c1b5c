(** Facts about ranks running together. *)
From Verif Require Import Base BaseFacts Collective CollectiveSpec.
Set Implicit Arguments. Unset Strict Implicit.

Section Ranks.
Variables text batch desc : Type.
Variable desc_eqb : desc -> desc -> bool.
Notation prog := (prog text batch desc).
Notation msg := (msg text batch desc).
Notation failure := (failure text desc).
Variable world : nat.
Notation meets := (@meets text batch desc world).
Notation reports := (reports world).

Lemma meets_ext A (P Q : nat -> prog A) R S : meets P R -> (forall r, (r < world)%nat -> P r = Q r) -> (forall r, (r < world)%nat -> R r = S r) -> meets Q S.
Proof.
  intros H. revert Q S. induction H as [P R E|P R k m next E H IH]; intros Q T EQ ER.
  - apply m_done. intros r Hr. rewrite <- EQ, E, ER by assumption. reflexivity.
  - eapply m_coll; [intros r Hr; rewrite <- EQ by assumption; apply E; exact Hr|]. apply IH; auto.
Qed.
Lemma meets_bind A B (P : nat -> prog A) R (f : nat -> A -> prog B) T : meets P R ->
  meets (fun r => match R r with inl a => f r a | inr e => Done (inr e) end) T -> meets (fun r => pbind (P r) (f r)) T.
Proof.
  intros H. revert T. induction H as [P R E|P R k m next E H IH]; intros T HT.
  - eapply meets_ext; [exact HT| |reflexivity]. intros r Hr. rewrite E by assumption. cbn. destruct (R r); reflexivity.
  - eapply m_coll with (next := fun r ms => pbind (next r ms) (f r)); [intros r Hr; rewrite E by assumption; reflexivity|]. apply IH. exact HT.
Qed.
Lemma meets_catch A (P : nat -> prog A) R (h : nat -> failure -> prog A) T : meets P R ->
  meets (fun r => match R r with inl a => Done (inl a) | inr e => h r e end) T -> meets (fun r => catch (P r) (h r)) T.
Proof.
  intros H. revert T. induction H as [P R E|P R k m next E H IH]; intros T HT.
  - eapply meets_ext; [exact HT| |reflexivity]. intros r Hr. rewrite E by assumption. cbn. destruct (R r); reflexivity.
  - eapply m_coll with (next := fun r ms => catch (next r ms) (h r)); [intros r Hr; rewrite E by assumption; reflexivity|]. apply IH. exact HT.
Qed.
Lemma meets_done A (R : nat -> A + failure) : meets (fun r => Done (R r)) R.
Proof. apply m_done. reflexivity. Qed.
Lemma meets_exchange A k (m : nat -> msg) (f : nat -> list msg -> prog A) T :
  meets (fun r => f r (map m (seq 0 world))) T -> meets (fun r => pbind (exchange k (m r)) (f r)) T.
Proof. intros H. eapply m_coll with (m := m) (next := fun r ms => pbind (ret ms) (f r)); [reflexivity|]. exact H. Qed.
(** with one rank the exchange is left out *)
Lemma meets_maybe A k (m : nat -> msg) (f : nat -> list msg -> prog A) T : (0 < world)%nat ->
  meets (fun r => f r (map m (seq 0 world))) T ->
  meets (fun r => pbind (if (world =? 1)%nat then ret [m r] else exchange k (m r)) (f r)) T.
Proof.
  intros W H. destruct (world =? 1)%nat eqn:E.
  - apply Nat.eqb_eq in E. eapply meets_ext; [exact H| |reflexivity]. intros r Hr. cbn. replace r with 0%nat by lia. rewrite E. reflexivity.
  - apply meets_exchange. exact H.
Qed.
(** The results are determined. *)
Lemma meets_det A (P : nat -> prog A) R T : meets P R -> meets P T -> (0 < world)%nat -> forall r, (r < world)%nat -> R r = T r.
Proof.
  intros H. revert T. induction H as [P R E|P R k m next E H IH]; intros T HT W r Hr.
  - inversion HT as [P' R' E'|P' R' k' m' next' E' H' ]; subst; [specialize (E r Hr); specialize (E' r Hr); congruence|].
    specialize (E r Hr). specialize (E' r Hr). congruence.
  - inversion HT as [P' R' E'|P' R' k' m' next' E' H' ]; subst; [specialize (E r Hr); specialize (E' r Hr); congruence|].
    assert (X : forall q, (q < world)%nat -> k = k' /\ m q = m' q /\ next q = next' q).
    { intros q Hq. specialize (E q Hq). specialize (E' q Hq). rewrite E in E'. injection E' as -> -> ->. auto. }
    assert (M : map m (seq 0 world) = map m' (seq 0 world)). { apply map_ext_in. intros q I. apply in_seq in I. apply X. lia. }
    apply IH; [|exact W|exact Hr]. eapply meets_ext; [exact H'| |reflexivity]. intros q Hq. cbn. rewrite M. destruct (X q Hq) as (_ & _ & ->). reflexivity.
Qed.

(** ** What the messages say *)
Lemma reports_in (errs : nat -> list text) r e : In (r, e) (reports errs) <-> (r < world)%nat /\ e = errs r /\ e <> [].
Proof.
  unfold CollectiveSpec.reports. rewrite filter_In, in_map_iff. cbn. split.
  - intros ((q & E & I) & N). injection E as <- <-. apply in_seq in I. split; [lia|]. split; [reflexivity|]. destruct (errs q); [discriminate|congruence].
  - intros (Hr & -> & N). split; [exists r; split; [reflexivity|apply in_seq; lia]|]. destruct (errs r); [congruence|reflexivity].
Qed.
Lemma reports_none (errs : nat -> list text) : empty (reports errs) = true <-> forall r, (r < world)%nat -> errs r = [].
Proof.
  split.
  - intros H r Hr. destruct (errs r) as [|x l] eqn:E; [reflexivity|]. assert (I : In (r, errs r) (reports errs)) by (apply reports_in; split; [exact Hr|]; split; [reflexivity|]; congruence).
    destruct (reports errs); [destruct I|discriminate].
  - intros H. destruct (reports errs) as [|(r, e) l] eqn:E; [reflexivity|]. assert (I : In (r, e) (reports errs)) by (rewrite E; left; reflexivity).
    apply reports_in in I. destruct I as (Hr & -> & N). destruct (N (H r Hr)).
Qed.
Lemma errors_of_map (errs : nat -> list text) l :
  errors_of (map (fun r => @MError text batch desc (if empty (errs r) then None else Some (r, errs r))) l) = filter (fun p => negb (empty (snd p))) (map (fun r => (r, errs r)) l).
Proof. unfold errors_of. induction l as [|r l IH]; [reflexivity|]. cbn. rewrite IH. destruct (empty (errs r)); reflexivity. Qed.
Lemma errors_of_ext (f g : nat -> option (nat * list text)) l : (forall r, In r l -> f r = g r) -> errors_of (map (fun r => @MError text batch desc (f r)) l) = errors_of (map (fun r => @MError text batch desc (g r)) l).
Proof. intros H. f_equal. apply map_ext_in. intros r I. rewrite H by exact I. reflexivity. Qed.
Lemma count_of_map (b : nat -> bool) l :
  count_of (map (fun r => @MCount text batch desc (if b r then 1 else 0)) l) = zlen (filter b l).
Proof. unfold count_of. induction l as [|r l IH]; [reflexivity|]. cbn [map filter]. rewrite zsum_cons, IH. destruct (b r); rewrite ?zlen_cons; lia. Qed.
Lemma filter_len_all (X : Type) (b : X -> bool) l : (List.length (filter b l) <= List.length l)%nat /\ (List.length (filter b l) = List.length l <-> forallb b l = true).
Proof.
  induction l as [|x l (H1 & H2)]; [split; [apply le_n|split; reflexivity]|]. cbn [filter forallb]. destruct (b x); cbn; (split; [lia|]).
  - rewrite <- H2. lia.
  - split; [lia|discriminate].
Qed.
Lemma count_all (b : nat -> bool) : count_of (map (fun r => @MCount text batch desc (if b r then 1 else 0)) (seq 0 world)) =? Z.of_nat world = forallb b (seq 0 world).
Proof.
  rewrite count_of_map. destruct (filter_len_all b (seq 0 world)) as (L & E). rewrite seq_length in *. unfold zlen.
  destruct (forallb b (seq 0 world)); [apply Z.eqb_eq; f_equal; tauto|]. apply Z.eqb_neq. intros H. apply Nat2Z.inj in H. apply E in H. discriminate.
Qed.
Lemma descs_of_map (d : nat -> desc) l : descs_of (map (fun r => @MDesc text batch desc (d r)) l) = map d l.
Proof. induction l as [|r l IH]; [reflexivity|]. cbn. f_equal. exact IH. Qed.
Lemma flags_of_map (b : nat -> bool) l : flags_of (map (fun r => @MFlag text batch desc (b r)) l) = map b l.
Proof. induction l as [|r l IH]; [reflexivity|]. cbn. f_equal. exact IH. Qed.
Lemma combine_map_self (X : Type) (f : nat -> X) l : combine l (map f l) = map (fun r => (r, f r)) l.
Proof. induction l as [|x l IH]; [reflexivity|]. cbn. f_equal. exact IH. Qed.
Lemma ranks_with_map b (f : nat -> bool) : ranks_with b (map f (seq 0 world)) = filter (fun r => Bool.eqb (f r) b) (seq 0 world).
Proof.
  unfold ranks_with. rewrite map_length, seq_length, combine_map_self. generalize (seq 0 world). intros l.
  induction l as [|x l IH]; [reflexivity|]. cbn. destruct (Bool.eqb (f x) b); cbn; rewrite IH; reflexivity.
Qed.
Lemma empty_filter (X : Type) (b : X -> bool) l : empty (filter b l) = true <-> forall x, In x l -> b x = false.
Proof.
  induction l as [|x l IH]; cbn; [split; [intros _ y []|reflexivity]|]. destruct (b x) eqn:E.
  - cbn. split; [discriminate|]. intros H. rewrite H in E by auto. discriminate.
  - rewrite IH. split; [intros H y [<-|I]; auto|intros H y I; auto].
Qed.
Lemma forall_seq (b : nat -> bool) : forallb b (seq 0 world) = true <-> forall r, (r < world)%nat -> b r = true.
Proof. rewrite forallb_forall. split; intros H r Hr; apply H; [apply in_seq; lia|apply in_seq in Hr; lia]. Qed.
Hypothesis desc_eqb_eq : forall a b, desc_eqb a b = true <-> a = b.
Lemma all_same_map (d : nat -> desc) : (0 < world)%nat -> (all_same desc_eqb (map d (seq 0 world)) = true <-> forall r, (r < world)%nat -> d r = d 0%nat).
Proof.
  intros W. destruct world as [|w]; [lia|]. cbn [seq map all_same]. rewrite forallb_forall. split.
  - intros H [|r] Hr; [reflexivity|]. apply desc_eqb_eq. apply H. apply in_map. apply in_seq. lia.
  - intros H x I. apply in_map_iff in I. destruct I as (r & <- & I). apply in_seq in I. apply desc_eqb_eq. apply H. lia.
Qed.

(** ** The building blocks *)
Lemma meets_phase (errs : nat -> list text) : (0 < world)%nat ->
  meets (fun r => phase_errors world r (errs r)) (fun _ => if empty (reports errs) then inl tt else inr (Collectively (reports errs))).
Proof.
  intros W. unfold phase_errors. destruct (world =? 1)%nat eqn:E1.
  - apply Nat.eqb_eq in E1. apply m_done. intros r Hr. assert (r = 0)%nat as -> by lia. unfold CollectiveSpec.reports. rewrite E1. cbn. destruct (empty (errs 0%nat)); reflexivity.
  - apply meets_exchange. rewrite (count_all (fun r => empty (errs r))).
    assert (X : forallb (fun r => empty (errs r)) (seq 0 world) = empty (reports errs)).
    { apply eq_iff_eq_true. rewrite forall_seq, reports_none. split; intros H r Hr; specialize (H r Hr); [destruct (errs r); [reflexivity|discriminate]|rewrite H; reflexivity]. }
    rewrite X. destruct (empty (reports errs)); [apply meets_done|]. apply meets_exchange. rewrite errors_of_map. apply meets_done.
Qed.
Definition err_of {A} (o : A + text) : list text := match o with inl _ => [] | inr e => [e] end.
Definition opt_list {X} (o : option X) : list X := match o with Some x => [x] | None => [] end.
Lemma meets_shared A (o : nat -> A + text) : (0 < world)%nat ->
  meets (fun r => shared_call world r (o r))
    (fun r => if empty (reports (fun r => err_of (o r))) then match o r with inl a => inl a | inr e => inr (Alone e) end
              else inr (Collectively (reports (fun r => err_of (o r))))).
Proof.
  intros W. unfold shared_call. apply meets_maybe with (m := fun r => @MError text batch desc (match o r with inl _ => None | inr e => Some (r, [e]) end)); [exact W|].
  assert (X : errors_of (map (fun r => @MError text batch desc (match o r with inl _ => None | inr e => Some (r, [e]) end)) (seq 0 world)) = reports (fun r => err_of (o r))).
  { unfold CollectiveSpec.reports. rewrite <- errors_of_map. apply errors_of_ext. intros r _. destruct (o r); reflexivity. }
  rewrite X. apply m_done. intros r _. destruct (empty _); [destruct (o r)|]; reflexivity.
Qed.
Lemma meets_synchronized main (o : nat -> option text) : (0 < world)%nat ->
  meets (fun r => synchronized r main (o r))
    (fun r => if empty (reports (fun r => if negb main || (r =? 0)%nat then opt_list (o r) else [])) then inl tt
              else inr (Collectively (reports (fun r => if negb main || (r =? 0)%nat then opt_list (o r) else [])))).
Proof.
  intros W. unfold synchronized. apply meets_exchange with (m := fun _ => MNothing). apply meets_exchange with (m := fun _ => MNothing).
  apply meets_exchange with (m := fun r => @MError text batch desc (option_map (fun e => (r, [e])) (if negb main || (r =? 0)%nat then o r else None))).
  match goal with |- context[errors_of (map ?f (seq 0 world))] => assert (X : errors_of (map f (seq 0 world)) = reports (fun r => if negb main || (r =? 0)%nat then opt_list (o r) else [])) end.
  { unfold CollectiveSpec.reports. rewrite <- errors_of_map. apply errors_of_ext. intros r _. destruct (negb main || (r =? 0)%nat); [destruct (o r); reflexivity|reflexivity]. }
  rewrite X. apply m_done. intros r _. destruct (empty _); reflexivity.
Qed.
Lemma meets_compared (d : nat -> desc) : (0 < world)%nat ->
  meets (fun r => compared desc_eqb world (d r))
    (fun _ => if all_same desc_eqb (map d (seq 0 world)) then inl tt else inr (Differs (map d (seq 0 world)))).
Proof.
  intros W. unfold compared. apply meets_maybe with (m := fun r => @MDesc text batch desc (d r)); [exact W|]. rewrite descs_of_map.
  apply m_done. intros r _. destruct (all_same _ _); reflexivity.
Qed.
End Ranks.
