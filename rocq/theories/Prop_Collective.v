(** C57: a failure on one rank stops all ranks, and none is left waiting. *)
From Verif Require Import Base BaseFacts Collective CollectiveSpec CollectiveFacts.
Set Implicit Arguments. Unset Strict Implicit.

Section Ranks.
Variables text batch desc : Type.
Variable desc_eqb : desc -> desc -> bool.
Hypothesis desc_eqb_eq : forall a b, desc_eqb a b = true <-> a = b.
Notation prog := (prog text batch desc).
Notation failure := (failure text desc).
Variable world : nat.
Hypothesis some_rank : (0 < world)%nat.
Notation meets := (@meets text batch desc world).
Notation ends_together := (@ends_together text batch desc world).
Notation reports := (reports world).
Local Notation "'ranks' '(' 'fun' r '=>' P ')'" := (forall r : nat, (r < world)%nat -> P) (at level 0, r name, P at level 200).

(** ** Composition *)
Lemma together_ext A (P Q : nat -> prog A) C D : ends_together P C -> ranks (fun r => P r = Q r) -> (C <-> D) -> ends_together Q D.
Proof.
  intros (R & M & S & G) E CD. exists R. split; [eapply meets_ext; [exact M|exact E|reflexivity]|]. split; [exact S|]. rewrite G. exact CD.
Qed.
Lemma together_if A (P : nat -> prog A) C (b : bool) (a : nat -> A) (e : failure) :
  (b = true <-> C) -> meets P (fun r => if b then inl (a r) else inr e) -> ends_together P C.
Proof.
  intros B M. exists (fun r => if b then inl (a r) else inr e). split; [exact M|]. rewrite <- B. destruct b.
  - split; [left; intros r _; eauto|]. split; [reflexivity|intros _ r _; eauto].
  - split; [right; eauto|]. split; [|discriminate]. intros H. destruct (H 0%nat some_rank) as (x & X). discriminate.
Qed.
Lemma together_fail A (P : nat -> prog A) (C : Prop) (e : failure) : ~ C -> meets P (fun _ => inr e) -> ends_together P C.
Proof.
  intros N M. exists (fun _ => inr e). split; [exact M|]. split; [right; eauto|]. split; [|tauto]. intros H. destruct (H 0%nat some_rank) as (x & X). discriminate.
Qed.
Lemma together_meets A (P Q : nat -> prog A) C : ends_together P C -> (forall T, meets P T -> meets Q T) -> ends_together Q C.
Proof. intros (R & M & S & G) H. exists R. split; [apply H; exact M|]. split; assumption. Qed.
Lemma together_bind A B (P : nat -> prog A) (f : nat -> A -> prog B) C D :
  ends_together P C -> (forall a R, meets P R -> ranks (fun r => R r = inl (a r)) -> ends_together (fun r => f r (a r)) D) ->
  ends_together (fun r => pbind (P r) (f r)) (C /\ D).
Proof.
  intros (R & M & [S|(e & S)] & G) H.
  - assert (X : exists a, ranks (fun r => R r = inl (a r))).
    { destruct (S 0%nat some_rank) as (a0 & _). exists (fun r => match R r with inl a => a | inr _ => a0 end). intros r Hr. destruct (S r Hr) as (a & ->). reflexivity. }
    destruct X as (a & Ea). destruct (H a R M Ea) as (T & MT & ST & GT). exists T. split; [|split; [exact ST|rewrite GT; split; [intros d; split; [apply G; exact S|exact d]|intros (_ & d); exact d]]].
    eapply meets_bind; [exact M|]. eapply meets_ext; [exact MT| |reflexivity]. intros r Hr. rewrite Ea by exact Hr. reflexivity.
  - exists (fun r => inr e). split; [|split; [right; eauto|]].
    + eapply meets_bind; [exact M|]. apply m_done. intros r Hr. rewrite S by exact Hr. reflexivity.
    + split; [intros X; destruct (X 0%nat some_rank) as (a & Ea); discriminate|]. intros (c & _). destruct (proj2 G c 0%nat some_rank) as (a & Ea). rewrite S in Ea by exact some_rank. discriminate.
Qed.
Lemma together_seq A B (P : nat -> prog A) (f : nat -> prog B) C D :
  ends_together P C -> ends_together f D -> ends_together (fun r => pbind (P r) (fun _ => f r)) (C /\ D).
Proof. intros HP Hf. apply (@together_bind _ _ P (fun r _ => f r)); [exact HP|]. intros a R _ _. exact Hf. Qed.
Lemma together_ret A (a : nat -> A) : ends_together (fun r => ret (a r)) True.
Proof. apply (@together_if _ _ _ true a Unfinished); [split; auto|]. apply m_done. reflexivity. Qed.

(** ** The calls one by one *)
(** Errors that ranks report at the end of a phase. *)
Theorem C57_reported_errors_stop_every_rank : forall errs : nat -> list text,
  ends_together (fun r => phase_errors world r (errs r)) (ranks (fun r => errs r = [])).
Proof.
  intros errs. apply (@together_if _ _ _ (empty (reports errs)) (fun _ => tt) (Collectively (reports errs))); [apply reports_none|]. apply meets_phase. exact some_rank.
Qed.
(** ... and the exception names exactly the ranks that failed. *)
Theorem C57_the_exception_names_the_failed_ranks : forall errs : nat -> list text, ~ ranks (fun r => errs r = []) ->
  meets (fun r => phase_errors world r (errs r)) (fun _ => inr (Collectively (reports errs)))
  /\ forall r e, In (r, e) (reports errs) <-> (r < world)%nat /\ e = errs r /\ e <> [].
Proof.
  intros errs N. split; [|intros r e; apply reports_in]. eapply meets_ext; [apply meets_phase; exact some_rank|reflexivity|]. intros r _. cbn.
  destruct (empty (reports errs)) eqn:E; [|reflexivity]. exfalso. apply N. apply (proj1 (@reports_none text world errs)). exact E.
Qed.
(** File operations, dataset calls and the like. *)
Theorem C57_a_failed_call_stops_every_rank : forall A (o : nat -> A + text),
  ends_together (fun r => shared_call world r (o r)) (ranks (fun r => exists a, o r = inl a)).
Proof.
  intros A o. pose proof (@meets_shared text batch desc world A o some_rank) as M. destruct (empty (reports (fun r => err_of (o r)))) eqn:E.
  - assert (G : ranks (fun r => exists a, o r = inl a)). { intros r Hr. pose proof (proj1 (@reports_none text world _) E r Hr) as X. cbn in X. destruct (o r); [eauto|discriminate]. }
    exists (fun r => match o r with inl a => inl a | inr e => inr (Alone e) end). split; [exact M|].
    assert (X : ranks (fun r => exists a, (match o r with inl a => inl a | inr e => inr (Alone e) end : A + failure) = inl a)) by (intros r Hr; destruct (G r Hr) as (a & ->); eauto).
    split; [left; exact X|]. split; auto.
  - exists (fun _ => inr (Collectively (reports (fun r => err_of (o r))))). split; [exact M|]. split; [right; eauto|]. split; [intros X; destruct (X 0%nat some_rank) as (a & Ea); discriminate|].
    intros G. exfalso. apply not_true_iff_false in E. apply E. apply reports_none. intros r Hr. destruct (G r Hr) as (a & ->). reflexivity.
Qed.
Theorem C57_a_failed_operation_stops_every_rank : forall main_only (o : nat -> option text),
  ends_together (fun r => synchronized r main_only (o r)) (ranks (fun r => main_only = false \/ r = 0%nat -> o r = None)).
Proof.
  intros main o. apply (@together_if _ _ _ (empty (reports (fun r => if negb main || (r =? 0)%nat then opt_list (o r) else []))) (fun _ => tt) (Collectively (reports (fun r => if negb main || (r =? 0)%nat then opt_list (o r) else [])))).
  - rewrite reports_none. split; intros H r Hr.
    + intros D. specialize (H r Hr). replace (negb main || (r =? 0)%nat) with true in H by (symmetry; apply orb_true_iff; destruct D as [-> | ->]; auto). destruct (o r); [discriminate|reflexivity].
    + destruct (negb main || (r =? 0)%nat) eqn:E; [|reflexivity]. rewrite H; [reflexivity|exact Hr|]. apply orb_true_iff in E. destruct E as [E|E]; [left; destruct main; [discriminate|reflexivity]|right; apply Nat.eqb_eq; exact E].
  - apply meets_synchronized. exact some_rank.
Qed.
Theorem C57_different_values_stop_every_rank : forall d : nat -> desc,
  ends_together (fun r => compared desc_eqb world (d r)) (ranks (fun r => d r = d 0%nat)).
Proof.
  intros d. apply (@together_if _ _ _ (all_same desc_eqb (map d (seq 0 world))) (fun _ => tt) (Differs (map d (seq 0 world)))); [apply all_same_map; assumption|].
  apply meets_compared. exact some_rank.
Qed.

(** ** Batches *)
Fixpoint can_end A (p : prog A) (x : A + failure) : Prop :=
  match p with Done r => r = x | Coll _ _ next => exists ms, can_end (next ms) x end.
Lemma meets_can_end A (P : nat -> prog A) R : meets P R -> ranks (fun r => can_end (P r) (R r)).
Proof.
  intros H. induction H as [P R E|P R k m next E H IH]; intros r Hr; rewrite E by exact Hr; cbn; [reflexivity|]. eexists. apply IH. exact Hr.
Qed.
Lemma can_end_bind A B (p : prog A) (f : A -> prog B) b : can_end (pbind p f) (inl b) -> exists a, can_end (f a) (inl b).
Proof.
  induction p as [[a|e]|k m next IH]; cbn; [eauto|discriminate|]. intros (ms & H). eapply IH. exact H.
Qed.
Theorem C57_a_fetched_batch_is_the_ranks_own : forall (x : nat -> fetching text batch desc) R r b,
  meets (fun r => fetch_batch desc_eqb world r (x r)) R -> (r < world)%nat -> R r = inl b -> own (x r) = Some b.
Proof.
  intros x R r b M Hr E. pose proof (meets_can_end M Hr) as C. cbn in C. rewrite E in C. clear M E.
  assert (G : forall d e, can_end (fetch_rest desc_eqb world r (x r) d e) (inl b) -> d = Some b).
  { intros d e H. unfold fetch_rest in H. apply can_end_bind in H. destruct H as (ms & H). destruct (negb (empty (errors_of ms))); [discriminate H|].
    apply can_end_bind in H. destruct H as (ms' & H). destruct (negb (empty _)); [discriminate H|]. destruct (stage (x r)); [discriminate H|].
    apply can_end_bind in H. destruct H as (u & H). destruct d; [|discriminate H]. injection H as ->. reflexivity. }
  unfold fetch_batch in C. unfold own. destruct (first (x r)) as [b1| |e1].
  - apply G in C. exact C.
  - destruct (advance (x r)); [discriminate C|]. apply G in C. destruct (second (x r)); try discriminate C. exact C.
  - apply G in C. discriminate C.
Qed.
Definition trouble (x : fetching text batch desc) : option text :=
  match first x with Item _ => None | Broken e => Some e | Stop => match second x with Broken e => Some e | _ => None end end.
Lemma trouble_own x : trouble x <> None -> own x = None.
Proof. unfold trouble, own. destruct (first x); [congruence| |reflexivity]. destruct (second x); [congruence|congruence|reflexivity]. Qed.
Theorem C57_ranks_fetch_together : forall x : nat -> fetching text batch desc, fetch_uniform world x ->
  ends_together (fun r => fetch_batch desc_eqb world r (x r)) (fetched world x).
Proof.
  intros x (Ad & St & To).
  apply (@together_ext _ (fun r => fetch_rest desc_eqb world r (x r) (own (x r)) (trouble (x r))) _ (fetched world x)); [| |reflexivity].
  2:{ intros r Hr. unfold fetch_batch, own, trouble. specialize (Ad r Hr). destruct (first (x r)); [reflexivity| |reflexivity]. rewrite (Ad eq_refl). destruct (second (x r)); reflexivity. }
  unfold fetch_rest.
  set (rep := reports (fun r => opt_list (trouble (x r)))).
  assert (X : errors_of (map (fun r => @MError text batch desc (option_map (fun e => (r, [e])) (trouble (x r)))) (seq 0 world)) = rep).
  { unfold rep, CollectiveSpec.reports. rewrite <- (@errors_of_map text batch desc). apply errors_of_ext. intros r _. destruct (trouble (x r)); reflexivity. }
  eapply together_meets; [|intros T MT; apply meets_maybe with (m := fun r => @MError text batch desc (option_map (fun e => (r, [e])) (trouble (x r)))); [exact some_rank|exact MT]].
  rewrite X. destruct (empty rep) eqn:Er; cbn [negb].
  2:{ eapply together_fail; [|apply m_done; reflexivity]. intros (O & _). apply not_true_iff_false in Er. apply Er. apply reports_none. intros r Hr.
      destruct (trouble (x r)) eqn:E; [|reflexivity]. exfalso. apply (O r Hr). apply trouble_own. congruence. }
  eapply together_meets; [|intros T MT; apply meets_maybe with (m := fun r => @MFlag text batch desc (match own (x r) with Some _ => true | None => false end)); [exact some_rank|exact MT]].
  rewrite flags_of_map, ranks_with_map. set (up := filter _ (seq 0 world)). destruct (empty up) eqn:Eu; cbn [negb].
  2:{ eapply together_fail; [|apply m_done; reflexivity]. intros (O & _). apply not_true_iff_false in Eu. apply Eu. unfold up. apply empty_filter. intros r I. apply in_seq in I.
      destruct (own (x r)) eqn:E; [reflexivity|]. exfalso. apply (O r ltac:(lia)). exact E. }
  assert (O : ranks (fun r => own (x r) <> None)).
  { intros r Hr E. unfold up in Eu. assert (I : In r (seq 0 world)) by (apply in_seq; lia). pose proof (proj1 (@empty_filter _ _ _) Eu r I) as H. cbv beta in H. rewrite E in H. discriminate H. }
  assert (Last : ends_together (fun r => match own (x r) with Some b => ret b | None => raise Unfinished end) True).
  { assert (Y : exists b, ranks (fun r => own (x r) = Some (b r))).
    { destruct (own (x 0%nat)) as [b0|] eqn:E0; [|destruct (O 0%nat some_rank); exact E0]. exists (fun r => match own (x r) with Some b => b | None => b0 end). intros r Hr. specialize (O r Hr). destruct (own (x r)); [reflexivity|congruence]. }
    destruct Y as (b & Eb). eapply together_ext; [apply (@together_ret _ b)| |reflexivity]. intros r Hr. cbn. rewrite (Eb r Hr). reflexivity. }
  destruct To as [To|To].
  - eapply together_ext; [exact Last| |].
    + intros r Hr. cbn. rewrite (St r Hr), (To r Hr). reflexivity.
    + split; [|auto]. intros _. split; [exact O|]. intros r Hr. rewrite (To r Hr), (To 0%nat some_rank). reflexivity.
  - assert (Y : exists d, ranks (fun r => token (x r) = Some (d r))).
    { destruct (token (x 0%nat)) as [d0|] eqn:E0; [|destruct (To 0%nat some_rank); exact E0]. exists (fun r => match token (x r) with Some d => d | None => d0 end). intros r Hr. specialize (To r Hr). destruct (token (x r)); [reflexivity|congruence]. }
    destruct Y as (d & Ed). eapply together_ext; [apply (together_seq (C57_different_values_stop_every_rank d) Last)| |].
    + intros r Hr. cbn. rewrite (St r Hr), (Ed r Hr). reflexivity.
    + unfold fetched. split.
      * intros (H & _). split; [exact O|]. intros r Hr. rewrite (Ed r Hr), (Ed 0%nat some_rank), (H r Hr). reflexivity.
      * intros (_ & H). split; [|exact I]. intros r Hr. specialize (H r Hr). rewrite (Ed r Hr), (Ed 0%nat some_rank) in H. congruence.
Qed.

(** ** The checks before and after the backward pass *)
Variables (schema_differs schema_changed bad_loss not_finite : text).
Notation step_validity := (@step_validity text batch desc desc_eqb world schema_differs schema_changed bad_loss not_finite).
Notation validity_rest := (@validity_rest text batch desc world bad_loss not_finite).
Lemma rest_together (x : nat -> checking text desc) (errs : nat -> list text) :
  ends_together (fun r => validity_rest r (x r) (errs r)) (ranks (fun r => errs r = [] /\ loss_ok (x r) = true /\ finite (x r) = true)).
Proof.
  unfold Collective.validity_rest. set (es := fun r => if loss_ok (x r) then errs r else errs r ++ [bad_loss]).
  set (valid := fun r => empty (es r) && finite (x r) && loss_ok (x r)).
  assert (V : forall r, valid r = true <-> errs r = [] /\ loss_ok (x r) = true /\ finite (x r) = true).
  { intros r. unfold valid, es. rewrite !andb_true_iff. split.
    - intros ((A & B) & C). rewrite C in A. destruct (errs r); [auto|discriminate].
    - intros (A & B & C). rewrite A, B, C. auto. }
  destruct (world =? 1)%nat eqn:E1; cbn [andb].
  - assert (W1 : world = 1%nat) by (apply Nat.eqb_eq; exact E1).
    apply (@together_if _ _ _ (valid 0%nat) (fun _ => tt) (Collectively [(0%nat, if empty (es 0%nat) then [not_finite] else es 0%nat)])).
    + rewrite V. split; [intros H r Hr; replace r with 0%nat by lia; exact H|intros H; apply H; exact some_rank].
    + apply m_done. intros r Hr. replace r with 0%nat by lia. change (if loss_ok (x 0%nat) then errs 0%nat else errs 0%nat ++ [bad_loss]) with (es 0%nat).
      change (empty (es 0%nat) && finite (x 0%nat) && loss_ok (x 0%nat)) with (valid 0%nat). destruct (empty (es 0%nat)) eqn:Ee; cbn [negb].
      * cbn. rewrite W1. destruct (valid 0%nat); reflexivity.
      * unfold valid. rewrite Ee. reflexivity.
  - apply (@together_if _ _ _ (forallb valid (seq 0 world)) (fun _ => tt) (Collectively (map (fun r => (r, if empty (es r) then [not_finite] else es r)) (seq 0 world)))).
    + rewrite forall_seq. split; intros H r Hr; apply V; apply H; exact Hr.
    + apply meets_exchange with (m := fun r => @MCount text batch desc (if valid r then 1 else 0)). rewrite (count_all text batch desc world valid). destruct (forallb valid (seq 0 world)); [apply m_done; reflexivity|].
      apply meets_exchange with (m := fun r => @MError text batch desc (Some (r, if empty (es r) then [not_finite] else es r))).
      match goal with |- context[errors_of (map ?f (seq 0 world))] => assert (Y : errors_of (map f (seq 0 world)) = map (fun r => (r, if empty (es r) then [not_finite] else es r)) (seq 0 world)) end.
      { unfold errors_of. clear. induction (seq 0 world) as [|a l IH]; [reflexivity|]. cbn. f_equal. exact IH. }
      rewrite Y. apply m_done. reflexivity.
Qed.
Theorem C57_ranks_judge_a_step_together : forall x : nat -> checking text desc, check_uniform world x ->
  ends_together (fun r => step_validity r (x r)) (checked world x).
Proof.
  intros x [N|S].
  - eapply together_ext with (P := fun r => pbind (if (world =? 1)%nat then ret [MDesc (schema (x r))] else exchange GatherObject (MDesc (schema (x r)))) (fun ms =>
      validity_rest r (x r) (if all_same desc_eqb (descs_of ms) then errors (x r) else errors (x r) ++ [schema_differs]))).
    2:{ intros r Hr. unfold Collective.step_validity. rewrite (N r Hr). reflexivity. }
    2:{ reflexivity. }
    eapply together_meets; [|intros T MT; apply meets_maybe with (m := fun r => @MDesc text batch desc (schema (x r))); [exact some_rank|exact MT]]. rewrite descs_of_map.
    eapply together_ext; [apply rest_together|intros r _; reflexivity|]. cbv beta.
    pose proof (@all_same_map desc desc_eqb world desc_eqb_eq (fun r => schema (x r)) some_rank) as AS.
    unfold checked. destruct (all_same desc_eqb (map (fun r => schema (x r)) (seq 0 world))).
    + split; [|intros (H & _); exact H]. intros H. split; [exact H|]. intros r Hr. rewrite (N r Hr). apply (proj1 AS eq_refl r Hr).
    + split.
      * intros H. destruct (H 0%nat some_rank) as (H0 & _). destruct (errors (x 0%nat)); discriminate.
      * intros (_ & H). exfalso. assert (X : false = true); [apply AS|discriminate]. intros r Hr. specialize (H r Hr). rewrite (N r Hr) in H. exact H.
  - eapply together_ext; [apply (@rest_together x (fun r => match expected (x r) with Some d => if desc_eqb (schema (x r)) d then errors (x r) else errors (x r) ++ [schema_changed] | None => [] end))| |].
    + intros r Hr. specialize (S r Hr). unfold Collective.step_validity. destruct (expected (x r)); [reflexivity|congruence].
    + unfold checked. split.
      * intros H. split; intros r Hr; specialize (H r Hr); specialize (S r Hr); destruct (expected (x r)) as [d|]; try congruence; destruct H as (A & B).
        -- destruct (desc_eqb (schema (x r)) d); [auto|destruct (errors (x r)); discriminate].
        -- destruct (desc_eqb (schema (x r)) d) eqn:E; [apply desc_eqb_eq; exact E|destruct (errors (x r)); discriminate].
      * intros (H & K) r Hr. specialize (H r Hr); specialize (S r Hr); specialize (K r Hr). destruct (expected (x r)) as [d|]; [|congruence]. rewrite (proj2 (desc_eqb_eq _ _) K). exact H.
Qed.

(** ** One optimizer step *)
Definition settles A (P : nat -> prog A) (C : Prop) : Prop :=
  exists R, meets P R /\ united world R /\ (ranks (fun r => exists a, R r = inl a) <-> C).
Lemma together_settles A (P : nat -> prog A) C : ends_together P C -> settles P C.
Proof. intros (R & M & S & G). exists R. split; [exact M|]. split; [|exact G]. destruct S as [S|(e & S)]; [left; exact S|right; eauto]. Qed.
Lemma settles_seq A (P : nat -> prog unit) (f : nat -> prog A) C D : settles P C -> settles f D -> settles (fun r => pbind (P r) (fun _ => f r)) (C /\ D).
Proof.
  intros (R & M & [U|U] & G) (T & MT & UT & GT).
  - exists T. split; [|split; [exact UT|]].
    + eapply meets_bind; [exact M|]. eapply meets_ext; [exact MT| |reflexivity]. intros r Hr. destruct (U r Hr) as (a & ->). reflexivity.
    + rewrite GT. split; [|tauto]. intros d. split; [apply G; exact U|exact d].
  - exists (fun r => match R r with inl _ => inr Unfinished | inr e => inr e end). split; [|split].
    + eapply meets_bind; [exact M|]. apply m_done. intros r Hr. destruct (U r Hr) as (e & ->). reflexivity.
    + right. intros r Hr. destruct (U r Hr) as (e & ->). eauto.
    + split; [intros H; destruct (H 0%nat some_rank) as (a & Ea); destruct (R 0%nat); discriminate|]. intros (c & _). destruct (proj2 G c 0%nat some_rank) as (a & Ea). destruct (U 0%nat some_rank) as (e & Ee). congruence.
Qed.
Lemma settles_ext A (P Q : nat -> prog A) C D : settles P C -> ranks (fun r => P r = Q r) -> (C <-> D) -> settles Q D.
Proof. intros (R & M & S & G) E CD. exists R. split; [eapply meets_ext; [exact M|exact E|reflexivity]|]. split; [exact S|]. rewrite G. exact CD. Qed.
Variable name_of : failure -> text.
Notation mutation := (@mutation text batch desc desc_eqb world schema_differs schema_changed bad_loss not_finite).
Notation micro_step := (@micro_step text batch desc desc_eqb world schema_differs schema_changed bad_loss not_finite name_of).
Notation train_step := (@train_step text batch desc desc_eqb world schema_differs schema_changed bad_loss not_finite name_of).
Lemma prepared_settles (x : nat -> option (desc + text)) : prepare_uniform world x ->
  settles (fun r => match x r with None => ret tt | Some (inr e) => raise (Alone e) | Some (inl d) => compared desc_eqb world d end) (prepared_ok world x).
Proof.
  intros [N|[D|E]].
  - eapply settles_ext; [apply together_settles; apply (@together_ret _ (fun _ => tt))| |]; [intros r Hr; cbn; rewrite (N r Hr); reflexivity|]. split; [intros _; left; exact N|auto].
  - assert (Y : exists d, ranks (fun r => x r = Some (inl (d r)))).
    { destruct (D 0%nat some_rank) as (d0 & _). exists (fun r => match x r with Some (inl d) => d | _ => d0 end). intros r Hr. destruct (D r Hr) as (d & ->). reflexivity. }
    destruct Y as (d & Ed). eapply settles_ext; [apply together_settles; apply (C57_different_values_stop_every_rank d)| |].
    + intros r Hr. cbn. rewrite (Ed r Hr). reflexivity.
    + split.
      * intros H. right. exists (d 0%nat). intros r Hr. rewrite (Ed r Hr), (H r Hr). reflexivity.
      * intros [N|(d' & E)] r Hr; [specialize (N r Hr); specialize (Ed r Hr); congruence|]. pose proof (E r Hr) as A. pose proof (E 0%nat some_rank) as B. rewrite (Ed r Hr) in A. rewrite (Ed 0%nat some_rank) in B. congruence.
  - assert (Y : exists e, ranks (fun r => x r = Some (inr (e r)))).
    { destruct (E 0%nat some_rank) as (e0 & _). exists (fun r => match x r with Some (inr e) => e | _ => e0 end). intros r Hr. destruct (E r Hr) as (e & ->). reflexivity. }
    destruct Y as (e & Ee). exists (fun r => inr (Alone (e r))). split; [|split].
    + apply m_done. intros r Hr. rewrite (Ee r Hr). reflexivity.
    + right. intros r Hr. eauto.
    + split; [intros H; destruct (H 0%nat some_rank) as (a & Ea); discriminate|]. specialize (Ee 0%nat some_rank). intros [N|(d & H)]; [specialize (N 0%nat some_rank); congruence|specialize (H 0%nat some_rank); congruence].
Qed.
Lemma micro_together (x : nat -> micro text batch desc) : uniform world x -> ends_together (fun r => micro_step r (x r)) (fine world x).
Proof.
  intros (Uf & Ub & Ua & Up & Us). unfold Collective.micro_step.
  (* the mutation, caught *)
  set (Cq := sync_grads (x 0%nat) = true -> checked world (fun r => after (x r)) /\ prepared_ok world (fun r => prepared (x r))).
  assert (Q : settles (fun r => if sync_grads (x r) then pbind (step_validity r (after (x r))) (fun _ =>
      match prepared (x r) with None => ret tt | Some (inr e) => raise (Alone e) | Some (inl d) => compared desc_eqb world d end) else ret tt) Cq).
  { destruct (sync_grads (x 0%nat)) eqn:E0.
    - eapply settles_ext; [apply settles_seq; [apply together_settles; apply C57_ranks_judge_a_step_together; exact Ua|apply prepared_settles; exact Up]| |].
      + intros r Hr. cbn. rewrite (Us r Hr). reflexivity.
      + unfold Cq. tauto.
    - eapply settles_ext; [apply together_settles; apply (@together_ret _ (fun _ => tt))| |].
      + intros r Hr. cbn. rewrite (Us r Hr). reflexivity.
      + unfold Cq. split; [discriminate|auto]. }
  assert (Mu : exists R, meets (fun r => mutation r (x r)) R /\ (ranks (fun r => exists a, R r = inl a) <-> Cq /\ ranks (fun r => optimizer (x r) = None))).
  { destruct Q as (R & M & U & G). destruct U as [U|U].
    - exists (fun r => match optimizer (x r) with Some e => inr (Alone e) | None => inl tt end). split.
      + unfold Collective.mutation. eapply meets_bind; [exact M|]. apply m_done. intros r Hr. destruct (U r Hr) as (a & ->). destruct (optimizer (x r)); reflexivity.
      + split.
        * intros H. split; [apply G; exact U|]. intros r Hr. destruct (H r Hr) as (a & Ea). destruct (optimizer (x r)); [discriminate|reflexivity].
        * intros (_ & H) r Hr. rewrite (H r Hr). eauto.
    - exists (fun r => match R r with inl _ => inr Unfinished | inr e => inr e end). split.
      + unfold Collective.mutation. eapply meets_bind; [exact M|]. apply m_done. intros r Hr. destruct (U r Hr) as (e & ->). reflexivity.
      + split; [intros H; destruct (H 0%nat some_rank) as (a & Ea); destruct (R 0%nat); discriminate|]. intros (c & _). destruct (proj2 G c 0%nat some_rank) as (a & Ea). destruct (U 0%nat some_rank) as (e & Ee). congruence. }
  destruct Mu as (R & M & G).
  set (errs := fun r => match R r with inl _ => [] | inr e => [name_of e] end).
  assert (Ca : meets (fun r => catch (pbind (mutation r (x r)) (fun _ => ret [])) (fun e => ret [name_of e])) (fun r => inl (errs r))).
  { eapply meets_catch with (R := fun r => match R r with inl _ => inl [] | inr e => inr e end).
    - eapply meets_bind; [exact M|]. apply m_done. intros r _. destruct (R r); reflexivity.
    - apply m_done. intros r _. unfold errs. destruct (R r); reflexivity. }
  assert (Ph : ends_together (fun r => pbind (catch (pbind (mutation r (x r)) (fun _ => ret [])) (fun e => ret [name_of e])) (fun errs => phase_errors world r errs))
                 (Cq /\ ranks (fun r => optimizer (x r) = None))).
  { eapply together_meets; [|intros T MT; eapply meets_bind; [exact Ca|exact MT]]. cbv beta iota.
    eapply together_ext; [apply (C57_reported_errors_stop_every_rank errs)|reflexivity|]. rewrite <- G. unfold errs. split; intros H r Hr; specialize (H r Hr).
    - destruct (R r) as [a|e]; [eauto|discriminate].
    - destruct H as (a & ->). reflexivity. }
  assert (Al : ends_together (fun r => if sync_grads (x r) then pbind (exchange ReduceSum MNothing) (fun _ => ret tt) else ret tt) True).
  { destruct (sync_grads (x 0%nat)) eqn:E0.
    - eapply together_ext with (P := fun r => pbind (exchange ReduceSum MNothing) (fun _ => ret tt)); [|intros r Hr; cbn; rewrite (Us r Hr); reflexivity|reflexivity].
      eapply together_meets; [apply (@together_ret _ (fun _ => tt))|]. intros T MT. apply meets_exchange with (m := fun _ => MNothing) (f := fun _ _ => ret tt). exact MT.
    - eapply together_ext with (P := fun r => ret tt); [apply (@together_ret _ (fun _ => tt))|intros r Hr; cbn; rewrite (Us r Hr); reflexivity|reflexivity]. }
  set (Cf := forall f, ranks (fun r => fetch (x r) = Some (f r)) -> fetched world f).
  assert (Fe : ends_together (fun r => match fetch (x r) with Some f => pbind (fetch_batch desc_eqb world r f) (fun _ => ret tt) | None => ret tt end) Cf).
  { destruct Uf as [N|(f & Ef & Uf)].
    - eapply together_ext; [apply (@together_ret _ (fun _ => tt))|intros r Hr; cbn; rewrite (N r Hr); reflexivity|]. split; [|auto]. intros _ g Hg. specialize (Hg 0%nat some_rank). rewrite (N 0%nat some_rank) in Hg. discriminate.
    - eapply together_ext; [apply (together_seq (C57_ranks_fetch_together Uf) (@together_ret _ (fun _ => tt)))|intros r Hr; cbn; rewrite (Ef r Hr); reflexivity|]. split.
      + intros ((O & T) & _) g Hg. assert (E : ranks (fun r => g r = f r)) by (intros r Hr; specialize (Hg r Hr); rewrite (Ef r Hr) in Hg; congruence).
        split; intros r Hr; rewrite ?(E r Hr), ?(E 0%nat some_rank); auto.
      + intros H. split; [apply H; exact Ef|exact I]. }
  eapply together_ext; [apply (together_seq Fe (together_seq (C57_reported_errors_stop_every_rank (fun r => hook (x r))) (together_seq (C57_ranks_judge_a_step_together Ub) (together_seq Al Ph))))|reflexivity|].
  unfold fine. fold Cf. fold Cq. tauto.
Qed.

(** An optimizer step, micro-step by micro-step ([steps]: what happens in each, on each rank). *)
Theorem C57_ranks_step_together : forall (steps : list (nat -> micro text batch desc)) (post_hook : nat -> list text),
  Forall (uniform world) steps ->
  ends_together (fun r => train_step r (map (fun x => x r) steps) (post_hook r)) (Forall (fine world) steps /\ ranks (fun r => post_hook r = [])).
Proof.
  intros steps ph U. unfold Collective.train_step. apply together_seq; [|apply C57_reported_errors_stop_every_rank].
  induction U as [|x steps Ux U IH]; cbn [map micro_steps].
  - eapply together_ext; [apply (@together_ret _ (fun _ => tt))|reflexivity|]. split; auto.
  - eapply together_ext; [apply (together_seq (micro_together Ux) IH)|reflexivity|]. split.
    + intros (A & B). constructor; assumption.
    + intros H. inversion H; auto.
Qed.

(** ** Saving *)
Theorem C57_ranks_save_together : forall (generation : unit + text) (states_ok : option text) (x : nat -> saving text),
  ranks (fun r => saves_state (x r) = saves_state (x 0%nat)) -> ranks (fun r => exists_already (x r) = exists_already (x 0%nat)) ->
  ends_together (fun r => save_checkpoint batch desc world generation states_ok r (x r))
    (flush (x 0%nat) = None /\
     (if saves_state (x 0%nat) && exists_already (x 0%nat) then ranks (fun r => exists u, collision (x r) = inl u)
      else (saves_state (x 0%nat) = true ->
              (exists u, generation = inl u) /\ states_ok = None
              /\ ranks (fun r => (exists u, directory (x r) = inl u) /\ (exists u, sidecar (x r) = inl u) /\ (exists u, continuation (x r) = inl u) /\ (exists u, sidecar_check (x r) = inl u)))
           /\ commit (x 0%nat) = None)).
Proof.
  intros gen ok x Us Ue. unfold save_checkpoint.
  assert (Z0 : forall o : nat -> option text, ranks (fun r => true = false \/ r = 0%nat -> o r = None) <-> o 0%nat = None).
  { intros o. split; [intros H; apply (H 0%nat some_rank); auto|]. intros H r _ [D|D]; [discriminate|]. subst r. exact H. }
  assert (F : ends_together (fun r => synchronized r true (flush (x r))) (flush (x 0%nat) = None)).
  { eapply together_ext; [apply (C57_a_failed_operation_stops_every_rank true (fun r => flush (x r)))|reflexivity|]. apply Z0. }
  apply together_seq; [exact F|]. destruct (saves_state (x 0%nat)) eqn:Es; cbn [andb].
  - destruct (exists_already (x 0%nat)) eqn:Ee.
    + eapply together_ext; [apply (C57_a_failed_call_stops_every_rank (fun r => collision (x r)))| |reflexivity]. intros r Hr. rewrite (Us r Hr), (Ue r Hr). reflexivity.
    + assert (G : ends_together (fun r => pbind (if (world =? 1)%nat then ret [] else exchange GatherObject MNothing) (fun _ => match gen with inl _ => ret tt | inr e => raise (Collectively [(0%nat, [e])]) end)) (exists u, gen = inl u)).
      { assert (G0 : ends_together (fun _ => match gen with inl _ => ret tt | inr e => raise (Collectively [(0%nat, [e])]) end) (exists u, gen = inl u)).
        { destruct gen as [u|e].
          - eapply together_ext; [apply (@together_ret _ (fun _ => tt))|reflexivity|]. split; eauto.
          - eapply together_fail; [intros (u & E); discriminate|apply m_done; reflexivity]. }
        destruct (world =? 1)%nat; [exact G0|]. eapply together_meets; [exact G0|]. intros T MT. apply meets_exchange with (m := fun _ => MNothing). exact MT. }
      assert (K : ends_together (fun _ => match ok with Some e => raise (Alone e) | None => ret tt end) (ok = None)).
      { destruct ok as [e|]; [eapply together_fail; [discriminate|apply m_done; reflexivity]|]. eapply together_ext; [apply (@together_ret _ (fun _ => tt))|reflexivity|]. split; auto. }
      eapply together_ext; [apply (together_seq (together_seq (C57_a_failed_call_stops_every_rank (fun r => directory (x r))) (together_seq G (together_seq (C57_a_failed_call_stops_every_rank (fun r => sidecar (x r)))
         (together_seq (C57_a_failed_call_stops_every_rank (fun r => continuation (x r))) (together_seq K (C57_a_failed_call_stops_every_rank (fun r => sidecar_check (x r))))))))
         (C57_a_failed_operation_stops_every_rank true (fun r => commit (x r))))| |].
      * intros r Hr. rewrite (Us r Hr), (Ue r Hr). reflexivity.
      * rewrite Z0. split.
        -- intros ((A & B & C & D & E & F') & H). split; [|exact H]. intros _. split; [exact B|]. split; [exact E|]. intros r Hr. auto.
        -- intros (A & H). destruct (A eq_refl) as (B & C & D). split; [|exact H]. split; [intros r Hr; apply D; exact Hr|]. split; [exact B|]. split; [intros r Hr; apply D; exact Hr|]. split; [intros r Hr; apply D; exact Hr|]. split; [exact C|]. intros r Hr; apply D; exact Hr.
  - eapply together_ext; [apply (together_seq (@together_ret _ (fun _ => tt)) (C57_a_failed_operation_stops_every_rank true (fun r => commit (x r))))| |].
    + intros r Hr. rewrite (Us r Hr). reflexivity.
    + rewrite Z0. split; [intros (_ & H); split; [discriminate|exact H]|intros (_ & H); auto].
Qed.
End Ranks.
