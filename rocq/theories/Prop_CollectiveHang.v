(** Recognising ranks that hang, and examples for C57. *)
From Coq Require Import String.
From Verif Require Import Base BaseFacts Collective CollectiveSpec CollectiveFacts Prop_Collective Prop_CollectiveEval.
Set Implicit Arguments. Unset Strict Implicit.

Section Hang.
Variables text batch desc : Type.
Notation prog := (prog text batch desc).
Notation msg := (msg text batch desc).
Definition waits A (p : prog A) : option kind := match p with Done _ => None | Coll k _ _ => Some k end.
Definition sends A (p : prog A) : msg := match p with Done _ => MNothing | Coll _ m _ => m end.
Definition goes_on A (p : prog A) (ms : list msg) : prog A := match p with Done r => Done r | Coll _ _ next => next ms end.
Definition opt_kind_eqb (a b : option kind) : bool :=
  match a, b with
  | None, None | Some GatherObject, Some GatherObject | Some ReduceSum, Some ReduceSum | Some GatherTensor, Some GatherTensor | Some Barrier, Some Barrier => true
  | _, _ => false
  end.
Fixpoint stuck A (fuel : nat) (ps : list (prog A)) : bool :=
  match fuel with
  | O => false
  | S fuel =>
      match ps with
      | [] => false
      | p :: _ =>
          if forallb (fun q => opt_kind_eqb (waits q) (waits p)) ps
          then match waits p with None => false | Some _ => stuck fuel (map (fun q => goes_on q (map (@sends A) ps)) ps) end
          else true
      end
  end.
Lemma opt_kind_refl k : opt_kind_eqb k k = true.
Proof. destruct k as [[]|]; reflexivity. Qed.
Lemma stuck_hangs A world : forall fuel (P : nat -> prog A), stuck fuel (map P (seq 0 world)) = true -> hangs world P.
Proof.
  induction fuel as [|fuel IH]; intros P H (R & M); [discriminate|]. cbn [stuck] in H.
  destruct (map P (seq 0 world)) as [|p ps] eqn:El; [discriminate|]. rewrite <- El in H.
  assert (W : (0 < world)%nat) by (destruct world; [discriminate|lia]). assert (E0 : p = P 0%nat) by (destruct world; [lia|]; cbn in El; congruence). subst p.
  inversion M as [P' R' E|P' R' k m next E M' ]; subst.
  - assert (X : forallb (fun q => opt_kind_eqb (waits q) (waits (P 0%nat))) (map P (seq 0 world)) = true).
    { apply forallb_forall. intros q I. apply in_map_iff in I. destruct I as (r & <- & I). apply in_seq in I. rewrite !E by lia. reflexivity. }
    rewrite X, E in H by lia. discriminate.
  - assert (X : forallb (fun q => opt_kind_eqb (waits q) (waits (P 0%nat))) (map P (seq 0 world)) = true).
    { apply forallb_forall. intros q I. apply in_map_iff in I. destruct I as (r & <- & I). apply in_seq in I. rewrite !E by lia. apply opt_kind_refl. }
    rewrite X in H. rewrite (E 0%nat W) in H. cbn [waits] in H. rewrite map_map in H.
    assert (Em : map (@sends A) (map P (seq 0 world)) = map m (seq 0 world)).
    { rewrite map_map. apply map_ext_in. intros r I. apply in_seq in I. rewrite E by lia. reflexivity. }
    rewrite Em in H. apply (IH (fun r => goes_on (P r) (map m (seq 0 world)))); [exact H|]. exists R.
    eapply meets_ext; [exact M'| |reflexivity]. intros r Hr. cbn. rewrite (E r Hr). reflexivity.
Qed.
Definition result_of A (p : prog A) : A + failure text desc := match p with Done r => r | Coll _ _ _ => inr Unfinished end.
Fixpoint results A (fuel : nat) (ps : list (prog A)) : list (A + failure text desc) :=
  match fuel with
  | O => []
  | S fuel =>
      match ps with
      | [] => []
      | p :: _ =>
          if forallb (fun q => opt_kind_eqb (waits q) (waits p)) ps
          then match waits p with None => map (@result_of A) ps | Some _ => results fuel (map (fun q => goes_on q (map (@sends A) ps)) ps) end
          else []
      end
  end.
Lemma opt_kind_eq a b : opt_kind_eqb a b = true -> a = b.
Proof. destruct a as [[]|], b as [[]|]; cbn; congruence. Qed.
Lemma results_meets A world : forall fuel (P : nat -> prog A) p rs, results fuel (map P (seq 0 world)) = p :: rs -> meets world P (fun r => nth r (p :: rs) (inr Unfinished)).
Proof.
  induction fuel as [|fuel IH]; intros P x rs H; [discriminate|]. cbn [results] in H.
  destruct (map P (seq 0 world)) as [|p ps] eqn:El; [discriminate|]. rewrite <- El in H.
  assert (W : (0 < world)%nat) by (destruct world; [discriminate|lia]). assert (E0 : p = P 0%nat) by (destruct world; [lia|]; cbn in El; congruence). subst p.
  destruct (forallb _ _) eqn:F; [|discriminate]. rewrite forallb_forall in F.
  assert (K : forall r, (r < world)%nat -> waits (P r) = waits (P 0%nat)). { intros r Hr. apply opt_kind_eq. apply F. apply in_map. apply in_seq. lia. }
  destruct (waits (P 0%nat)) as [k|] eqn:E0.
  - rewrite map_map in H. pose proof (IH (fun r => goes_on (P r) (map (@sends A) (map P (seq 0 world)))) _ _ H) as M.
    eapply m_coll with (k := k) (m := fun r => sends (P r)) (next := fun r => goes_on (P r)).
    + intros r Hr. specialize (K r Hr). destruct (P r); cbn in *; [discriminate|]. injection K as ->. reflexivity.
    + rewrite map_map in M. exact M.
  - rewrite <- H. apply m_done. intros r Hr. rewrite map_map. rewrite nth_indep with (d' := result_of (P 0%nat)) by (rewrite map_length, seq_length; exact Hr).
    rewrite map_nth with (f := fun r => result_of (P r)), seq_nth by exact Hr. cbn. specialize (K r Hr). destruct (P r); [reflexivity|discriminate].
Qed.
End Hang.

(** ** Refuted: what the code does not do *)
Local Open Scope string_scope.
Definition nat_checking (errs : list string) (ok : bool) : checking string nat := {| schema := 7%nat; expected := Some 7%nat; errors := errs; loss_ok := true; finite := ok |}.
Definition quiet : micro string nat nat :=
  {| fetch := None; hook := []; before := nat_checking [] true; sync_grads := true; after := nat_checking [] true; prepared := Some (inl 3%nat); optimizer := None |}.
Definition say (f : failure string nat) : string := match f with Alone e => e | _ => "?" end.
Definition two_steps (xs : nat -> micro string nat nat) := fun r => train_step Nat.eqb 2 "schema" "changed" "loss" "finite" say r [xs r] [].

(** The hypothesis [uniform] of [C57_ranks_step_together] cannot be left out: prepare_commit comes before a collective and its
    exception is only reported after it.  If the call fails on one rank alone, that rank counts the errors of the phase (a reduction)
    while the other one compares the descriptors (a gather): the job hangs or mixes up the messages. *)
Theorem C57_refuted_a_failed_commit_preparation_stops_every_rank :
  ~ (forall xs : nat -> micro string nat nat,
       (forall r, (r < 2)%nat -> xs r = quiet \/ exists e, prepared (xs r) = Some (inr e)) -> ~ hangs 2 (two_steps xs)).
Proof.
  intros H. apply (H (fun r => if (r =? 0)%nat then quiet else
    {| fetch := None; hook := []; before := nat_checking [] true; sync_grads := true; after := nat_checking [] true; prepared := Some (inr "pending tokens"); optimizer := None |})).
  - intros [|r] _; [left; reflexivity|right; eexists; reflexivity].
  - apply stuck_hangs with (fuel := 10%nat). vm_compute. reflexivity.
Qed.

(** A step that is not finite on one rank alone: all ranks stop, but the exception blames all of them. *)
Theorem C57_refuted_the_exception_names_only_ranks_that_are_not_finite :
  ~ (forall (xs : nat -> checking string nat) R who, meets 2 (fun r => step_validity nat Nat.eqb 2 "schema" "changed" "loss" "finite" r (xs r)) R ->
       R 0%nat = inr (Collectively who) -> forall r e, In (r, e) who -> errors (xs r) <> [] \/ finite (xs r) = false).
Proof.
  intros H. set (xs := fun r : nat => nat_checking [] (r =? 0)%nat).
  assert (M := @results_meets string nat nat unit 2 10 (fun r => step_validity nat Nat.eqb 2 "schema" "changed" "loss" "finite" r (xs r))). vm_compute in M.
  destruct (H xs _ _ (M _ _ eq_refl) eq_refl 0%nat ["finite"]) as [A|A]; [left; reflexivity|vm_compute in A; congruence|discriminate].
Qed.

(** ** Examples *)
Definition trouble (r : nat) : micro string nat nat :=
  {| fetch := Some {| first := Item r; advance := None; second := Stop; stage := None; token := Some 4%nat |}; hook := [];
     before := nat_checking [] true; sync_grads := true; after := nat_checking [] true; prepared := Some (inl 3%nat);
     optimizer := if (r =? 1)%nat then Some "out of memory" else None |}.
Definition smooth (r : nat) : micro string nat nat :=
  {| fetch := None; hook := []; before := nat_checking [] true; sync_grads := false; after := nat_checking [] true; prepared := None; optimizer := None |}.
(** Three ranks, two micro-steps; the optimizer of rank 1 runs out of memory in the second. *)
Example steps_are_uniform : Forall (uniform 3) [smooth; trouble] /\ fine 3 smooth /\ ~ fine 3 trouble.
Proof.
  split; [|split].
  - constructor; [|constructor; [|constructor]].
    + split; [left; reflexivity|]. split; [right; discriminate|]. split; [right; discriminate|]. split; [left; reflexivity|reflexivity].
    + split; [right|].
      * exists (fun r => {| first := Item r; advance := None; second := Stop; stage := None; token := Some 4%nat |}). split; [reflexivity|]. split; [discriminate|]. split; [reflexivity|]. right. discriminate.
      * split; [right; discriminate|]. split; [right; discriminate|]. split; [|reflexivity]. right. left. intros r _. exists 3%nat. reflexivity.
  - split; [intros f H; specialize (H 0%nat ltac:(lia)); discriminate|]. repeat split; intros; try reflexivity; discriminate.
  - intros (_ & _ & _ & _ & H). specialize (H 1%nat ltac:(lia)). discriminate.
Qed.
Example one_rank_stops_three :
  results 30 (map (fun r => train_step Nat.eqb 3 "schema" "changed" "loss" "finite" say r [smooth r; trouble r] []) (seq 0 3))
  = repeat (inr (Collectively [(1%nat, ["out of memory"])])) 3.
Proof. vm_compute. reflexivity. Qed.
(** Ranks with 3, 1 and no batches; then at most two each; then a loader that breaks. *)
Definition share (r : nat) : loader string nat := {| creation := None; items := nth r [[1; 2; 3]; [4]; []]%nat []; breaks := None |}.
Example uneven_shares :
  results 30 (map (fun r => uneven_batches nat 3 5 r None (share r)) (seq 0 3))
  = [inl ([(1, true); (2, true); (3, true)], None); inl ([(4, true); (4, false); (4, false)], None); inl ([(1, false); (1, false); (1, false)], None)]%nat.
Proof. vm_compute. reflexivity. Qed.
Example uneven_shares_cut :
  results 30 (map (fun r => uneven_batches nat 3 5 r (Some 2%nat) (share r)) (seq 0 3))
  = [inl ([(1, true); (2, true)], None); inl ([(4, true); (4, false)], None); inl ([(1, false); (1, false)], None)]%nat.
Proof. vm_compute. reflexivity. Qed.
Definition breaking (r : nat) : loader string nat := {| creation := None; items := nth r [[1; 2; 3]; [4]]%nat []; breaks := if (r =? 1)%nat then Some "disk" else None |}.
Example breaking_share :
  results 30 (map (fun r => uneven_batches nat 2 5 r None (breaking r)) (seq 0 2))
  = [inl ([(1, true)], Some (Collectively [(1%nat, ["disk"])])); inl ([(4, true)], Some (Collectively [(1%nat, ["disk"])]))]%nat.
Proof. vm_compute. reflexivity. Qed.
Example breaking_share_of_a_plan :
  results 30 (map (fun r => planned_batches nat 2 5 r None (breaking r)) (seq 0 2))
  = [inl ([(1, true)], Some (Collectively [(1%nat, ["disk"])])); inl ([(4, true)], Some (Collectively [(1%nat, ["disk"])]))]%nat.
Proof. vm_compute. reflexivity. Qed.
Example shares_of_a_plan_cut :
  results 30 (map (fun r => planned_batches nat 2 5 r (Some 1%nat) (breaking r)) (seq 0 2)) = [inl ([(1, true)], None); inl ([(4, true)], None)]%nat.
Proof. vm_compute. reflexivity. Qed.
(** Saving: the directory cannot be made on rank 2. *)
Example saving_with_three_ranks :
  results 30 (map (fun r => save_checkpoint nat nat 3 (inl tt) None r
     {| flush := None; saves_state := true; exists_already := false; collision := inl tt; directory := if (r =? 2)%nat then inr "read-only" else inl tt;
        sidecar := inl tt; continuation := inl tt; sidecar_check := inl tt; commit := None |}) (seq 0 3))
  = repeat (inr (Collectively [(2%nat, ["read-only"])])) 3.
Proof. vm_compute. reflexivity. Qed.
