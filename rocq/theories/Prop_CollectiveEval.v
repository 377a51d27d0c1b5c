(** C57, continued: the ranks of an evaluation. *)
From Verif Require Import Base BaseFacts Collective CollectiveSpec CollectiveFacts.
Set Implicit Arguments. Unset Strict Implicit.

Section Ranks.
Variables text batch desc : Type.
Notation prog := (prog text batch desc).
Notation failure := (failure text desc).
Variable world : nat.
Hypothesis some_rank : (0 < world)%nat.
Notation meets := (@meets text batch desc world).
Notation reports := (reports world).
Local Notation "'ranks' '(' 'fun' r '=>' P ')'" := (forall r : nat, (r < world)%nat -> P) (at level 0, r name, P at level 200).
Notation tag := (map (fun b : batch => (b, true))).

Lemma meets_after (out : nat -> yields batch) (errs : nat -> list text) (k : nat -> prog (yields batch * option failure)) T :
  (empty (reports errs) = false -> ranks (fun r => T r = inl (out r, Some (Collectively (reports errs))))) ->
  (empty (reports errs) = true -> meets k T) -> meets (fun r => after_phase world (out r) r (errs r) (k r)) T.
Proof.
  intros H1 H2. unfold after_phase. eapply meets_bind with (R := fun r => if empty (reports errs) then inl None else inl (Some (Collectively (reports errs)))).
  - eapply meets_catch with (R := fun r => if empty (reports errs) then inl None else inr (Collectively (reports errs))).
    + eapply meets_bind; [apply meets_phase; exact some_rank|]. destruct (empty (reports errs)); apply meets_done.
    + destruct (empty (reports errs)); apply meets_done.
  - destruct (empty (reports errs)).
    + apply H2. reflexivity.
    + apply m_done. intros r Hr. rewrite (H1 eq_refl r Hr). reflexivity.
Qed.
Lemma decide_ranks (b : nat -> bool) : (exists r, (r < world)%nat /\ b r = true) \/ ranks (fun r => b r = false).
Proof.
  destruct (existsb b (seq 0 world)) eqn:E.
  - left. apply existsb_exists in E. destruct E as (r & I & B). apply in_seq in I. exists r. split; [lia|exact B].
  - right. intros r Hr. destruct (b r) eqn:B; [|reflexivity]. assert (X : existsb b (seq 0 world) = true) by (apply existsb_exists; exists r; split; [apply in_seq; lia|exact B]). congruence.
Qed.
Lemma up_all (b : nat -> bool) : (List.length (filter (fun r => Bool.eqb (b r) true) (seq 0 world)) =? world)%nat = true <-> ranks (fun r => b r = true).
Proof.
  destruct (filter_len_all (fun r => Bool.eqb (b r) true) (seq 0 world)) as (_ & E). rewrite seq_length in E. rewrite Nat.eqb_eq, E, forall_seq.
  split; intros H r Hr; specialize (H r Hr); destruct (b r); auto; discriminate.
Qed.
Lemma up_none (b : nat -> bool) : empty (filter (fun r => Bool.eqb (b r) true) (seq 0 world)) = true <-> ranks (fun r => b r = false).
Proof.
  rewrite empty_filter. split; intros H r Hr.
  - assert (I : In r (seq 0 world)) by (apply in_seq; lia). specialize (H r I). destruct (b r); [discriminate|reflexivity].
  - apply in_seq in Hr. rewrite H by lia. reflexivity.
Qed.
Definition is_item (p : pull text batch) : bool := match p with Item _ => true | _ => false end.
Definition stopped (limit : option nat) (index : nat) : bool := match limit with Some n => (n <=? index)%nat | None => false end.

(** ** Data sets with a plan *)
Definition less (limit : option nat) (index : nat) : option nat := option_map (fun n => (n - index)%nat) limit.
Lemma cut_cons limit index (b : batch) l : stopped limit index = false -> cut (less limit index) (b :: l) = b :: cut (less limit (S index)) l.
Proof.
  unfold stopped, less, cut. destruct limit as [n|]; cbn; [|reflexivity]. intros H. apply Nat.leb_gt in H.
  replace (n - index)%nat with (S (n - S index))%nat by lia. reflexivity.
Qed.
Lemma break_cons limit index (b : batch) l (brk : option text) : stopped limit index = false -> at_break (less limit index) (b :: l) brk = at_break (less limit (S index)) l brk.
Proof.
  unfold stopped, less, at_break. destruct brk; [|reflexivity]. destruct limit as [n|]; cbn [option_map List.length]; [|reflexivity]. intros H. apply Nat.leb_gt in H.
  apply eq_iff_eq_true. rewrite !Nat.ltb_lt. lia.
Qed.
Lemma cut_stopped limit index (l : list batch) : stopped limit index = true -> cut (less limit index) l = [].
Proof. unfold stopped, less, cut. destruct limit as [n|]; cbn; [|discriminate]. intros H. apply Nat.leb_le in H. replace (n - index)%nat with 0%nat by lia. reflexivity. Qed.
Lemma break_stopped limit index (l : list batch) (brk : option text) : stopped limit index = true -> at_break (less limit index) l brk = false.
Proof. unfold stopped, less, at_break. destruct brk; [|reflexivity]. destruct limit as [n|]; cbn; [|discriminate]. intros H. apply Nat.leb_le in H. apply Nat.ltb_ge. lia. Qed.
Lemma cut_nil limit : cut limit (@nil batch) = [].
Proof. destruct limit as [[|n]|]; reflexivity. Qed.
Lemma break_nil limit index (brk : option text) : stopped limit index = false -> (at_break (less limit index) (@nil batch) brk = false <-> brk = None).
Proof.
  unfold stopped, less, at_break. destruct brk; [|tauto]. destruct limit as [n|]; cbn; [|split; discriminate]. intros H. apply Nat.leb_gt in H.
  destruct (n - index)%nat eqn:E; [lia|]. cbn. split; discriminate.
Qed.

Lemma planned_loop (brk : nat -> option text) limit : forall fuel index (l : nat -> list batch) (out : nat -> yields batch),
  ranks (fun r => (List.length (l r) < fuel)%nat) ->
  exists n o, meets (fun r => planned desc world fuel r limit index (l r) (brk r) (out r)) (fun r => inl (out r ++ tag (firstn n (l r)), o))
    /\ ranks (fun r => (n <= List.length (cut (less limit index) (l r)))%nat) /\ o <> Some Unfinished
    /\ (o = None <-> ranks (fun r => at_break (less limit index) (l r) (brk r) = false /\ List.length (cut (less limit index) (l r)) = List.length (cut (less limit index) (l 0%nat))))
    /\ (o = None -> ranks (fun r => List.length (cut (less limit index) (l r)) = n)).
Proof.
  induction fuel as [|fuel IH]; intros index l out Hf; [specialize (Hf 0%nat some_rank); lia|].
  cbn [planned]. fold (stopped limit index). destruct (stopped limit index) eqn:Es.
  { exists 0%nat, None. split; [apply m_done; intros r _; cbn; rewrite app_nil_r; reflexivity|]. split; [intros r _; lia|]. split; [discriminate|].
    split; [split; [|reflexivity]|]; intros _ r _; rewrite !cut_stopped by exact Es; [|reflexivity]. split; [apply break_stopped; exact Es|reflexivity]. }
  set (p := fun r => next_item (l r) (brk r)).
  assert (Brk : forall r, error_list (p r) = [] -> is_item (p r) = false -> l r = [] /\ brk r = None).
  { intros r. unfold p, next_item. destruct (l r); [|discriminate]. destruct (brk r); [discriminate|auto]. }
  destruct (empty (reports (fun r => error_list (p r)))) eqn:Er.
  2:{ exists 0%nat, (Some (Collectively (reports (fun r => error_list (p r))))). split; [|split; [|split; [|split; [|discriminate]]]].
      - apply meets_after with (errs := fun r => error_list (p r)); [|rewrite Er; discriminate]. intros _ r _. cbn. rewrite app_nil_r. reflexivity.
      - intros r _. lia.
      - discriminate.
      - split; [discriminate|]. intros H. exfalso. assert (X : empty (reports (fun r => error_list (p r))) = true); [|congruence].
        apply reports_none. intros r Hr. destruct (H r Hr) as (B & _). unfold p, next_item in *. destruct (l r) as [|b q]; [|reflexivity].
        apply break_nil in B; [|exact Es]. rewrite B. reflexivity. }
  pose proof (proj1 (reports_none world _) Er) as Ne.
  assert (K : exists n o, meets (fun r => pbind (if (world =? 1)%nat then ret [MFlag (is_item (p r))] else exchange GatherTensor (MFlag (is_item (p r)))) (fun ms =>
          let up := ranks_with true (flags_of ms) in
          if empty up then ret (out r, None)
          else if negb (List.length up =? world)%nat then ret (out r, Some (NoBatch up))
          else match p r with
               | Item b => planned desc world fuel r limit (S index) (tl (l r)) (brk r) (out r ++ [(b, true)])
               | _ => ret (out r, Some Unfinished)
               end)) (fun r => inl (out r ++ tag (firstn n (l r)), o))
    /\ ranks (fun r => (n <= List.length (cut (less limit index) (l r)))%nat) /\ o <> Some Unfinished
    /\ (o = None <-> ranks (fun r => at_break (less limit index) (l r) (brk r) = false /\ List.length (cut (less limit index) (l r)) = List.length (cut (less limit index) (l 0%nat))))
    /\ (o = None -> ranks (fun r => List.length (cut (less limit index) (l r)) = n))).
  2:{ destruct K as (n & o & M & H). exists n, o. split; [|exact H]. apply meets_after with (errs := fun r => error_list (p r)); [rewrite Er; discriminate|]. intros _. exact M. }
  set (up := filter (fun r => Bool.eqb (is_item (p r)) true) (seq 0 world)).
  destruct (empty up) eqn:Eu; [|destruct (List.length up =? world)%nat eqn:El].
  - pose proof (proj1 (up_none _) Eu) as U. exists 0%nat, None. split; [|split; [|split; [|split]]].
    + apply meets_maybe with (m := fun r => MFlag (is_item (p r))); [exact some_rank|]. rewrite flags_of_map, ranks_with_map. fold up. cbv zeta. rewrite Eu. apply m_done. intros r _. cbn. rewrite app_nil_r. reflexivity.
    + intros r _. lia.
    + discriminate.
    + split; [|reflexivity]. intros _ r Hr. destruct (Brk r (Ne r Hr) (U r Hr)) as (El & Eb). destruct (Brk _ (Ne _ some_rank) (U _ some_rank)) as (El' & _). rewrite El, El', Eb, cut_nil. split; reflexivity.
    + intros _ r Hr. destruct (Brk r (Ne r Hr) (U r Hr)) as (El & _). rewrite El, cut_nil. reflexivity.
  - pose proof (proj1 (up_all _) El) as U.
    assert (X : ranks (fun r => exists b q, l r = b :: q)). { intros r Hr. specialize (U r Hr). unfold p, next_item in U. destruct (l r); [destruct (brk r); discriminate|eauto]. }
    destruct (IH (S index) (fun r => tl (l r)) (fun r => match l r with b :: _ => out r ++ [(b, true)] | [] => out r end)) as (n & o & M & N & O & G & F).
    { intros r Hr. specialize (Hf r Hr). destruct (X r Hr) as (b & q & E). rewrite E in *. cbn in *. lia. }
    exists (S n), o. split; [|split; [|split; [|split]]].
    + apply meets_maybe with (m := fun r => MFlag (is_item (p r))); [exact some_rank|]. rewrite flags_of_map, ranks_with_map. fold up. cbv zeta. rewrite Eu, El. cbn [negb].
      eapply meets_ext; [exact M| |]; intros r Hr; destruct (X r Hr) as (b & q & E); unfold p; rewrite E; cbn; [reflexivity|]. rewrite <- app_assoc. reflexivity.
    + intros r Hr. specialize (N r Hr). destruct (X r Hr) as (b & q & E). rewrite E in *. rewrite cut_cons by exact Es. cbn in *. lia.
    + exact O.
    + rewrite G. destruct (X 0%nat some_rank) as (b0 & q0 & E0). rewrite E0. cbn [tl]. rewrite (cut_cons b0 q0 Es).
      split; intros H r Hr; specialize (H r Hr); destruct (X r Hr) as (b & q & E); rewrite E in *; cbn [tl] in *; rewrite (cut_cons b q Es), (break_cons b q (brk r) Es) in *; cbn in *; destruct H; split; auto; lia.
    + intros E r Hr. specialize (F E r Hr). destruct (X r Hr) as (b & q & E'). rewrite E' in *. rewrite (cut_cons b q Es). cbn in *. lia.
  - exists 0%nat, (Some (NoBatch up)). split; [|split; [|split; [|split; [|discriminate]]]].
    + apply meets_maybe with (m := fun r => MFlag (is_item (p r))); [exact some_rank|]. rewrite flags_of_map, ranks_with_map. fold up. cbv zeta. rewrite Eu, El. apply m_done. intros r _. cbn. rewrite app_nil_r. reflexivity.
    + intros r _. lia.
    + discriminate.
    + split; [discriminate|]. intros H. exfalso.
      assert (Z0 : is_item (p 0%nat) = true \/ is_item (p 0%nat) = false) by (destruct (is_item (p 0%nat)); auto).
      assert (It : forall r, is_item (p r) = match l r with [] => false | _ => true end) by (intros r; unfold p, next_item; destruct (l r); [destruct (brk r)|]; reflexivity).
      assert (Le : forall r, (match l r with [] => false | _ => true end) = negb (List.length (cut (less limit index) (l r)) =? 0)%nat).
      { intros r. destruct (l r) as [|b q]; [rewrite cut_nil; reflexivity|]. rewrite (cut_cons b q Es). reflexivity. }
      destruct Z0 as [Z0|Z0].
      * assert (A : ranks (fun r => is_item (p r) = true)) by (intros r Hr; destruct (H r Hr) as (_ & L); rewrite It, Le, L, <- Le, <- It; exact Z0). apply up_all in A. fold up in A. congruence.
      * assert (A : ranks (fun r => is_item (p r) = false)) by (intros r Hr; destruct (H r Hr) as (_ & L); rewrite It, Le, L, <- Le, <- It; exact Z0). apply up_none in A. fold up in A. congruence.
Qed.

(** Every rank gets batches of its own, the same number on all of them; all end with the same exception or without one: the latter
    exactly if all loaders work and have the same number of batches (up to the limit), and then everybody has got all of them. *)
Theorem C57_ranks_evaluate_a_plan_together : forall (limit : option nat) (x : nat -> loader text batch) fuel,
  ranks (fun r => (List.length (items (x r)) < fuel)%nat) ->
  exists n o, meets (fun r => planned_batches desc world fuel r limit (x r)) (fun r => inl (tag (firstn n (items (x r))), o))
    /\ ranks (fun r => (n <= List.length (cut limit (items (x r))))%nat) /\ o <> Some Unfinished
    /\ (o = None <-> ranks (fun r => loads limit (x r)) /\ ranks (fun r => List.length (cut limit (items (x r))) = List.length (cut limit (items (x 0%nat)))))
    /\ (o = None -> ranks (fun r => firstn n (items (x r)) = cut limit (items (x r)))).
Proof.
  intros limit x fuel Hf. unfold planned_batches.
  assert (L0 : less limit 0 = limit) by (destruct limit; cbn; f_equal; lia).
  set (errs := fun r => match creation (x r) with Some e => [e] | None => [] end).
  destruct (empty (reports errs)) eqn:Er.
  - pose proof (proj1 (reports_none world _) Er) as Ne.
    destruct (@planned_loop (fun r => breaks (x r)) limit fuel 0 (fun r => items (x r)) (fun _ => []) Hf) as (n & o & M & N & O & G & F). rewrite L0 in *.
    exists n, o. split; [|split; [exact N|split; [exact O|split]]].
    + apply meets_after with (out := fun _ => []) (errs := errs); [rewrite Er; discriminate|]. intros _. exact M.
    + rewrite G. unfold loads. split.
      * intros H. split; intros r Hr; destruct (H r Hr) as (A & B); [|exact B].
        split; [|exact A]. specialize (Ne r Hr). unfold errs in Ne. destruct (creation (x r)); [discriminate|reflexivity].
      * intros (A & B) r Hr. split; [apply A; exact Hr|apply B; exact Hr].
    + intros E r Hr. specialize (F E r Hr). rewrite <- F. destruct limit as [m|]; cbn [cut]; [|apply firstn_all].
      rewrite firstn_length. destruct (Nat.le_ge_cases m (List.length (items (x r)))); [f_equal; lia|]. rewrite Nat.min_r by assumption. rewrite firstn_all. symmetry. apply firstn_all2. exact H.
  - exists 0%nat, (Some (Collectively (reports errs))). split; [|split; [|split; [|split]]].
    + apply meets_after with (out := fun _ => []) (errs := errs); [|rewrite Er; discriminate]. intros _ r _. reflexivity.
    + intros r _. lia.
    + discriminate.
    + split; [discriminate|]. intros (A & _). exfalso. assert (X : empty (reports errs) = true); [|congruence]. apply reports_none. intros r Hr. unfold errs. rewrite (proj1 (A r Hr)). reflexivity.
    + discriminate.
Qed.

(** ** Other data sets *)
Lemma up_some (b : nat -> bool) : empty (filter (fun r => Bool.eqb (b r) true) (seq 0 world)) = false -> exists r, (r < world)%nat /\ b r = true.
Proof. intros H. destruct (decide_ranks b) as [D|D]; [exact D|]. apply up_none in D. congruence. Qed.
Lemma uneven_loop (brk : nat -> option text) (known : batch -> Prop) limit : forall fuel index (real : nat -> nat) (l : nat -> list batch) (last : nat -> option batch) (out : nat -> yields batch),
  ranks (fun r => (List.length (cut (less limit (real r)) (l r)) < fuel)%nat) ->
  ranks (fun r => (match last r with None => index = 0%nat | Some b => known b end)) ->
  ranks (fun r => Forall known (l r)) ->
  exists n o more, meets (fun r => uneven desc world fuel r limit index (real r) (l r) (brk r) (last r) (out r)) (fun r => inl (out r ++ more r, o))
    /\ ranks (fun r => delivered n (cut (less limit (real r)) (l r)) known (more r)) /\ o <> Some Unfinished
    /\ (o = None <-> ranks (fun r => at_break (less limit (real r)) (l r) (brk r) = false))
    /\ (exists r, (r < world)%nat /\ (n <= List.length (cut (less limit (real r)) (l r)))%nat)
    /\ (o = None -> ranks (fun r => (List.length (cut (less limit (real r)) (l r)) <= n)%nat)).
Proof.
  induction fuel as [|fuel IH]; intros index real l last out Hf Hl Hk; [specialize (Hf 0%nat some_rank); lia|].
  cbn [uneven].
  set (p := fun r => if stopped limit (real r) then Stop else next_item (l r) (brk r)).
  assert (Item_ : forall r, is_item (p r) = true -> exists b q, l r = b :: q /\ stopped limit (real r) = false /\ p r = Item b).
  { intros r. unfold p, next_item. destruct (stopped limit (real r)); [discriminate|]. destruct (l r) as [|b q]; [destruct (brk r); discriminate|]. intros _. exists b, q. auto. }
  assert (Not_ : forall r, is_item (p r) = false -> cut (less limit (real r)) (l r) = [] /\ (error_list (p r) = [] <-> at_break (less limit (real r)) (l r) (brk r) = false)).
  { intros r. unfold p, next_item. destruct (stopped limit (real r)) eqn:Es; [intros _; rewrite cut_stopped, break_stopped by exact Es; split; [reflexivity|split; reflexivity]|].
    destruct (l r) as [|b q]; [|discriminate]. intros _. rewrite cut_nil, break_nil by exact Es. split; [reflexivity|]. destruct (brk r); cbn; split; congruence. }
  destruct (empty (reports (fun r => error_list (p r)))) eqn:Er.
  2:{ exists 0%nat, (Some (Collectively (reports (fun r => error_list (p r))))), (fun _ => []). split; [|split; [|split; [|split; [|split]]]].
      - apply meets_after with (errs := fun r => error_list (p r)); [|rewrite Er; discriminate]. intros _ r _. cbn. rewrite app_nil_r. reflexivity.
      - intros r _. exists []. split; [reflexivity|]. split; [reflexivity|constructor].
      - discriminate.
      - split; [discriminate|]. intros H. exfalso. assert (X : empty (reports (fun r => error_list (p r))) = true); [|congruence].
        apply reports_none. intros r Hr. destruct (is_item (p r)) eqn:I; [destruct (p r); try discriminate; reflexivity|]. apply Not_; auto.
      - exists 0%nat. split; [exact some_rank|lia].
      - discriminate. }
  pose proof (proj1 (reports_none world _) Er) as Ne.
  set (up := filter (fun r => Bool.eqb (is_item (p r)) true) (seq 0 world)).
  set (more_batches := (index =? 0)%nat && negb (List.length up =? world)%nat).
  set (firsts := map (fun r => @MBatch text batch desc (match p r with Item b => Some b | _ => None end)) (seq 0 world)).
  set (K := fun (r : nat) (ms : list (msg text batch desc)) => match p r with
          | Item b => uneven desc world fuel r limit (S index) (S (real r)) (tl (l r)) (brk r) (Some b) (out r ++ [(b, true)])
          | _ =>
              match last r, batches_of ms with
              | Some b, _ | None, b :: _ => uneven desc world fuel r limit (S index) (real r) (l r) (brk r) (Some b) (out r ++ [(b, false)])
              | None, [] => ret (out r, Some Unfinished)
              end
          end).
  assert (Red : forall T, (if empty up then ranks (fun r => T r = inl (out r, None)) else meets (fun r => K r (if more_batches then firsts else [])) T) ->
    meets (fun r => after_phase world (out r) r (error_list (p r)) (pbind (exchange GatherTensor (MFlag (is_item (p r)))) (fun ms =>
        let up := ranks_with true (flags_of ms) in
        if empty up then ret (out r, None)
        else
          pbind (if (index =? 0)%nat && negb (List.length up =? world)%nat
                 then exchange GatherObject (MBatch (match p r with Item b => Some b | _ => None end))
                 else ret []) (K r)))) T).
  { intros T HT. apply meets_after with (errs := fun r => error_list (p r)); [rewrite Er; discriminate|]. intros _.
    apply meets_exchange with (m := fun r => MFlag (is_item (p r))). rewrite flags_of_map, ranks_with_map. fold up. cbv zeta. destruct (empty up).
    - apply m_done. intros r Hr. rewrite (HT r Hr). reflexivity.
    - fold more_batches. destruct more_batches; [|exact HT]. apply meets_exchange with (m := fun r => MBatch (match p r with Item b => Some b | _ => None end)). exact HT. }
  assert (Fin : exists n o more, (if empty up then ranks (fun r => inl (out r ++ more r, o) = inl (out r, None) :> (yields batch * option failure) + failure) else meets (fun r => K r (if more_batches then firsts else [])) (fun r => inl (out r ++ more r, o)))
    /\ ranks (fun r => delivered n (cut (less limit (real r)) (l r)) known (more r)) /\ o <> Some Unfinished
    /\ (o = None <-> ranks (fun r => at_break (less limit (real r)) (l r) (brk r) = false))
    /\ (exists r, (r < world)%nat /\ (n <= List.length (cut (less limit (real r)) (l r)))%nat)
    /\ (o = None -> ranks (fun r => (List.length (cut (less limit (real r)) (l r)) <= n)%nat))).
  2:{ destruct Fin as (n & o & more & M & H). exists n, o, more. split; [|exact H]. apply Red. exact M. }
  clear Red. destruct (empty up) eqn:Eu.
  - pose proof (proj1 (up_none _) Eu) as U. exists 0%nat, None, (fun _ => []). split; [intros r _; rewrite app_nil_r; reflexivity|]. split; [|split; [|split; [|split]]].
    + intros r _. exists []. split; [reflexivity|]. split; [reflexivity|constructor].
    + discriminate.
    + split; [|reflexivity]. intros _ r Hr. apply Not_; auto.
    + exists 0%nat. split; [exact some_rank|lia].
    + intros _ r Hr. rewrite (proj1 (Not_ r (U r Hr))). cbn. lia.
  - destruct (up_some Eu) as (r0 & Hr0 & I0).
    (* the batch a rank without its own repeats *)
    assert (D : exists d, ranks (fun r => is_item (p r) = false -> known (d r) /\ K r (if more_batches then firsts else []) = uneven desc world fuel r limit (S index) (real r) (l r) (brk r) (Some (d r)) (out r ++ [(d r, false)]))).
    { destruct (Item_ r0 I0) as (b0 & _ & _ & _ & E0).
      exists (fun r => match last r with Some b => b | None => match batches_of (if more_batches then firsts else []) with b :: _ => b | [] => b0 end end).
      intros r Hr Ir. unfold K. specialize (Hl r Hr). destruct (last r) as [b|] eqn:Ela; [split; [exact Hl|destruct (p r); [discriminate| |]; reflexivity]|].
      assert (Mb : more_batches = true).
      { unfold more_batches. rewrite Hl. cbn. destruct (List.length up =? world)%nat eqn:E; [|reflexivity]. pose proof (proj1 (up_all _) E r Hr). congruence. }
      rewrite Mb. destruct (batches_of firsts) as [|b bs] eqn:Eb.
      - exfalso. assert (X : In b0 (batches_of firsts)); [|rewrite Eb in X; exact X]. unfold batches_of, firsts. apply List.in_flat_map.
        exists (MBatch (Some b0)). split; [|left; reflexivity]. apply in_map_iff. exists r0. rewrite E0. split; [reflexivity|apply in_seq; lia].
      - split; [|destruct (p r); [discriminate| |]; reflexivity]. assert (X : In b (batches_of firsts)) by (rewrite Eb; left; reflexivity). unfold batches_of, firsts in X. apply List.in_flat_map in X.
        destruct X as (m & Im & Ib). apply in_map_iff in Im. destruct Im as (q & <- & Iq). destruct (p q) as [b'| |] eqn:Eq; try destruct Ib. subst b'.
        2: destruct H. apply in_seq in Iq. assert (Hq : (q < world)%nat) by lia. destruct (Item_ q) as (b' & q' & El & _ & Ep); [rewrite Eq; reflexivity|]. rewrite Eq in Ep. injection Ep as ->.
        specialize (Hk q Hq). rewrite El in Hk. inversion Hk; assumption. }
    destruct D as (d & D).
    set (real' := fun r => if is_item (p r) then S (real r) else real r). set (l' := fun r => if is_item (p r) then tl (l r) else l r).
    set (x := fun r => match p r with Item b => (b, true) | _ => (d r, false) end).
    assert (C : ranks (fun r => cut (less limit (real r)) (l r) = (if is_item (p r) then [fst (x r)] else []) ++ cut (less limit (real' r)) (l' r)
                  /\ at_break (less limit (real' r)) (l' r) (brk r) = at_break (less limit (real r)) (l r) (brk r))).
    { intros r Hr. unfold real', l', x. destruct (is_item (p r)) eqn:I; [|split; reflexivity]. destruct (Item_ r I) as (b & q & El & Es & ->). rewrite El. cbn [tl].
      rewrite (cut_cons b q Es), (break_cons b q (brk r) Es). split; reflexivity. }
    destruct (IH (S index) real' l' (fun r => Some (fst (x r))) (fun r => out r ++ [x r])) as (n & o & more & M & De & O & G & (r1 & Hr1 & N1) & F).
    { intros r Hr. destruct (is_item (p r)) eqn:I.
      - specialize (Hf r Hr). destruct (C r Hr) as (C1 & _). rewrite C1, I, app_length in Hf. cbn in Hf. lia.
      - specialize (Hf r0 Hr0). destruct (C r0 Hr0) as (C1 & _). rewrite C1, I0, app_length in Hf. unfold real', l'. rewrite I, (proj1 (Not_ r I)). cbn in *. lia. }
    { intros r Hr. unfold x. destruct (is_item (p r)) eqn:I.
      - destruct (Item_ r I) as (b & q & El & _ & ->). specialize (Hk r Hr). rewrite El in Hk. inversion Hk; assumption.
      - destruct (D r Hr I) as (Kd & _). destruct (p r); [discriminate| |]; exact Kd. }
    { intros r Hr. unfold l'. specialize (Hk r Hr). destruct (is_item (p r)); [|exact Hk]. destruct (l r); [exact Hk|inversion Hk; assumption]. }
    exists (S n), o, (fun r => x r :: more r). split; [|split; [|split; [exact O|split; [|split]]]].
    + eapply meets_ext; [exact M| |]; intros r Hr; cbn beta; [|rewrite <- app_assoc; reflexivity]. unfold K, real', l', x. destruct (is_item (p r)) eqn:I.
      * destruct (Item_ r I) as (b & q & El & _ & ->). reflexivity.
      * destruct (D r Hr I) as (_ & E). unfold K in E. rewrite E. destruct (p r); [discriminate| |]; reflexivity.
    + intros r Hr. destruct (De r Hr) as (pad & Em & Lm & Kp). destruct (C r Hr) as (C1 & _). unfold delivered. unfold x in *. destruct (is_item (p r)) eqn:I.
      * destruct (Item_ r I) as (b & q & El & _ & Ep). rewrite Ep in *. cbn in C1. exists pad. rewrite C1. cbn. rewrite Em. cbn in *. rewrite <- Em, Lm. auto.
      * destruct (Not_ r I) as (Cn & _). exists (d r :: pad). cbn in C1. rewrite <- C1, Cn in Em. destruct n; rewrite Cn; cbn in *; rewrite Em; (split; [destruct (p r); [discriminate| |]; reflexivity|]); rewrite Em in Lm; cbn in *; rewrite Lm; (split; [reflexivity|]); (constructor; [apply (D r Hr I)|exact Kp]).
    + rewrite G. split; intros H r Hr; specialize (H r Hr); destruct (C r Hr) as (_ & E); congruence.
    + destruct (is_item (p r1)) eqn:I.
      * exists r1. split; [exact Hr1|]. destruct (C r1 Hr1) as (-> & _). rewrite I. cbn. lia.
      * exists r0. split; [exact Hr0|]. destruct (C r0 Hr0) as (-> & _). rewrite I0. cbn. destruct (C r1 Hr1) as (C1 & _). rewrite I, (proj1 (Not_ r1 I)) in C1. cbn in C1. rewrite <- C1 in N1. cbn in N1. lia.
    + intros E r Hr. specialize (F E r Hr). destruct (C r Hr) as (-> & _). rewrite app_length. destruct (is_item (p r)); cbn; lia.
Qed.

Lemma alone_is (brk : option text) : forall l limit (out : yields batch),
  alone desc limit l brk out = (out ++ tag (cut limit l), if at_break limit l brk then option_map Alone brk else None).
Proof.
  induction l as [|b l IH]; intros limit out.
  - destruct limit as [[|n]|]; cbn; rewrite app_nil_r; destruct brk; reflexivity.
  - destruct limit as [[|n]|]; cbn [alone].
    + cbn. rewrite app_nil_r. destruct brk; reflexivity.
    + rewrite IH. cbn. rewrite <- app_assoc. destruct brk; reflexivity.
    + rewrite IH. cbn. rewrite <- app_assoc. destruct brk; reflexivity.
Qed.
Lemma delivered_all (l : list batch) known : delivered (List.length l) l known (tag l).
Proof. exists []. rewrite app_nil_r, firstn_all, map_length. split; [reflexivity|]. split; [reflexivity|constructor]. Qed.

(** Every rank gets its own batches, and after them - as long as another rank has some - batches of some rank that it must not
    count, so that all make the same number of steps; all end with the same exception or without one: the latter exactly if all
    loaders work, and then everybody has got all of its batches (up to the limit), and there was no step without a batch. *)
Theorem C57_ranks_evaluate_together : forall (limit : option nat) (x : nat -> loader text batch) fuel,
  ranks (fun r => (List.length (cut limit (items (x r))) < fuel)%nat) ->
  exists n o out, meets (fun r => uneven_batches desc world fuel r limit (x r)) (fun r => inl (out r, o))
    /\ ranks (fun r => delivered n (cut limit (items (x r))) (fun b => exists q, (q < world)%nat /\ In b (items (x q))) (out r))
    /\ (exists r, (r < world)%nat /\ (n <= List.length (cut limit (items (x r))))%nat)
    /\ o <> Some Unfinished
    /\ (o = None <-> ranks (fun r => loads limit (x r)))
    /\ (o = None -> ranks (fun r => (List.length (cut limit (items (x r))) <= n)%nat)).
Proof.
  intros limit x fuel Hf. unfold uneven_batches. set (known := fun b => exists q, (q < world)%nat /\ In b (items (x q))).
  assert (D0 : forall l, delivered 0 l known []) by (intros l; exists []; split; [reflexivity|]; split; [reflexivity|constructor]).
  destruct (world =? 1)%nat eqn:E1.
  - apply Nat.eqb_eq in E1. destruct (creation (x 0%nat)) as [e|] eqn:Ec.
    + exists 0%nat, (Some (Alone e)), (fun _ => []). split; [apply m_done; intros r Hr; replace r with 0%nat by lia; rewrite Ec; reflexivity|]. split; [intros r _; apply D0|].
      split; [exists 0%nat; split; [exact some_rank|lia]|]. split; [discriminate|]. split; [|discriminate]. split; [discriminate|]. intros H. destruct (H 0%nat some_rank) as (C & _). congruence.
    + exists (List.length (cut limit (items (x 0%nat)))), (if at_break limit (items (x 0%nat)) (breaks (x 0%nat)) then option_map Alone (breaks (x 0%nat)) else None), (fun r => tag (cut limit (items (x r)))).
      split; [apply m_done; intros r Hr; replace r with 0%nat by lia; rewrite Ec, alone_is; reflexivity|].
      split; [intros r Hr; replace r with 0%nat by lia; apply delivered_all|]. split; [exists 0%nat; split; [exact some_rank|lia]|].
      split; [destruct (at_break _ _ _); [destruct (breaks (x 0%nat)); discriminate|discriminate]|]. split; [|intros _ r Hr; replace r with 0%nat by lia; lia].
      unfold loads. split.
      * intros H r Hr. replace r with 0%nat by lia. split; [exact Ec|]. unfold at_break in *. destruct (breaks (x 0%nat)); [|reflexivity]. destruct limit as [n|]; [|discriminate]. destruct (_ <? _)%nat; [discriminate|reflexivity].
      * intros H. destruct (H 0%nat some_rank) as (_ & ->). reflexivity.
  - set (errs := fun r => match creation (x r) with Some e => [e] | None => [] end).
    destruct (empty (reports errs)) eqn:Er.
    + pose proof (proj1 (reports_none world _) Er) as Ne. assert (L0 : less limit 0 = limit) by (destruct limit; cbn; f_equal; lia).
      destruct (@uneven_loop (fun r => breaks (x r)) known limit fuel 0 (fun _ => 0%nat) (fun r => items (x r)) (fun _ => None) (fun _ => [])) as (n & o & out & M & De & O & G & S & F).
      * rewrite L0. exact Hf.
      * reflexivity.
      * intros r Hr. apply Forall_forall. intros b I. exists r. auto.
      * rewrite L0 in *. exists n, o, out. split; [apply meets_after with (out := fun _ => []) (errs := errs); [rewrite Er; discriminate|]; intros _; exact M|].
        split; [exact De|]. split; [exact S|]. split; [exact O|]. split; [|exact F]. rewrite G. unfold loads. split.
        -- intros H r Hr. split; [|apply H; exact Hr]. specialize (Ne r Hr). unfold errs in Ne. destruct (creation (x r)); [discriminate|reflexivity].
        -- intros H r Hr. apply H. exact Hr.
    + exists 0%nat, (Some (Collectively (reports errs))), (fun _ => []). split; [apply meets_after with (out := fun _ => []) (errs := errs); [|rewrite Er; discriminate]; intros _ r _; reflexivity|].
      split; [intros r _; apply D0|]. split; [exists 0%nat; split; [exact some_rank|lia]|]. split; [discriminate|]. split; [|discriminate]. split; [discriminate|].
      intros H. exfalso. assert (X : empty (reports errs) = true); [|congruence]. apply reports_none. intros r Hr. unfold errs. rewrite (proj1 (H r Hr)). reflexivity.
Qed.
End Ranks.
