(** C42: batches reach the device intact, in order and in bounded memory, whatever the two
    streams of the device and the training code do. *)
From Verif Require Import Base BaseFacts DeviceLoader DeviceLoaderFacts DeviceLoaderInv DeviceLoaderLive DeviceSlots.
Set Implicit Arguments.
Unset Strict Implicit.

(** [steps R a b]: b is reached from a by finitely many steps of R (DeviceLoaderLive.v).
    [until_terminal source]: the batches up to the first terminal one, all if there is none.
    [reads d]: what the kernels that have run have read: (batch, tensor) and the value. *)

Lemma prefetch_new_ok n P : prefetch_new n = Ok P -> (1 <= P <= 4)%nat.
Proof.
  unfold prefetch_new. destruct ((1 <=? n) && (n <=? 4)) eqn:E; [|discriminate]. intros H. injection H as <-. lia.
Qed.

Section Prefetching.
Variables (V : Type) (n : Z) (P : nat) (m : nat -> V) (h : buffer -> V) (b : buffer -> nat) (source : list (hbatch V)).
Hypothesis HP : prefetch_new n = Ok P.
Variable st : pstate V.
Hypothesis R : preach P m h b source st.

Let HP1 : (1 <= P)%nat. Proof. destruct (prefetch_new_ok HP). assumption. Qed.
Let I : inv P source st. Proof. exact (inv_reach HP1 R). Qed.

(** A kernel launched with tensor i of batch k reads tensor i of batch k of the source. *)
Theorem C42_prefetch_kernels_read_their_batch (k i : nat) (v : V) : In ((k, i), v) (reads (pd st)) ->
  exists hb, nth_error source k = Some hb /\ nth_error (hb_tensors hb) i = Some v.
Proof.
  intros H. destruct I as (_ & Q & M). apply (M_reads M) in H. unfold content in H. cbn [fst snd] in H.
  destruct (nth_error (taken st) k) as [hb|] eqn:E; [|discriminate]. exists hb. split; [|exact H].
  rewrite <- (Q_source Q), nth_error_app1; [exact E|]. apply nth_error_Some. congruence.
Qed.

(** The training code gets the batches in order, none twice; and if the loop ends, it got all
    up to the one that ends the epoch. *)
Theorem C42_prefetch_in_order : exists c, delivered st = seq 0 c /\ (c <= List.length (until_terminal source))%nat
  /\ (phase st = PEnd (Some true) -> c = List.length (until_terminal source)).
Proof.
  destruct I as (_ & Q & _). exists (List.length (delivered st)). split; [exact (Q_delivered Q)|].
  destruct (until_terminal_prefix (src st) (Q_last Q)) as (q & Eq). rewrite (Q_source Q) in Eq.
  pose proof (Q_popped Q) as Qp. split.
  - rewrite Eq, app_length. pose proof (Q_phase Q) as X. destruct (phase st) as [[k|]| | | | | |[w|]|[w|]]; try lia.
  - intros Ep. pose proof (Q_phase Q) as X. rewrite Ep in X. pose proof (Q_busy Q) as Y. rewrite Ep in Y. destruct Y as [Y1 Y2].
    rewrite <- (Q_source Q), (until_terminal_all (r := src st) (Q_last Q) (Q_end Q Y2)).
    pose proof (Q_pending Q) as Z. rewrite Y1 in Z.
    assert (L : List.length (seq (popped st) (List.length (taken st) - popped st)) = 0%nat) by (rewrite <- Z; reflexivity).
    rewrite seq_length in L. lia.
Qed.

(** The source is read at most P batches ahead of the training code, and never again once it
    has delivered a terminal batch. *)
Theorem C42_prefetch_lookahead :
  taken st ++ src st = source
  /\ (List.length (taken st) <= asked st + P)%nat
  /\ (phase st = PUser -> (List.length (taken st) <= List.length (delivered st) + P)%nat)
  /\ (nexts st <= S (List.length (taken st)))%nat
  /\ (forall hb, In hb (taken st) -> hb_terminal hb = true -> nexts st = List.length (taken st) /\ taken st = until_terminal source).
Proof.
  destruct I as (_ & Q & _).
  assert (L : (List.length (taken st) <= popped st + P)%nat).
  { pose proof (Q_bound Q) as B. rewrite (Q_pending Q), seq_length in B. lia. }
  split; [exact (Q_source Q)|]. split; [|split; [|split]].
  - pose proof (Q_phase Q) as X. pose proof (Q_asked Q) as Y.
    destruct (phase st) as [[k|]| | | | | |[[]|]|[[]|]]; try lia.
  - intros Ep. pose proof (Q_phase Q) as X. rewrite Ep in X. lia.
  - destruct (Q_nexts Q) as [E|(E & _)]; lia.
  - intros hb Hin Ht. split.
    + destruct (Q_nexts Q) as [E|(_ & E & _)]; [exact E|]. rewrite (E hb Hin) in Ht. discriminate.
    + destruct (exhausted st) eqn:Ex; [|rewrite (Q_open Q Ex Hin) in Ht; discriminate].
      symmetry. rewrite <- (Q_source Q) at 1. apply until_terminal_all; [exact (Q_last Q)|exact (Q_end Q Ex)].
Qed.

(** At most P batches are queued and at most P + 1 host batches are kept for running copies;
    a copy that has still to run will find in host memory what the source put there. *)
Theorem C42_prefetch_memory :
  (List.length (pending st) <= P)%nat /\ (List.length (retired st) <= P + 1)%nat
  /\ forall k i l, In (Copy (k, i) l) (copyq (pd st)) ->
     exists hb, nth_error source k = Some hb /\ nth_error (hb_tensors hb) i = Some (host (pd st) (k, i)).
Proof.
  destruct I as (S & Q & M). split; [exact (Q_bound Q)|]. split.
  - pose proof (Q_kept Q) as X. destruct (phase st); lia.
  - intros k i l H.
    destruct (S_ops S (o:=Copy (k, i) l)) as [(k' & i' & E & Hk & Hi)|(x & E & _)]; [apply in_or_app; auto| |discriminate].
    injection E as <- <- _. destruct (nth_error (taken st) k) as [hb|] eqn:Eb; [|apply nth_error_None in Eb; lia].
    exists hb. split; [rewrite <- (Q_source Q), nth_error_app1 by exact Hk; exact Eb|].
    unfold width in Hi. rewrite Eb in Hi. destruct (nth_error (hb_tensors hb) i) as [v|] eqn:Ev; [|apply nth_error_None in Ev; lia].
    f_equal. symmetry. apply (M_host M); [eapply copying_kept; eauto|]. unfold content. cbn [fst snd]. rewrite Eb. exact Ev.
Qed.

(** The device can always finish the work it has been given; a request for a batch that is being
    served can always be answered, by a batch or by the end of the epoch; closing can always end. *)
Theorem C42_prefetch_never_stuck :
  (exists d, steps (@dstep V pevent) (pd st) d /\ copyq d = [] /\ compq d = [])
  /\ match phase st with
     | PUser | PEnd _ => True
     | PClosing why => exists st', steps (pstep P) st st' /\ phase st' = PEnd why
     | _ => exists st', steps (pstep P) st st' /\
         ((phase st' = PUser /\ delivered st' = delivered st ++ [List.length (delivered st)] /\ asked st' = asked st)
          \/ phase st' = PEnd (Some true))
     end.
Proof.
  split.
  - destruct (drain HP1 I) as (d & H1 & H2 & H3 & _). exists d. auto.
  - pose proof (answered HP1 I) as A. destruct (phase st) eqn:E; auto. eapply close_ends; eauto.
Qed.
End Prefetching.

(** Closing: the source is closed even if the synchronization fails, and that failure is not lost.
    The static wrapper is different. *)
Theorem C42_prefetch_always_closes (s c : option exn) :
  fst (synchronize_and_close s c) = true
  /\ (forall e, s = Some e -> snd (synchronize_and_close s c) = Some e)
  /\ (s = None -> snd (synchronize_and_close s c) = c).
Proof. destruct s; cbn; (split; [reflexivity|split; congruence]). Qed.
Theorem C42_static_always_closes_refuted : exists s c, fst (static_synchronize_and_close s c) = false.
Proof. exists (Some RuntimeError), None. reflexivity. Qed.

Section StaticSlots.
Variables (V D : Type) (schema_eqb : list (nat * D) -> list (nat * D) -> bool).
Hypothesis schema_eq : forall x y, schema_eqb x y = true <-> x = y.
Variables (m : nat -> V) (h : buffer -> V) (st : sstate V D).
Hypothesis R : sreach schema_eqb m h st.

(** A kernel launched while batch k is the current one reads batch k, although all batches share
    the slots, and although iterators follow one another without waiting for the device. *)
Theorem C42_static_kernels_read_their_batch (k name : nat) (v : V) : In ((k, name), v) (reads (sd st)) ->
  exists sb, nth_error (sgiven st) k = Some sb /\ value_of sb name = Some v.
Proof.
  intros H. apply (T_reads (sinv_reach R)) in H. unfold value in H. cbn [fst snd] in H.
  destruct (nth_error (sgiven st) k) as [sb|]; [|discriminate]. exists sb. auto.
Qed.

Theorem C42_static_never_stuck :
  (exists d, steps (@dstep V sevent) (sd st) d /\ copyq d = [] /\ compq d = [])
  /\ (sphase_ st = SClosing -> exists st', steps (sstep schema_eqb) st st' /\ sphase_ st' = SIdle).
Proof.
  pose proof (sinv_reach R) as I. clear R.
  assert (Dr : exists d, steps (@dstep V sevent) (sd st) d /\ copyq d = [] /\ compq d = [] /\ steps (sstep schema_eqb) st (with_sdev st d)).
  { remember (List.length (copyq (sd st)) + List.length (compq (sd st)))%nat as n eqn:En.
    revert st En I. induction n as [|n IH]; intros s En I.
    - exists (sd s). destruct (copyq (sd s)) eqn:E1, (compq (sd s)) eqn:E2; cbn in En; try lia.
      split; [apply steps_refl|]. split; [reflexivity|]. split; [reflexivity|].
      replace (with_sdev s (sd s)) with s by (destruct s; reflexivity). apply steps_refl.
    - destruct (sdev_progress I) as (d & Hd).
      { destruct (copyq (sd s)), (compq (sd s)); cbn in En; try lia; [right|left..]; discriminate. }
      pose proof (dstep_size Hd) as Sz.
      destruct (IH (with_sdev s d)) as (d' & H1 & H2 & H3 & H4).
      + cbn [with_sdev sd]. lia.
      + apply sinv_device; auto.
      + exists d'. cbn [with_sdev sd] in H1. split; [|split; [exact H2|split; [exact H3|]]].
        * eapply steps_trans; [apply steps_one; exact Hd|exact H1].
        * eapply steps_trans; [apply steps_one; apply s_device; exact Hd|]. exact H4. }
  destruct Dr as (d & H1 & H2 & H3 & H4). split; [exists d; auto|].
  intros Ep. eexists. split; [eapply steps_more; [exact H4|apply s_end; [exact Ep|exact H2]]|reflexivity].
Qed.

(** All delivered batches have one schema; a batch with another one raises, and nothing is copied. *)
Theorem C42_static_schema :
  (forall b1 b2, In b1 (sgiven st) -> In b2 (sgiven st) -> schema_of b1 = schema_of b2)
  /\ (forall b1 b2 rest st', In b1 (sgiven st) -> sphase_ st = SNext -> ssrc st = b2 :: rest -> schema_of b2 <> schema_of b1 ->
      sstep schema_eqb st st' -> ssrc st' = rest ->
      sraised st' = true /\ sd st' = sd st /\ sgiven st' = sgiven st /\ sphase_ st' = SClosing).
Proof.
  pose proof (sinv_reach R) as I. pose proof (T_schema I) as TS.
  assert (One : forall b1, In b1 (sgiven st) -> Some (schema_of b1) = slots st).
  { intros b1 H1. destruct (slots st) as [s|]; [|rewrite TS in H1; destruct H1].
    f_equal. destruct (TS _ H1) as [E|E]; [exact E|apply schema_eq; exact E]. }
  split.
  - intros b1 b2 H1 H2. apply One in H1, H2. congruence.
  - intros b1 b2 rest st' H1 Ep Es Ne St Er. apply One in H1.
    assert (Lr : rest <> b2 :: rest) by (intros E; apply (f_equal (@List.length _)) in E; cbn in E; lia).
    destruct St as [d Hd|source E|b3 r3 E1 E2 E3|b3 r3 E1 E2 E3|E|k b3 name E|k E|k E|E]; try congruence; cbn [ssrc] in Er; try congruence.
    + exfalso. rewrite Es in E2. injection E2 as <- <-. unfold matches in E3. rewrite <- H1 in E3. apply schema_eq in E3. auto.
    + auto.
Qed.
End StaticSlots.

(** Non-vacuity: three batches of one tensor, lookahead 1.  The third reuses the device memory
    of the first, whose host memory is overwritten as soon as it may be. *)
Definition src3 : list (hbatch Z) :=
  [ {| hb_tensors := [7]; hb_terminal := false |}; {| hb_tensors := [8]; hb_terminal := false |}; {| hb_tensors := [9]; hb_terminal := true |} ].
Definition blocks2 : buffer -> nat := fun g => (fst g mod 2)%nat.
Tactic Notation "go" hyp(H) tactic3(tac) :=
  match type of H with preach ?P ?m ?h ?b ?src ?s =>
    let St := fresh in let H' := fresh in
    eassert (St : pstep P s _) by tac; pose proof (pr_step H St) as H'; clear St; clear H; rename H' into H; cbn in H
  end.
Lemma avail_none (st : pstate Z) l : (forall k i, (k < List.length (taken st))%nat -> (i < width st k)%nat -> blk st (k, i) <> l) -> available st l.
Proof. intros H k i Hk Hi E. exfalso. exact (H k i Hk Hi E). Qed.
Example C42_example : prefetch_new 1 = Ok 1%nat /\ exists st : pstate Z,
  preach 1 (fun _ => 0) (fun _ => 0) blocks2 src3 st
  /\ reads (pd st) = [((0, 0)%nat, 7); ((1, 0)%nat, 8); ((2, 0)%nat, 9)] /\ blk st (2, 0)%nat = blk st (0, 0)%nat
  /\ delivered st = [0; 1; 2]%nat /\ host (pd st) (0, 0)%nat = -1 /\ phase st = PEnd (Some true).
Proof.
  split; [reflexivity|].
  pose proof (pr_init 1 (fun _ => 0) (fun _ => 0) blocks2 src3) as H. cbn in H.
  (* batch 0 is copied *)
  assert (NB : forall k, NoDup (map blocks2 (buffers k 1))) by (intros k; cbn; repeat constructor; cbn; tauto).
  go H (eapply p_enqueue with (bl := blocks2); [reflexivity|reflexivity|reflexivity|reflexivity|apply NB|intros i _ k' i' Hk; cbn in Hk; lia]).
  go H (eapply p_start; reflexivity).
  go H (eapply p_loop; [reflexivity|discriminate]).
  go H (eapply p_keep; [reflexivity|exact Logic.I]).
  go H (eapply p_nosync; [reflexivity|cbn; lia]).
  go H (eapply p_pop; reflexivity).
  (* batch 1 is copied to other memory *)
  assert (A1 : forall st : pstate Z, taken st = [Build_hbatch [7] false] -> blk st = blocks2 ->
               forall i, (i < 1)%nat -> available st (blocks2 (1%nat, i))).
  { intros st T B i _. apply avail_none. rewrite T, B. cbn. intros k i' Hk _. assert (k = 0%nat) by lia. subst. discriminate. }
  go H (eapply p_enqueue with (bl := blocks2); [reflexivity|reflexivity|reflexivity|reflexivity|apply NB|apply A1; reflexivity]).
  go H (eapply p_yield; reflexivity).
  (* a kernel with batch 0; then the batch is let go *)
  go H (eapply p_launch with (k := 0%nat) (i := 0%nat); [reflexivity|cbn; tauto|cbn; tauto|cbn; lia]).
  go H (eapply p_drop with (l1 := []); reflexivity).
  (* the device *)
  go H (eapply p_device, d_copy; [reflexivity|unfold can_run, fired; cbn; tauto]).
  go H (eapply p_device, d_copy; [reflexivity|unfold can_run, fired; cbn; tauto]).
  go H (eapply p_device, d_comp; [reflexivity|unfold can_run, fired; cbn; tauto]).
  go H (eapply p_device, d_comp; [reflexivity|unfold can_run, fired; cbn; tauto]).
  go H (eapply p_device, d_comp; [reflexivity|unfold can_run, fired; cbn; tauto]).
  go H (eapply p_next; reflexivity).
  go H (eapply p_loop; [reflexivity|discriminate]).
  go H (eapply p_release; [reflexivity|reflexivity|unfold fired; cbn; tauto]).
  go H (apply p_scribble with (k := 0%nat) (i := 0%nat) (v := -1); cbn; lia).
  go H (eapply p_keep; [reflexivity|exact Logic.I]).
  go H (eapply p_nosync; [reflexivity|cbn; lia]).
  go H (eapply p_pop; reflexivity).
  assert (A2 : forall st : pstate Z, taken st = [Build_hbatch [7] false; Build_hbatch [8] false] -> blk st = blocks2 ->
               In 0%nat (dropped st) -> fired (pd st) (Freed 0) -> forall i, (i < 1)%nat -> available st (blocks2 (2%nat, i))).
  { intros st T B Dr Fr i _ k i' Hk Hi. rewrite T in Hk. cbn in Hk. rewrite B. intros E. destruct k as [|[|k]]; [auto|discriminate|lia]. }
  go H (eapply p_enqueue with (bl := blocks2); [reflexivity|reflexivity|reflexivity|reflexivity|apply NB|apply A2; [reflexivity|reflexivity|cbn; tauto|unfold fired; cbn; tauto]]).
  go H (eapply p_yield; reflexivity).
  go H (eapply p_launch with (k := 1%nat) (i := 0%nat); [reflexivity|cbn; tauto|cbn; tauto|cbn; lia]).
  go H (eapply p_device, d_copy; [reflexivity|unfold can_run, fired; cbn; tauto]).
  go H (eapply p_device, d_copy; [reflexivity|unfold can_run, fired; cbn; tauto]).
  go H (eapply p_device, d_comp; [reflexivity|unfold can_run, fired; cbn; tauto]).
  go H (eapply p_device, d_comp; [reflexivity|unfold can_run, fired; cbn; tauto]).
  go H (eapply p_next; reflexivity).
  go H (eapply p_loop; [reflexivity|discriminate]).
  go H (eapply p_release; [reflexivity|reflexivity|unfold fired; cbn; tauto]).
  go H (eapply p_keep; [reflexivity|exact Logic.I]).
  go H (eapply p_nosync; [reflexivity|cbn; lia]).
  go H (eapply p_pop; reflexivity).
  go H (eapply p_yield; reflexivity).
  go H (eapply p_launch with (k := 2%nat) (i := 0%nat); [reflexivity|cbn; tauto|cbn; tauto|cbn; lia]).
  go H (eapply p_next; reflexivity).
  go H (eapply p_finish; reflexivity).
  go H (eapply p_device, d_copy; [reflexivity|unfold can_run, fired; cbn; tauto]).
  go H (eapply p_device, d_copy; [reflexivity|unfold can_run, fired; cbn; tauto]).
  go H (eapply p_device, d_comp; [reflexivity|unfold can_run, fired; cbn; tauto]).
  go H (eapply p_device, d_comp; [reflexivity|unfold can_run, fired; cbn; tauto]).
  go H (eapply p_end; reflexivity).
  eexists. split; [exact H|]. cbn. conj; reflexivity.
Qed.

(** Two iterators over the same slots; the second one starts before the device has done anything;
    a batch of another schema is refused. *)
Definition eqb_schema (x y : list (nat * Z)) : bool :=
  if list_eq_dec (fun a b => match Nat.eq_dec (fst a) (fst b), Z.eq_dec (snd a) (snd b) with
                             | left e1, left e2 => left (injective_projections a b e1 e2)
                             | right n, _ => right (fun e => n (f_equal fst e))
                             | _, right n => right (fun e => n (f_equal snd e)) end) x y then true else false.
Tactic Notation "gos" hyp(H) tactic3(tac) :=
  match type of H with sreach ?e ?m ?h ?s =>
    let St := fresh in let H' := fresh in
    eassert (St : sstep e s _) by tac; pose proof (sr_step H St) as H'; clear St; clear H; rename H' into H; cbn in H
  end.
Example C42_example_static : (forall x y, eqb_schema x y = true <-> x = y) /\ exists st : sstate Z Z,
  sreach eqb_schema (fun _ => 0) (fun _ => 0) st
  /\ reads (sd st) = [((0, 5)%nat, 70); ((1, 5)%nat, 80)] /\ sraised st = true /\ List.length (sgiven st) = 2%nat.
Proof.
  split.
  { intros x y. unfold eqb_schema. destruct (list_eq_dec _ x y); split; congruence. }
  pose proof (sr_init (D:=Z) eqb_schema (fun _ => 0) (fun _ => 0)) as H. cbn in H.
  gos H (apply s_iter with (source := [[(5%nat, 1, 70)]]); reflexivity).
  gos H (eapply s_batch; reflexivity).
  gos H (eapply s_launch with (k := 0%nat) (name := 5%nat); [reflexivity|reflexivity|cbn; tauto]).
  gos H (eapply s_next; reflexivity).
  gos H (eapply s_stop; reflexivity).
  (* the device runs the copy, as closing waits for it, but not the kernel *)
  gos H (eapply s_device, d_comp; [reflexivity|exact Logic.I]).
  gos H (eapply s_device, d_copy; [reflexivity|unfold can_run, fired; cbn; tauto]).
  gos H (eapply s_device, d_copy; [reflexivity|exact Logic.I]).
  gos H (eapply s_device, d_copy; [reflexivity|exact Logic.I]).
  gos H (eapply s_end; reflexivity).
  gos H (apply s_iter with (source := [[(5%nat, 1, 80)]; [(5%nat, 2, 90)]]); reflexivity).
  gos H (eapply s_batch; reflexivity).
  gos H (eapply s_launch with (k := 1%nat) (name := 5%nat); [reflexivity|reflexivity|cbn; tauto]).
  gos H (eapply s_next; reflexivity).
  gos H (eapply s_mismatch; reflexivity).
  gos H (eapply s_device, d_comp; [reflexivity|unfold can_run, fired; cbn; tauto]).
  gos H (eapply s_device, d_comp; [reflexivity|exact Logic.I]).
  gos H (eapply s_device, d_comp; [reflexivity|exact Logic.I]).
  gos H (eapply s_device, d_comp; [reflexivity|exact Logic.I]).
  gos H (eapply s_device, d_copy; [reflexivity|unfold can_run, fired; cbn; tauto]).
  gos H (eapply s_device, d_copy; [reflexivity|exact Logic.I]).
  gos H (eapply s_device, d_copy; [reflexivity|exact Logic.I]).
  gos H (eapply s_device, d_comp; [reflexivity|unfold can_run, fired; cbn; tauto]).
  gos H (eapply s_device, d_comp; [reflexivity|exact Logic.I]).
  eexists. split; [exact H|]. conj; reflexivity.
Qed.
