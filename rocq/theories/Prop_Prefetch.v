(** C22: the prefetching iterator of SourceBatchDataset against the synchronous one.
    A run is any interleaving of the iterator, the workers (which finish submitted
    chunks in any order) and a consumer that commits some of the batches it got;
    its events are the batches handed out and the commits. *)
From Verif Require Import Base BaseFacts Rng Reservoir Source Sequential Planner PlannerFeed Transactions TransactionsObs Prefetch PrefetchFacts.
From Verif Require Import Prop_Planner Prop_Transactions.
Set Implicit Arguments.
Unset Strict Implicit.

(** What is submitted to workers or decoded, and not handed out. *)
Definition held {X A T O} (p : pref X A T O) : Z :=
  (match pf_ctl p with PServe l => zlen l | _ => 0 end) + zsum (map (fun c => zlen (fst c)) (pf_pending p)).

Lemma held_queue {X A T O} (p : pref X A T O) : held p = zlen (queue p).
Proof.
  unfold held, queue. rewrite zlen_app. f_equal.
  - destruct (pf_ctl p); try reflexivity. cbn [serving]. unfold zlen. rewrite map_length. reflexivity.
  - induction (pf_pending p) as [|x l IH]; [reflexivity|]. cbn [map List.concat].
    replace (zsum (zlen (fst x) :: map (fun c => zlen (fst c)) l)) with (zlen (fst x) + zsum (map (fun c => zlen (fst c)) l)) by reflexivity.
    rewrite zlen_app. lia.
Qed.

Section C22.
  Variables X A T O : Type.
  Variable fd : feed X A T.
  Variable shape : A -> Z.
  Variable cf : pconfig.
  Variable is_resumable : bool.
  Variable token_digest : bytes -> batch A -> bytes -> bytes.
  Variable state_eqb : pstate A T -> pstate A T -> bool.
  Variable dc : dconfig.
  Variable decode : list A -> list bool -> res O.
  Variable decode_many : list (list A * list bool) -> res (list O).
  Variable finalize_batch : O -> res O.
  Variable fuel : nat.
  Hypothesis Hdepth : dconfig_check dc = Ok tt.
  Hypothesis Hmany : forall l, match decode_many l with
    | Ok ds => mapM (fun b => decode (fst b) (snd b)) l = Ok ds
    | Err _ => exists e, mapM (fun b => decode (fst b) (snd b)) l = Err e
    end.
  Notation sync_runs := (sruns fd shape cf is_resumable None token_digest state_eqb dc decode finalize_batch fuel).
  Notation pref_runs := (pruns fd shape cf is_resumable None token_digest state_eqb dc decode_many finalize_batch fuel).
  Notation pref_step := (pstep fd shape cf is_resumable None token_digest state_eqb dc decode_many finalize_batch fuel).

  Lemma depth_pos : 0 < dc_depth dc.
  Proof. unfold dconfig_check in Hdepth. apply guard_Ok in Hdepth as [_ H]. apply guard_Ok in H as [H _]. apply Z.ltb_lt. exact H. Qed.

  (** Whatever the workers do: the batches handed out (tokens and data, in order) and
      the effect of the commits between them are those of the synchronous iterator,
      and when prefetching has come to its end the synchronous iterator has too. *)
  Theorem C22_prefetching_is_synchronous_iteration : forall t0 es p, pref_runs (pref_init O t0) es p ->
    exists s, sync_runs (sync_init t0) es s
      /\ t_committed_state (pf_t p) = t_committed_state (sy_t s)
      /\ t_committed_digest (pf_t p) = t_committed_digest (sy_t s)
      /\ t_committed_blob (pf_t p) = t_committed_blob (sy_t s)
      /\ pf_open p = sy_open s
      /\ (pf_ctl p = PDone A T O -> sy_ctl s = SEnd A T).
  Proof.
    intros t0 es p H. destruct (pruns_inv depth_pos Hmany H) as [_ (s & Hr & Ho & Hs & _ & Hh)].
    exists s. unfold same in Hs. conj; auto.
    - rewrite Hs. reflexivity.
    - rewrite Hs. reflexivity.
    - rewrite Hs. reflexivity.
    - intros Hd. apply (he_done (Hh ltac:(rewrite Hd; auto)) Hd).
  Qed.

  (** At no moment more than prefetch_batches batches are held. *)
  Theorem C22_prefetching_is_bounded : forall t0 es p, pref_runs (pref_init O t0) es p ->
    held p <= dc_depth dc.
  Proof.
    intros t0 es p H. rewrite held_queue. pose proof (pruns_held H).
    destruct (pruns_inv depth_pos Hmany H) as [HB _]. lia.
  Qed.

  (** If prefetching raises, the synchronous iterator, after the same events, has no
      continuation to its end. *)
  Theorem C22_prefetching_fails_only_where_synchronous_iteration_fails : forall t0 es p e,
    pref_runs (pref_init O t0) es p -> pf_ctl p = PFailed A T O e ->
    exists s, sync_runs (sync_init t0) es s
      /\ forall es' s', sync_runs s es' s' -> sy_ctl s' <> SEnd A T.
  Proof.
    intros t0 es p e H Hc. destruct (pruns_inv depth_pos Hmany H) as [_ (s & Hr & Ho & Hs & Hf & _)].
    exists s. split; auto. apply Hf. rewrite Hc. exact I.
  Qed.

  (** There is no deadlock: unless it has ended or raised, the iterator or a worker
      can take a step; and every round of filling submits a batch or meets the end. *)
  Theorem C22_prefetching_never_deadlocks : forall t0 es p, pref_runs (pref_init O t0) es p ->
    pf_ctl p = PDone A T O \/ (exists e, pf_ctl p = PFailed A T O e)
    \/ exists es1 p', pref_step p es1 p' /\ (forall n, ~ In (Committed A T O n) es1)
         /\ (pf_ctl p = PFill A T O -> pf_ctl p' = PFill A T O -> pf_count p < pf_count p' \/ pf_exhausted p' = true).
  Proof.
    intros t0 es p H. clear H.
    assert (Hfail : failed (pf_ctl p) -> exists e, pf_ctl p = PFailed A T O e) by (destruct (pf_ctl p); try contradiction; eauto).
    destruct (pf_ctl p) eqn:Hc; eauto.
    2-3: destruct (goes_on fd shape cf is_resumable token_digest state_eqb dc decode_many finalize_batch fuel p) as [K|[K|(es1 & p' & K1 & K2)]];
      [rewrite Hc in K; discriminate|rewrite Hc in K; contradiction|right; right; exists es1, p'; split; [exact K1|split; [exact K2|discriminate]]].
    right. right. destruct ((pf_count p <? dc_depth dc) && negb (pf_exhausted p)) eqn:Hg.
    - exists []. eexists. split; [apply ps_fill; assumption|]. split; [intros n []|]. intros _.
      pose proof (submit_progress fd shape cf is_resumable token_digest fuel Hc Hg) as Hp.
      destruct (submit_chunk _ _ _ _ _ _ _ p) as [p'|e]; [intros _; exact Hp|discriminate].
    - exists []. eexists. split; [apply ps_filled; assumption|]. split; [intros n []|]. discriminate.
  Qed.
End C22.
Print Assumptions C22_prefetching_is_synchronous_iteration.
Print Assumptions C22_prefetching_is_bounded.
Print Assumptions C22_prefetching_fails_only_where_synchronous_iteration_fails.
Print Assumptions C22_prefetching_never_deadlocks.

(** ** A concrete run *)
Inductive choice := Go | Work (i : nat) | Commit (n : nat).

Section Drive.
  Variable dc : dconfig.
  Definition decode_pay (l : list (envelope Z)) (m : list bool) : res (list Z * list bool) := Ok (map (@e_payload Z) l, m).
  Definition decode_pays (l : list (list (envelope Z) * list bool)) := mapM (fun b => decode_pay (fst b) (snd b)) l.
  Definition fin (d : list Z * list bool) : res (list Z * list bool) := Ok (map (Z.add 100) (fst d), snd d).
  Definition eqb_any : env_state -> env_state -> bool := fun _ _ => true.
  Notation cf := (pairs false None).
  Notation state := (pref _ (envelope Z) (list (envelope Z) * rstate (envelope Z)) (list Z * list bool)).
  Notation commit_all := (commit_all (O := list Z * list bool) true None eqb_any).

  Definition drive1 (c : choice) (p : state) : option (list (event _ _ _) * state) :=
    match c with
    | Go => match pf_ctl p with
            | PFill _ _ _ => if (pf_count p <? dc_depth dc) && negb (pf_exhausted p)
                       then Some ([], match submit_chunk tape_feed (@e_shape Z) cf true count_digest dc 100 p with Ok p' => p' | Err e => goto p (PFailed _ _ _ e) end)
                       else Some ([], goto p (PPop _ _ _))
            | PPop _ _ _ => match pf_pending p with
                      | [] => Some ([], goto p (PDone _ _ _))
                      | (items, Some r) :: rest => Some ([], goto (with_pending p rest)
                          match r with
                          | Ok ds => if (List.length ds =? List.length items)%nat then PServe (combine items ds) else PFailed _ _ _ RuntimeError
                          | Err e => PFailed _ _ _ e
                          end)
                      | _ => None
                      end
            | PServe [] => Some ([], goto p (PFill _ _ _))
            | PServe ((tok, d) :: rest) => match publish true None count_digest eqb_any dc fin p tok d rest with
                                           | Ok (e, p') => Some ([e], p')
                                           | Err e => Some ([], goto p (PFailed _ _ _ e))
                                           end
            | _ => None
            end
    | Work i => match nth_error (pf_pending p) i with
                | Some (items, None) => Some ([], with_pending p
                    (firstn i (pf_pending p) ++ (items, Some (run_job dc decode_pays fin items)) :: skipn (S i) (pf_pending p)))
                | _ => None
                end
    | Commit n => if dc_train dc then match commit_all (pf_t p) (firstn n (pf_open p)) with
                  | Ok t' => Some ([Committed _ _ _ n],
                     {| pf_t := t'; pf_gen := pf_gen p; pf_pending := pf_pending p; pf_count := pf_count p;
                        pf_exhausted := pf_exhausted p; pf_ctl := pf_ctl p; pf_open := skipn n (pf_open p) |})
                  | Err _ => None
                  end else None
    end.

  Fixpoint drive (cs : list choice) (p : state) : option (list (event _ _ _) * state) :=
    match cs with
    | [] => Some ([], p)
    | c :: cs => match drive1 c p with
                 | Some (es, p1) => match drive cs p1 with Some (es2, p2) => Some (es ++ es2, p2) | None => None end
                 | None => None
                 end
    end.

  Notation runs := (pruns tape_feed (@e_shape Z) cf true None count_digest eqb_any dc decode_pays fin 100).
  Notation step := (pstep tape_feed (@e_shape Z) cf true None count_digest eqb_any dc decode_pays fin 100).

  Lemma drive1_step c p es p' : drive1 c p = Some (es, p') -> step p es p'.
  Proof.
    destruct c as [|i|n]; cbn [drive1].
    - destruct (pf_ctl p) as [| |[|[tok d] rest]| |e] eqn:Hc; try discriminate.
      + destruct ((pf_count p <? dc_depth dc) && negb (pf_exhausted p)) eqn:Hg; intros E; injection E as <- <-.
        * apply ps_fill; assumption.
        * apply ps_filled; assumption.
      + destruct (pf_pending p) as [|[items [r|]] rest] eqn:Hp; try discriminate; intros E; injection E as <- <-.
        * apply ps_end; assumption.
        * eapply ps_pop; eassumption.
      + intros E. injection E as <- <-. apply ps_served; assumption.
      + destruct (publish _ _ _ _ _ _ p tok d rest) as [[e s']|e] eqn:Hpub; intros E; injection E as <- <-.
        * eapply ps_yield; eassumption.
        * eapply ps_yield_err; eassumption.
    - destruct (nth_error (pf_pending p) i) as [[items [r|]]|] eqn:Hn; try discriminate. intros E. injection E as <- <-.
      apply ps_work. rewrite <- (firstn_skipn i (pf_pending p)) at 1. f_equal.
      clear -Hn. revert Hn. generalize (pf_pending p). intros l. revert l. induction i as [|i IH]; intros [|x l] Hn; try discriminate.
      + injection Hn as ->. reflexivity.
      + cbn [nth_error] in Hn. cbn [skipn]. apply IH. exact Hn.
    - destruct (dc_train dc) eqn:Ht; [|discriminate]. destruct (commit_all _ _) as [t'|e] eqn:Hc; [|discriminate].
      intros E. injection E as <- <-. apply ps_commit; assumption.
  Qed.

  Lemma drive_runs cs : forall p0 es0 p es p', runs p0 es0 p -> drive cs p = Some (es, p') -> runs p0 (es0 ++ es) p'.
  Proof.
    induction cs as [|c cs IH]; intros p0 es0 p es p' H Hd; cbn [drive] in Hd.
    - injection Hd as <- <-. rewrite app_nil_r. exact H.
    - destruct (drive1 c p) as [[es1 p1]|] eqn:E1; [|discriminate].
      destruct (drive cs p1) as [[es2 p2]|] eqn:E2; [|discriminate]. injection Hd as <- <-.
      rewrite app_assoc. eapply IH; [|exact E2]. eapply pr_snoc; [exact H|]. eapply drive1_step. exact E1.
  Qed.
End Drive.

Definition two_workers (train : bool) : dconfig := {| dc_workers := 2; dc_depth := 3; dc_train := train; dc_final_early := true |}.
Definition shown_events {T} (es : list (event (envelope Z) T (list Z * list bool))) : list (list Z * list bool * bool) :=
  flat_map (fun e => match e with Yielded tok out => [(fst out, snd out, b_last (tk_batch tok))] | _ => [] end) es.

(** Three chunks are submitted at once; the last is decoded first, the first last.
    Batches 1, 2 and the padded 3 come out in order, and the consumer commits two of
    them in between. *)
Example C22_example : exists t0 es p,
  txn_init tape_feed (pairs false None) true (@None (composer (envelope Z) (list Z))) (fun ep _ => a_digest ep) = Ok t0
  /\ drive (two_workers true) [Go; Go; Go; Go; Work 2; Work 1; Work 0; Go; Go; Go; Go; Go; Go; Go; Commit 2; Go; Go; Go; Go; Go; Go; Go]
       (pref_init (list Z * list bool) t0) = Some (es, p)
  /\ shown_events es = [([101; 103], [true; true], false); ([102; 105], [true; true], false); ([104; 104], [true; false], true)]
  /\ pf_ctl p = PDone _ _ _ /\ List.length (pf_open p) = 1%nat
  /\ pruns tape_feed (@e_shape Z) (pairs false None) true None count_digest eqb_any (two_workers true) decode_pays fin 100
       (pref_init _ t0) es p.
Proof.
  do 3 eexists. split; [vm_compute; reflexivity|].
  match goal with |- ?G /\ _ => assert (H : G) by (vm_compute; reflexivity) end.
  split; [exact H|]. split; [vm_compute; reflexivity|]. split; [vm_compute; reflexivity|]. split; [vm_compute; reflexivity|].
  pose proof (drive_runs (pr_nil _ _ _ _ _ _ _ _ _ _ _ _) H) as K. exact K.
Qed.
Lemma decode_pays_ok l : match decode_pays l with
  | Ok ds => mapM (fun b => decode_pay (fst b) (snd b)) l = Ok ds
  | Err _ => exists e, mapM (fun b => decode_pay (fst b) (snd b)) l = Err e
  end.
Proof. unfold decode_pays. destruct (mapM _ l); eauto. Qed.
