(** C20: what a client of the transactional planner sees, over all histories of
    fetching, committing, failing, rolling back, restarting from the saved state and
    changing epoch (TransactionsObs.v), for both feeds of the planner.
    [initial_digest], [token_digest], the pipelines [comp], the decoder and the
    equality test of saved states are arbitrary. *)
From Verif Require Import Base BaseFacts Rng Reservoir ReservoirFacts PackedReservoir Source Sequential.
From Verif Require Import Planner PlannerObs PlannerSpec PlannerSim PlannerRun PlannerResume PlannerFeed PackedState PlannerPacked.
From Verif Require Import Transactions TransactionsObs TransactionsFacts Prop_Planner.
Set Implicit Arguments.
Unset Strict Implicit.

(** One list continues the other. *)
Definition comparable {V} (l m : list V) : Prop := (exists r, m = l ++ r) \/ (exists r, l = m ++ r).

(** [e'] is the batch after [e]: the next number of the epoch, which [e] did not
    end, or number 0 of a later epoch. *)
Definition follows {A O} (e e' : batch A * O) : Prop :=
  (b_epoch (fst e') = b_epoch (fst e) /\ b_index (fst e') = b_index (fst e) + 1 /\ b_last (fst e) = false)
  \/ (b_epoch (fst e) < b_epoch (fst e') /\ b_index (fst e') = 0).

Definition number_of {A O} (e : batch A * O) : Z * Z := (b_epoch (fst e), b_index (fst e)).

Lemma numbered_follows {A O} (es : list (batch A * O)) : forall l ep, numbered l ep es ->
  forall i e e', nth_error es i = Some e -> nth_error es (S i) = Some e' -> follows e e'.
Proof.
  induction es as [|x es IH]; intros l ep H i e e' H1 H2; [destruct i; discriminate|].
  assert (Hk : exists l' i', numbered l' (b_epoch (fst x), i') es /\ i' = b_index (fst x) + 1 /\ l' = b_last (fst x)).
  { inversion H as [|? ? ? Hp Hn|? ? ? ? Hp H0 Hn]; subst; eexists _, _; (split; [exact Hn|]); cbn; split; auto. lia. }
  destruct Hk as (l' & i' & Hn & Ei & El).
  destruct i as [|i]; cbn [nth_error] in H1, H2; [|eapply IH; eauto].
  injection H1 as <-. destruct es as [|y es]; [discriminate|]. cbn in H2. injection H2 as <-.
  inversion Hn as [|? ? ? Hp Hn'|? ? ? ? Hp H0 Hn']; subst.
  - left. unfold place in Hp. injection Hp as P1 P2. auto.
  - right. auto.
Qed.

Lemma numbered_above {A O} (es : list (batch A * O)) : forall l ep, numbered l ep es ->
  Forall (fun e => fst ep < b_epoch (fst e) \/ fst ep = b_epoch (fst e) /\ snd ep <= b_index (fst e)) es.
Proof.
  induction es as [|x es IH]; intros l ep H; [constructor|].
  inversion H as [|? ? ? Hp Hn|? ? ? ? Hp H0 Hn]; subst.
  - constructor; [right; cbn; split; [reflexivity|lia]|]. apply IH in Hn. eapply Forall_impl; [|exact Hn].
    cbn. intros e [?|[? ?]]; [left; lia|right; split; lia].
  - constructor; [auto|]. apply IH in Hn. eapply Forall_impl; [|exact Hn]. cbn. intros e [?|[? ?]]; left; lia.
Qed.

Lemma numbered_nodup {A O} (es : list (batch A * O)) : forall l ep, numbered l ep es -> NoDup (map number_of es).
Proof.
  induction es as [|x es IH]; intros l ep H; [constructor|].
  assert (Hk : exists l' i', numbered l' (b_epoch (fst x), i') es /\ i' = b_index (fst x) + 1).
  { inversion H as [|? ? ? Hp Hn|? ? ? ? Hp H0 Hn]; subst; eexists _, _; (split; [exact Hn|]); cbn; auto. lia. }
  destruct Hk as (l' & i' & Hn & Ei). cbn. constructor; [|eapply IH; eauto]. intros Hin.
  apply in_map_iff in Hin as (y & Ey & Hy). pose proof (numbered_above Hn) as Ha. rewrite Forall_forall in Ha.
  specialize (Ha _ Hy). cbn in Ha. unfold number_of in Ey. injection Ey as E1 E2. lia.
Qed.

Lemma numbered_first {A O} (e : batch A * O) es l ep : numbered l ep (e :: es) -> snd ep = 0 -> b_index (fst e) = 0.
Proof.
  intros H Hi. inversion H as [|? ? ? Hp Hn|? ? ? ? Hp H0 Hn]; subst; auto.
Qed.

(** The two feeds of the planner, over sources that meet the source contract. *)
Inductive planner_feed : forall X A T : Type, feed X A T -> (A -> Z) -> pconfig -> Prop :=
| over_records C P D header hash64 (sr : resumable C P D) fc records RS cf shape :
    source_ok header hash64 sr fc records RS -> source_resumes sr RS -> config_ok cf ->
    (forall code ep cy, pc_uniform cf = Some code -> Forall (fun e => shape e = code) (records ep cy)) ->
    planner_feed (object_feed header hash64 sr fc) shape cf
| over_ids C D header hash64 (ks : packed_source C D) fc records RS cf code :
    packed_ok header hash64 ks fc records RS -> packed_resumes_ok ks RS -> config_ok cf ->
    pc_uniform cf = Some code ->
    planner_feed (packed_feed header hash64 ks fc) (fun _ => code) cf.

Lemma planner_feed_facts X A T (fd : feed X A T) shape cf : planner_feed fd shape cf ->
  config_ok cf /\ exists strm R, feeds fd strm R /\ resumes fd R
    /\ (forall code ep cy l, pc_uniform cf = Some code -> strm ep cy = Ok l -> Forall (fun e => shape e = code) l)
    /\ (forall ep cy, 0 <= ep -> 0 <= cy -> strm ep cy <> Err OutOfFuel).
Proof.
  intros [C P D header hash64 sr fc records RS cf' shape' Hok Hres Hcf Hsh|C D header hash64 ks fc records RS cf' code Hok Hres Hcf Hu];
    (split; [exact Hcf|]); do 2 eexists.
  - split; [exact (source_feeds Hok)|]. split; [exact (source_feed_resumes Hok Hres)|]. split.
    + intros code ep cy l Hu Hs. eapply Permutation_Forall; [eapply stream_records; eauto|]. apply Hsh. exact Hu.
    + exact (stream_no_fuel Hok).
  - split; [exact (packed_source_feeds Hok)|]. split; [exact (packed_source_resumes Hok Hres)|]. split.
    + intros c ep cy l Hc Hs. rewrite Forall_forall. congruence.
    + exact (packed_no_fuel Hok).
Qed.

Section C20.
  Variables X A T O : Type.
  Variable fd : feed X A T.
  Variable shape : A -> Z.
  Variable cf : pconfig.
  Variable comp : option (composer A O).
  Variable initial_digest : Z -> bytes -> bytes.
  Variable token_digest : bytes -> batch A -> bytes -> bytes.
  Variable state_eqb : pstate A T -> pstate A T -> bool.
  Variable decode : batch A -> res O.
  Hypothesis Hfeed : planner_feed fd shape cf.
  Notation history := (TransactionsObs.history fd shape cf comp initial_digest token_digest state_eqb decode).

  (** Whatever commits, failures, rollbacks and restarts happen, any two histories
      publish the same batches with the same data, as far as both go. *)
  Theorem C20_every_history_publishes_the_same_batches : forall c1 c2, history c1 -> history c2 ->
    comparable (map content (published c1)) (map content (published c2)).
  Proof.
    destruct (planner_feed_facts Hfeed) as (Hcf & strm & R & HF & HS & Hu & Hn).
    intros c1 c2 H1 H2. destruct (histories_agree HF HS Hcf Hu Hn H1 H2) as [K|K]; [left|right]; exact K.
  Qed.

  (** The published batches are numbered without gap or repetition; nothing follows a
      batch marked last within its epoch. *)
  Theorem C20_published_batches_are_numbered_without_gap_or_repetition : forall c, history c ->
    NoDup (map number_of (published c))
    /\ (forall e, hd_error (published c) = Some e -> b_index (fst e) = 0)
    /\ forall i e e', nth_error (published c) i = Some e -> nth_error (published c) (S i) = Some e' -> follows e e'.
  Proof.
    destruct (planner_feed_facts Hfeed) as (Hcf & strm & R & HF & HS & Hu & Hn).
    intros c H. pose proof (history_numbered HF HS Hcf Hu Hn H) as N. conj.
    - eapply numbered_nodup; exact N.
    - intros e He. destruct (published c) as [|x es]; [discriminate|]. injection He as ->. eapply numbered_first; [exact N|reflexivity].
    - eapply numbered_follows; exact N.
  Qed.

  (** After any history, even in the middle of a failed fetch, rolling back succeeds,
      keeps the committed state, and the batches that were fetched and not committed
      can be fetched again, the same and with the same data. *)
  Theorem C20_rollback_replays_the_uncommitted_batches : forall c, history c ->
    exists t, rollback fd shape cf true (cl_txn c) = Ok t /\ same_commit (cl_txn c) t
      /\ exists ys t', fetches fd shape cf comp token_digest decode t ys t'
        /\ map content (map (@shown_of _ _ _) ys) = map content (map (@shown_of _ _ _) (cl_pending c)).
  Proof.
    destruct (planner_feed_facts Hfeed) as (Hcf & strm & R & HF & HS & Hu & Hn).
    intros c H. destruct (rollback_replays HF HS Hcf Hu Hn H) as (t & E1 & E2 & ys & t' & E3 & E4).
    exists t. split; auto. split; auto. exists ys, t'. split; auto. rewrite !map_map. exact E4.
  Qed.

  (** A new process that loads the saved state is where a rollback would be. *)
  Theorem C20_restart_is_rollback : forall c, history c ->
    (forall ep bl, List.length (initial_digest ep bl) = 64%nat) ->
    (forall d b bl, List.length (token_digest d b bl) = 64%nat) ->
    match comp with
    | Some cp => cp_decode cp (cp_initial cp) = Ok tt
        /\ (forall b o bl o' bl', cp_prepare cp b o bl = Ok (o', bl') -> cp_decode cp bl' = Ok tt)
    | None => True
    end ->
    exists s t, state_dict cf true (cl_txn c) = Ok s /\ load_state_dict fd shape cf comp s = Ok t
      /\ rollback fd shape cf true (cl_txn c) = Ok t.
  Proof.
    destruct (planner_feed_facts Hfeed) as (Hcf & strm & R & HF & HS & Hu & Hn).
    intros c H H1 H2 H3. destruct (restart_loads HF HS Hcf Hu Hn H1 H2 H3 H) as (s & t & E1 & E2).
    exists s, t. conj; auto. eapply restart_is_rollback; eauto.
  Qed.

  (** Of the batches that are fetched and not committed, a commit takes an initial
      part: no selection with a gap, a repetition or another order is accepted. *)
  Theorem C20_commit_takes_an_initial_part : forall c toks cm, history c -> incl toks (map fst (cl_pending c)) ->
    prepare_commit true comp state_eqb (cl_txn c) toks = Ok cm ->
    exists now later, cl_pending c = now ++ later /\ toks = map fst now.
  Proof.
    destruct (planner_feed_facts Hfeed) as (Hcf & strm & R & HF & HS & Hu & Hn).
    intros c toks cm H Hi Hc. exact (commit_prefix HF HS Hcf Hu Hn H Hi Hc).
  Qed.

  (** The next epoch is refused while batches are not committed, unless the digest
      chain of those batches comes back to the committed digest. *)
  Theorem C20_next_epoch_needs_everything_committed : forall c pend x t, history c -> cl_usable c = true ->
    cl_pending c = pend ++ [x] -> begin_next_epoch fd cf true initial_digest (cl_txn c) = Ok t ->
    tk_after_digest (fst x) = t_committed_digest (cl_txn c).
  Proof.
    destruct (planner_feed_facts Hfeed) as (Hcf & strm & R & HF & HS & Hu & Hn).
    intros c pend x t H Hus Hp Hb. exact (next_epoch_needs_commit HF HS Hcf Hu Hn H Hus Hp Hb).
  Qed.

  (** A commit of an initial part of what was fetched is never refused. *)
  Theorem C20_every_initial_part_can_be_committed : forall c now later, history c ->
    cl_pending c = now ++ later -> now <> [] ->
    (forall ep bl, List.length (initial_digest ep bl) = 64%nat) ->
    (forall d b bl, List.length (token_digest d b bl) = 64%nat) ->
    match comp with
    | Some cp => cp_decode cp (cp_initial cp) = Ok tt
        /\ (forall b o bl o' bl', cp_prepare cp b o bl = Ok (o', bl') -> cp_decode cp bl' = Ok tt)
    | None => True
    end ->
    (forall s, state_eqb s s = true) ->
    exists cm t, prepare_commit true comp state_eqb (cl_txn c) (map fst now) = Ok cm
      /\ commit_prepared true (cl_txn c) cm = Ok t.
  Proof.
    destruct (planner_feed_facts Hfeed) as (Hcf & strm & R & HF & HS & Hu & Hn).
    intros c now later H Hp Hne H1 H2 H3 H4. exact (commit_succeeds HF HS Hcf Hu Hn H1 H2 H3 H4 H Hp Hne).
  Qed.
End C20.
Print Assumptions C20_every_history_publishes_the_same_batches.
Print Assumptions C20_published_batches_are_numbered_without_gap_or_repetition.
Print Assumptions C20_rollback_replays_the_uncommitted_batches.
Print Assumptions C20_restart_is_rollback.
Print Assumptions C20_commit_takes_an_initial_part.
Print Assumptions C20_next_epoch_needs_everything_committed.
Print Assumptions C20_every_initial_part_can_be_committed.

(** ** Concrete cases *)
Definition env_state := pstate (envelope Z) (list (envelope Z) * rstate (envelope Z)).
Definition a_digest (n : Z) : bytes := repeat n 64.
Definition count_digest (d : bytes) (b : batch (envelope Z)) (bl : bytes) : bytes :=
  a_digest (zsum d + 1 + b_index b + (if b_last b then 100 else 0)).
Definition payloads (b : batch (envelope Z)) : res (list Z) := Ok (map (@e_payload Z) (b_items b)).
(** A pipeline stage that counts batches and adds the count to the data. *)
Definition counting : composer (envelope Z) (list Z) := {|
  cp_initial := [0];
  cp_prepare := fun _ data bl => Ok (map (Z.add (10 * zsum bl)) data, [zsum bl + 1]);
  cp_decode := fun _ => Ok tt
|}.

Definition demo_fetch := fetch tape_feed (@e_shape Z) (pairs false None) (Some counting) count_digest payloads 100.
Definition demo_history := TransactionsObs.history tape_feed (@e_shape Z) (pairs false None) (Some counting)
  (fun ep _ => a_digest ep) count_digest (fun _ _ => true) payloads.

Lemma demo_feed : planner_feed tape_feed (@e_shape Z) (pairs false None).
Proof.
  apply over_records with (records := fun _ _ => five) (RS := tape_left);
    [apply five_ok|apply tape_resumes|apply pairs_ok; discriminate|discriminate].
Qed.

Definition after {V W} (r : res (V * W)) (d : W) : W := match r with Ok (_, w) => w | Err _ => d end.

Lemma scenario t0 tok1 o1 t1 tok2 o2 t2 cm t3 t4 tok5 o5 t5 :
  txn_init tape_feed (pairs false None) true (Some counting) (fun ep _ => a_digest ep) = Ok t0 ->
  demo_fetch t0 = Ok (Some (tok1, o1), t1) -> demo_fetch t1 = Ok (Some (tok2, o2), t2) ->
  prepare_commit true (Some counting) (fun _ _ => true) t2 [tok1] = Ok cm -> commit_prepared true t2 cm = Ok t3 ->
  rollback tape_feed (@e_shape Z) (pairs false None) true t3 = Ok t4 ->
  demo_fetch t4 = Ok (Some (tok5, o5), t5) ->
  demo_history {| cl_txn := t5; cl_usable := true; cl_pending := [(tok5, o5)]; cl_done := [(tk_batch tok1, o1)] |}.
Proof.
  intros H1 H2 H3 H4 H5 H6 H7.
  assert (K0 : demo_history {| cl_txn := t0; cl_usable := true; cl_pending := []; cl_done := [] |})
    by (apply hist_new; exact H1).
  assert (K1 : demo_history {| cl_txn := t1; cl_usable := true; cl_pending := [] ++ [(tok1, o1)]; cl_done := [] |})
    by (eapply hist_step; [exact K0|apply (@do_fetch _ _ _ _ _ _ _ _ _ _ _ _ 100); exact H2]).
  assert (K2 : demo_history {| cl_txn := t2; cl_usable := true; cl_pending := [(tok1, o1)] ++ [(tok2, o2)]; cl_done := [] |})
    by (eapply hist_step; [exact K1|apply (@do_fetch _ _ _ _ _ _ _ _ _ _ _ _ 100); exact H3]).
  assert (K3 : demo_history {| cl_txn := t3; cl_usable := true; cl_pending := [(tok2, o2)];
                               cl_done := [] ++ map (@shown_of _ _ _) [(tok1, o1)] |})
    by (eapply hist_step; [exact K2|eapply do_commit; [exact H4|exact H5]]).
  assert (K4 : demo_history {| cl_txn := t3; cl_usable := false; cl_pending := [(tok2, o2)];
                               cl_done := [] ++ map (@shown_of _ _ _) [(tok1, o1)] |})
    by (eapply hist_step; [exact K3|apply do_fail; split; [|split]; reflexivity]).
  assert (K5 : demo_history {| cl_txn := t4; cl_usable := true; cl_pending := [];
                               cl_done := [] ++ map (@shown_of _ _ _) [(tok1, o1)] |})
    by (eapply hist_step; [exact K4|eapply do_rollback; exact H6]).
  exact (hist_step K5 (@do_fetch _ _ _ _ _ _ _ _ _ _ _ _ 100 _ [] _ _ _ _ H7)).
Qed.

(** Fetch two batches, commit the first, fail, roll back, fetch again: the second
    batch comes back with the same data although the pipelines have state. *)
Example C20_example : exists t0 tok1 o1 t1 tok2 o2 t2 cm t3 t4 tok5 o5 t5,
  txn_init tape_feed (pairs false None) true (Some counting) (fun ep _ => a_digest ep) = Ok t0
  /\ demo_fetch t0 = Ok (Some (tok1, o1), t1) /\ demo_fetch t1 = Ok (Some (tok2, o2), t2)
  /\ prepare_commit true (Some counting) (fun _ _ => true) t2 [tok1] = Ok cm /\ commit_prepared true t2 cm = Ok t3
  /\ rollback tape_feed (@e_shape Z) (pairs false None) true t3 = Ok t4
  /\ demo_fetch t4 = Ok (Some (tok5, o5), t5)
  /\ o1 = [1; 3] /\ o2 = [12; 15] /\ o5 = o2 /\ tk_batch tok5 = tk_batch tok2
  /\ demo_history {| cl_txn := t5; cl_usable := true; cl_pending := [(tok5, o5)]; cl_done := [(tk_batch tok1, o1)] |}.
Proof.
  do 13 eexists.
  match goal with |- ?G1 /\ ?G2 /\ ?G3 /\ ?G4 /\ ?G5 /\ ?G6 /\ ?G7 /\ ?G8 =>
    assert (H1 : G1) by (vm_compute; reflexivity); split; [exact H1|];
    assert (H2 : G2) by (vm_compute; reflexivity); split; [exact H2|];
    assert (H3 : G3) by (vm_compute; reflexivity); split; [exact H3|];
    assert (H4 : G4) by (vm_compute; reflexivity); split; [exact H4|];
    assert (H5 : G5) by (vm_compute; reflexivity); split; [exact H5|];
    assert (H6 : G6) by (vm_compute; reflexivity); split; [exact H6|];
    assert (H7 : G7) by (vm_compute; reflexivity); split; [exact H7|]
  end.
  do 4 (split; [vm_compute; reflexivity|]).
  exact (scenario H1 H2 H3 H4 H5 H6 H7).
Qed.

(** A commit does not notice that its token was fetched before a rollback.  The
    committed state moves on, the planner does not: the batch that was committed is
    handed out once more, and its new token can no longer be committed. *)
Theorem C20_stale_tokens_are_rejected_refuted : exists t0 tok o t1 t2 cm t3 tok' t4,
  txn_init tape_feed (pairs false None) true (Some counting) (fun ep _ => a_digest ep) = Ok t0
  /\ demo_fetch t0 = Ok (Some (tok, o), t1)
  /\ rollback tape_feed (@e_shape Z) (pairs false None) true t1 = Ok t2
  /\ prepare_commit true (Some counting) (fun _ _ => true) t2 [tok] = Ok cm /\ commit_prepared true t2 cm = Ok t3
  /\ demo_fetch t3 = Ok (Some (tok', o), t4) /\ tk_batch tok' = tk_batch tok
  /\ prepare_commit true (Some counting) (fun _ _ => true) t4 [tok'] = Err RuntimeError.
Proof.
  do 9 eexists.
  split; [vm_compute; reflexivity|]. split; [vm_compute; reflexivity|]. split; [vm_compute; reflexivity|].
  split; [vm_compute; reflexivity|]. split; [vm_compute; reflexivity|]. split; [vm_compute; reflexivity|].
  split; [vm_compute; reflexivity|]. vm_compute. reflexivity.
Qed.
Print Assumptions C20_stale_tokens_are_rejected_refuted.
