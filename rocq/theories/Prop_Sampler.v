(** C23: the map-style sampler.  Vocabulary (rank_share, batches_of, ledger) is at
    the top of SamplerFacts.v; the code is modelled in Sampler.v. *)
From Verif Require Import Base BaseFacts Sampler SamplerFacts.
Set Implicit Arguments.
Unset Strict Implicit.

(** torch.randperm(n): some permutation of 0..n-1 for every generator seed. *)
Definition is_randperm (randperm : Z -> nat -> list nat) : Prop :=
  forall g n, Permutation (range n) (randperm g n).

(** A configuration the constructor accepts (the length of a dataset is not negative). *)
Definition legal (cf : sampler_config) : Prop :=
  0 <= sm_length cf /\ 0 <= sm_rank cf < sm_world cf.

Section History.
  Variable randperm : Z -> nat -> list nat.
  Variable cf : sampler_config.
  Variable b : nat.
  Variable drop_last : bool.

  (** Everything the trainer can do, in any order.  [ahead] batches of look-ahead
      are read at any time. *)
  Inductive shistory : tloop -> list sevent -> tloop -> Prop :=
  | sh_start l : shistory l [] l
  | sh_read l evs l1 l2 : shistory l evs l1 -> read_ahead randperm cf b drop_last l1 = Ok l2 ->
      shistory l evs l2
  | sh_fetch l evs l1 ahead x l2 : shistory l evs l1 -> fetch randperm cf b drop_last ahead l1 = Ok (x, l2) ->
      shistory l (evs ++ [Fetched x]) l2
  | sh_commit l evs l1 n l2 : shistory l evs l1 -> commit cf n l1 = Ok l2 ->
      shistory l (evs ++ [CommittedS n]) l2
  | sh_rollback l evs l1 : shistory l evs l1 -> shistory l (evs ++ [RolledBack]) (roll_back l1)
  | sh_restart l evs l1 l2 : shistory l evs l1 -> restart cf l1 = Ok l2 ->
      shistory l (evs ++ [Restarted]) l2.

  (** The batches of an epoch on this rank, with no interruption: the epoch's
      indices, every world-th one from the rank on, cut into batches. *)
  Definition ideal_epoch (epoch : Z) : list sbatch :=
    map (fun l => (epoch, l))
        (batches_of b drop_last
           (rank_share (Z.to_nat (sm_world cf)) (Z.to_nat (sm_rank cf)) (epoch_indices randperm cf epoch))).
  Definition ideal (epochs : nat) : list sbatch := flat_map (fun e => ideal_epoch (Z.of_nat e)) (seq 0 epochs).
End History.

Lemma ledger_app evs1 evs2 d o : ledger (evs1 ++ evs2) d o = let '(d1, o1) := ledger evs1 d o in ledger evs2 d1 o1.
Proof. revert d o; induction evs1 as [|[x|n| |] evs1 IH]; intros d o; cbn; auto. Qed.

Lemma plans_ideal randperm cf b drop n : forall k,
  plans randperm cf b drop n (Z.of_nat k) = flat_map (fun e => ideal_epoch randperm cf b drop (Z.of_nat e)) (seq k n).
Proof.
  induction n as [|n IH]; intros k; cbn [plans seq flat_map]; [reflexivity|].
  replace (Z.of_nat k + 1) with (Z.of_nat (S k)) by lia. rewrite IH. reflexivity.
Qed.

Lemma randperm_length randperm : is_randperm randperm -> forall g n, List.length (randperm g n) = n.
Proof. intros H g n. rewrite <- (Permutation_length (H g n)). unfold range. apply seq_length. Qed.

Lemma history_Inv randperm cf b drop s evs l :
  is_randperm randperm -> legal cf -> (0 < b)%nat -> sampler_new cf = Ok s ->
  shistory randperm cf b drop (loop_at s) evs l ->
  Inv randperm cf b drop l (fst (ledger evs [] [])) (snd (ledger evs [] [])).
Proof.
  intros Hp [Hn Hr] Hb Hs H. pose proof (randperm_length Hp) as Hl.
  assert (Hw : 0 < sm_world cf) by lia.
  remember (loop_at s) as l0 eqn:E0. induction H as [l|l evs l1 l2 H IH Hst|l evs l1 ahead x l2 H IH Hst
    |l evs l1 n l2 H IH Hst|l evs l1 H IH|l evs l1 l2 H IH Hst]; subst l; try specialize (IH eq_refl);
    try (rewrite ledger_app; destruct (ledger evs [] []) as [d o]; cbn [fst snd ledger] in *).
  - cbn. apply Inv_start; auto.
  - pose proof (read_ahead_spec Hl Hn Hw Hr Hb (iv_reads IH)) as (l3 & E & Hrd & (S1 & S2 & S3 & S4 & S5 & S6) & _).
    rewrite E in Hst. inversion Hst; subst l3. constructor.
    + rewrite <- S1, <- S2. apply (iv_done IH).
    + rewrite <- S1, <- S2, <- S4, <- S5, <- S6. apply (iv_open IH).
    + rewrite <- S1, <- S2. apply (iv_pos IH).
    + rewrite <- S4, <- S5. exact Hrd.
  - pose proof (fetch_spec Hl Hn Hw Hr Hb ahead IH) as Hf. rewrite Hst in Hf. exact Hf.
  - pose proof (commit_spec Hl Hb n IH) as Hf. rewrite Hst in Hf. exact Hf.
  - apply (rollback_spec Hl Hb IH).
  - destruct (restart_spec Hl Hw Hr Hb IH) as (l3 & E & HI). rewrite E in Hst. inversion Hst; subst. exact HI.
Qed.

(** ** C23 *)
(** Whatever the look-ahead, the number of batches per commit, and the failures and
    restarts on the way: the durable batches followed by the open ones are an
    initial part of the uninterrupted sequence.  So no batch is lost, repeated or
    reordered, and after a restart the next batch is the first one not committed. *)
Theorem C23_every_history_follows_the_uninterrupted_sequence :
  forall randperm cf b drop s evs l durable opened,
  is_randperm randperm -> legal cf -> (0 < b)%nat -> sampler_new cf = Ok s ->
  shistory randperm cf b drop (loop_at s) evs l ->
  ledger evs [] [] = (durable, opened) ->
  exists epochs rest, ideal randperm cf b drop epochs = durable ++ opened ++ rest.
Proof.
  intros randperm cf b drop s evs l durable opened Hp Hleg Hb Hs H El.
  pose proof (history_Inv Hp Hleg Hb Hs H) as HI. rewrite El in HI. cbn [fst snd] in HI.
  pose proof (path_app (iv_done HI) (opens_path (iv_open HI))) as P.
  destruct (path_plans (randperm_length Hp) Hb P) as (n & rest & E & _).
  cbn [fst] in E. rewrite left_zero in E.
  change (plans randperm cf b drop (S n) 0 = (durable ++ opened) ++ rest) in E.
  change 0 with (Z.of_nat 0) in E. rewrite plans_ideal in E.
  exists (S n), rest. rewrite app_assoc. exact E.
Qed.

(** In every reachable situation the calls succeed: a batch can be fetched whenever
    epochs are long enough to hold one, any positive number of open batches can be
    committed, and the saved state can be loaded. *)
Theorem C23_no_call_is_refused :
  forall randperm cf b drop s evs l durable opened,
  is_randperm randperm -> legal cf -> (0 < b)%nat -> sampler_new cf = Ok s ->
  shistory randperm cf b drop (loop_at s) evs l ->
  ledger evs [] [] = (durable, opened) ->
  (forall ahead, (if drop then Z.of_nat b <= sm_length cf / sm_world cf else sm_world cf <= sm_length cf) ->
     exists x l1, fetch randperm cf b drop ahead l = Ok (x, l1))
  /\ (forall n, (0 < n)%nat -> opened <> [] -> exists l1, commit cf n l = Ok l1)
  /\ exists l1, restart cf l = Ok l1.
Proof.
  intros randperm cf b drop s evs l durable opened Hp Hleg Hb Hs H El.
  pose proof (history_Inv Hp Hleg Hb Hs H) as HI. rewrite El in HI. cbn [fst snd] in HI.
  destruct Hleg as [Hn Hr]. assert (Hw : 0 < sm_world cf) by lia. pose proof (randperm_length Hp) as Hl.
  split; [|split].
  - intros ahead Hne. pose proof (fetch_spec Hl Hn Hw Hr Hb ahead HI) as Hf.
    destruct (fetch randperm cf b drop ahead l) as [[x l1]|e]; [eauto|].
    destruct Hf as [_ Hf]. exfalso. apply Hf. unfold epochs_nonempty, local_length.
    destruct drop; [exact Hne|]. apply Z.div_str_pos. lia.
  - intros n Hn0 Ho. pose proof (commit_spec Hl Hb n HI) as Hc.
    destruct (commit cf n l) as [l1|e]; [eauto|]. destruct Hc as [_ Hc].
    destruct opened; [congruence|]. destruct n; [lia|]. discriminate.
  - destruct (restart_spec Hl Hw Hr Hb HI) as (l1 & E & _). eauto.
Qed.

Lemma nth_error_skipn {A} (l : list A) k i : nth_error (skipn k l) i = nth_error l (k + i).
Proof. revert l; induction k as [|k IH]; intros [|x l]; cbn; auto. destruct i; reflexivity. Qed.

Lemma nth_error_firstn {A} (l : list A) : forall k i, (i < k)%nat -> nth_error (firstn k l) i = nth_error l i.
Proof. induction l as [|x l IH]; intros [|k] [|i] H; cbn; auto; try lia. apply IH. lia. Qed.

(** The ranks of one epoch share out its indices: together they deliver the first
    (length / world) * world elements of the epoch's permutation, each once; fewer
    than world indices are left out. *)
Lemma ranks_concat {A} (d : A) w l : (0 < w)%nat -> forall k, (k * w <= List.length l)%nat ->
  Permutation (firstn (k * w) l)
    (flat_map (fun r => map (fun i => nth (i * w + r) l d) (seq 0 k)) (seq 0 w)).
Proof.
  intros Hw. induction k as [|k IH]; intros Hk.
  - cbn. clear. induction (seq 0 w); cbn; auto.
  - assert (Hsplit : firstn (S k * w) l = firstn (k * w) l ++ map (fun r => nth (k * w + r) l d) (seq 0 w)).
    { assert (E1 : firstn (k * w) (firstn (S k * w) l) = firstn (k * w) l) by (rewrite firstn_firstn; f_equal; lia).
      rewrite <- (firstn_skipn (k * w) (firstn (S k * w) l)) at 1. rewrite E1. f_equal.
      apply nth_ext with (d := d) (d' := d).
      - rewrite skipn_length, firstn_length, map_length, seq_length. nia.
      - intros i Hi. rewrite skipn_length, firstn_length in Hi.
        rewrite (nth_indep (map _ _) d (nth (k * w + 0) l d)) by (rewrite map_length, seq_length; lia).
        rewrite (map_nth (fun r => nth (k * w + r) l d) (seq 0 w) 0%nat i).
        rewrite seq_nth by lia. cbn [Nat.add].
        assert (E2 : nth_error (skipn (k * w) (firstn (S k * w) l)) i = nth_error l (k * w + i)).
        { rewrite nth_error_skipn. apply nth_error_firstn. lia. }
        erewrite nth_error_nth; [reflexivity|]. rewrite E2. apply nth_error_nth'. lia. }
    rewrite Hsplit, IH by lia. clear Hsplit IH.
    assert (G : forall ws, Permutation
      (flat_map (fun r => map (fun i => nth (i * w + r) l d) (seq 0 k)) ws ++ map (fun r => nth (k * w + r) l d) ws)
      (flat_map (fun r => map (fun i => nth (i * w + r) l d) (seq 0 (S k))) ws)).
    { induction ws as [|r ws IHw]; [reflexivity|]. cbn [flat_map map]. rewrite seq_S, map_app. cbn [map Nat.add].
      rewrite <- !app_assoc. apply Permutation_app_head. cbn [app].
      rewrite <- Permutation_middle. constructor. rewrite seq_S in IHw. exact IHw. }
    apply G.
Qed.

Theorem C23_ranks_share_out_every_epoch :
  forall randperm length shuffle seed world epoch,
  is_randperm randperm -> (0 < world)%nat ->
  let share r := rank_share world r
    (epoch_indices randperm {| sm_length := Z.of_nat length; sm_shuffle := shuffle; sm_seed := seed;
                               sm_rank := Z.of_nat r; sm_world := Z.of_nat world |} epoch) in
  let all := flat_map share (range world) in
  exists left_out, Permutation (all ++ left_out) (range length) /\ (List.length left_out < world)%nat
    /\ forall r, List.length (share r) = (length / world)%nat.
Proof.
  intros randperm length shuffle seed world epoch Hp Hw share all.
  set (l := if shuffle then randperm (seed + epoch) length else range length).
  assert (Hperm : Permutation (range length) l) by (subst l; destruct shuffle; [apply Hp|reflexivity]).
  assert (Hlen : List.length l = length).
  { rewrite <- (Permutation_length Hperm). unfold range. apply seq_length. }
  assert (Hshare : forall r, share r = rank_share world r l).
  { intros r. subst share l. unfold epoch_indices. cbn. rewrite Nat2Z.id. reflexivity. }
  exists (skipn (length / world * world) l). split; [|split].
  - assert (Hall : Permutation all (firstn (length / world * world) l)).
    { subst all. rewrite (ranks_concat 0%nat (l := l) Hw (k := (length / world)%nat)).
      - unfold range. clear -Hshare Hlen. induction (seq 0 world) as [|r ws IH]; [reflexivity|].
        cbn [flat_map]. rewrite Hshare. unfold rank_share at 1. rewrite Hlen. apply Permutation_app_head. exact IH.
      - rewrite Hlen. pose proof (Nat.mul_div_le length world). nia. }
    rewrite Hall, firstn_skipn. symmetry. exact Hperm.
  - rewrite skipn_length, Hlen. pose proof (Nat.div_mod length world). pose proof (Nat.mod_upper_bound length world). nia.
  - intros r. rewrite Hshare. unfold rank_share. rewrite map_length, seq_length, Hlen. reflexivity.
Qed.

(** Batches of one epoch, put together, are the rank's share; with drop_last fewer
    than a batch is missing at the end. *)
Theorem C23_batches_cover_the_share :
  forall b drop (share : list nat), (0 < b)%nat ->
  exists tail, List.concat (batches_of b drop share) ++ tail = share
    /\ (List.length tail < b)%nat /\ (drop = false -> tail = []).
Proof.
  intros b drop share Hb. remember (List.length share) as n eqn:En. revert share En.
  induction n as [n IH] using lt_wf_ind. intros share En.
  destruct (Nat.lt_ge_cases (List.length share) b) as [Hs|Hs].
  - rewrite (batches_short (randperm := fun _ n => range n) drop ltac:(intros; unfold range; apply seq_length) Hb Hs). destruct drop; cbn [orb].
    + exists share. cbn. split; [reflexivity|]. split; [exact Hs|discriminate].
    + exists []. destruct share; cbn; rewrite ?app_nil_r; auto.
  - rewrite (batches_full (randperm := fun _ n => range n) drop ltac:(intros; unfold range; apply seq_length) Hb Hs). cbn [List.concat].
    destruct (IH (List.length (skipn b share))) with (share := skipn b share) as (tail & E & Ht & Hd).
    + rewrite skipn_length. lia.
    + reflexivity.
    + exists tail. split; [|auto]. rewrite <- app_assoc, E. apply firstn_skipn.
Qed.

(** A state saved for another dataset length, shuffling, seed, world size or rank is refused. *)
Theorem C23_foreign_states_are_rejected :
  forall cf1 cf2 s, sampler_load cf2 (sampler_save cf1 s) <> Err RuntimeError ->
  cf1 = cf2 /\ exists t, sampler_load cf2 (sampler_save cf1 s) = Ok t /\ t = sampler_at (sp_epoch s) (sp_offset s).
Proof.
  intros cf1 cf2 s. unfold sampler_load, sampler_save.
  cbn [ss_version ss_length ss_shuffle ss_seed ss_world ss_rank ss_epoch ss_offset].
  change (2 =? 1) with false. change (2 =? 2) with true. cbv iota. cbn [andb].
  destruct ((sm_length cf1 =? sm_length cf2) && Bool.eqb (sm_shuffle cf1) (sm_shuffle cf2)
            && (sm_seed cf1 =? sm_seed cf2) && (sm_world cf1 =? sm_world cf2)
            && (sm_rank cf1 =? sm_rank cf2)) eqn:E; [|congruence].
  repeat (apply andb_prop in E; destruct E as [E ?]). apply eqb_prop in H2.
  destruct cf1, cf2. cbn in *.
  destruct (_ && _); [|congruence]. intros _. split; [f_equal; lia || assumption|eauto].
Qed.

(** Finding: a token fetched before a rollback is still accepted afterwards
    (prepare_commit checks the range of the token, not that its samples were
    delivered again), so the cursor can move past batches that will be delivered
    again, and the new token of the next batch is then refused. *)
Theorem C23_stale_tokens_are_rejected_refuted :
  ~ forall randperm cf b drop l l1 l2 x stale,
    is_randperm randperm -> legal cf -> (0 < b)%nat ->
    sampler_new cf = Ok (tl_s l) -> l = loop_at (tl_s l) ->
    fetch randperm cf b drop 0 l = Ok (x, l1) -> tl_open l1 = [stale] -> l2 = roll_back l1 ->
    prepare_commit cf (tl_s l2) [stale] = Err RuntimeError.
Proof.
  intros H.
  set (cf := {| sm_length := 4; sm_shuffle := false; sm_seed := 0; sm_rank := 0; sm_world := 1 |}).
  pose (rp := fun (_ : Z) (n : nat) => range n).
  specialize (H rp cf 2%nat true (loop_at (sampler_at 0 0))).
  remember (fetch rp cf 2 true 0 (loop_at (sampler_at 0 0))) as r eqn:Er. vm_compute in Er. subst r.
  specialize (H _ _ _ _ (fun _ n => Permutation_refl _) ltac:(unfold legal; cbn; lia) ltac:(lia)
                eq_refl eq_refl eq_refl eq_refl eq_refl).
  vm_compute in H. discriminate H.
Qed.

(** ** A concrete run: 11 samples, 2 ranks, batches of 2, look-ahead 1, a failed
    step and a restart; hypotheses of the theorems above hold. *)
Section Example.
  Definition ex_randperm (_ : Z) (n : nat) : list nat := rev (range n).
  Definition ex_cf := {| sm_length := 11; sm_shuffle := true; sm_seed := 7; sm_rank := 1; sm_world := 2 |}.
  Lemma ex_is_randperm : is_randperm ex_randperm.
  Proof. intros g n. apply Permutation_rev. Qed.

  Fixpoint play (script : list sevent) (l : tloop) : res (list sevent * tloop) :=
    match script with
    | [] => Ok ([], l)
    | e :: rest =>
        '(e1, l1) <- match e with
                     | Fetched _ => '(x, l1) <- fetch ex_randperm ex_cf 2 true 1 l ;; Ok (Fetched x, l1)
                     | CommittedS n => l1 <- commit ex_cf n l ;; Ok (CommittedS n, l1)
                     | RolledBack => Ok (RolledBack, roll_back l)
                     | Restarted => l1 <- restart ex_cf l ;; Ok (Restarted, l1)
                     end ;;
        '(evs, l2) <- play rest l1 ;; Ok (e1 :: evs, l2)
    end.
  Lemma play_history l0 script : forall l evs0 evs l1, shistory ex_randperm ex_cf 2 true l0 evs0 l ->
    play script l = Ok (evs, l1) -> shistory ex_randperm ex_cf 2 true l0 (evs0 ++ evs) l1.
  Proof.
    induction script as [|e script IH]; intros l evs0 evs l1 H0 H; cbn [play] in H.
    - inversion H; subst. rewrite app_nil_r. exact H0.
    - inv_bind H. destruct v as [e1 l2]. inv_bind H. destruct v as [evs2 l3]. inversion H; subst.
      replace (evs0 ++ e1 :: evs2) with ((evs0 ++ [e1]) ++ evs2) by (rewrite <- app_assoc; reflexivity).
      eapply IH; [|eassumption]. destruct e.
      + inv_bind Hm. destruct v as [x2 l4]. inversion Hm; subst. eapply sh_fetch; eauto.
      + inv_bind Hm. inversion Hm; subst. eapply sh_commit; eauto.
      + inversion Hm; subst. apply sh_rollback. exact H0.
      + inv_bind Hm. inversion Hm; subst. eapply sh_restart; eauto.
  Qed.
  Notation F := (Fetched (0, [])).
  Definition ex_script := [F; F; CommittedS 1; RolledBack; F; CommittedS 1; F; Restarted; F; F; CommittedS 2].
  Definition ex_out : res (list sevent * tloop) := Eval vm_compute in play ex_script (loop_at (sampler_at 0 0)).
  Example ex_run :
    legal ex_cf /\ sampler_new ex_cf = Ok (sampler_at 0 0) /\
    exists evs l, shistory ex_randperm ex_cf 2 true (loop_at (sampler_at 0 0)) evs l
      /\ evs = [Fetched (0, [9; 7]%nat); Fetched (0, [5; 3]%nat); CommittedS 1; RolledBack;
                Fetched (0, [5; 3]%nat); CommittedS 1; Fetched (1, [9; 7]%nat); Restarted;
                Fetched (1, [9; 7]%nat); Fetched (1, [5; 3]%nat); CommittedS 2]
      /\ ledger evs [] [] = ([(0, [9; 7]%nat); (0, [5; 3]%nat); (1, [9; 7]%nat); (1, [5; 3]%nat)], []).
  Proof.
    split; [unfold legal; cbn; lia|]. split; [reflexivity|].
    destruct ex_out as [[evs l]|e] eqn:E; [|vm_compute in E; discriminate].
    exists evs, l. split; [|split].
    - change evs with ([] ++ evs). apply (@play_history (loop_at (sampler_at 0 0)) ex_script (loop_at (sampler_at 0 0))); [constructor|].
      rewrite <- E. vm_compute. reflexivity.
    - vm_compute in E. inversion E. reflexivity.
    - vm_compute in E. inversion E. reflexivity.
  Qed.
End Example.
