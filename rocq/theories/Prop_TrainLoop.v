(** C58, C59, C60: what a training run leaves behind. *)
From Verif Require Import Base BaseFacts TrainLoop TrainLoopSpec TrainLoopFacts.
Set Implicit Arguments. Unset Strict Implicit.

Section Training.
Variables W batch : Type.
Variable batch_at : nat -> batch.
Variable clip : W -> W.
Variable step : Z -> W -> list batch -> W.
Variable observe : Z -> W -> W.
Variables early_finite last_finite : Z -> W -> list batch -> bool.
Variable w0 : W.
Variables (size : Z) (acc : nat).
Hypothesis acc_pos : (0 < acc)%nat.
Notation runs := (runs batch_at clip step observe early_finite last_finite).
Notation history := (history batch_at clip step observe early_finite last_finite w0).
Notation exact := (exact batch_at clip step observe w0 size acc).
Notation after := (after batch_at clip step observe w0 acc).
Notation finite_step := (finite_step batch_at clip step observe early_finite last_finite w0 acc).
Notation smooth := (smooth batch_at clip step observe early_finite last_finite w0 acc).
Notation good_disk := (good_disk batch_at clip step observe early_finite last_finite w0 size acc).
Notation starts := (starts batch_at clip step observe early_finite last_finite w0 size acc).

Lemma fresh_starts C : starts C 0 (fresh w0).
Proof.
  split; [split; [reflexivity|]; split; [reflexivity|]; split; reflexivity|]. split; [reflexivity|]. split; [intros c []|]. split; [reflexivity|]. split; [reflexivity|]. discriminate.
Qed.
Lemma resumed_starts C n c d : good_disk C d -> In c d -> exact n c -> full c = true -> starts C n (resumed c d).
Proof.
  intros G I (E1 & E2 & E3 & E4) Fc. split; [split; [exact E1|]; split; [exact E2|]; split; [exact E3|exact E4]|]. split; [reflexivity|]. split; [exact G|]. split; [reflexivity|]. split; [reflexivity|].
  intros i Hi. cbn in Hi. injection Hi as <-. split; [exact E1|]. exists c. auto.
Qed.
Lemma history_good (P : session W -> Prop) (C : Prop) (d : list (ckpt W)) : (forall x, P x -> same_data size acc x) -> (C -> forall x, P x -> calm x) -> history P d -> good_disk C d.
Proof.
  intros HP HC H. induction H as [x Hx|d c x H IH I Fc Hx].
  - apply (@run_facts _ _ batch_at clip step observe early_finite last_finite w0 size acc acc_pos x (HP x Hx) C (fun z => HC z x Hx) 0 ltac:(intros; lia) _ (fresh_starts C)).
  - destruct (IH c I) as (n & E & Fn). apply (@run_facts _ _ batch_at clip step observe early_finite last_finite w0 size acc acc_pos x (HP x Hx) C (fun z => HC z x Hx) n Fn _ (resumed_starts IH I E Fc)).
Qed.

(** ** C58: checkpoints are step boundaries *)
(** Whatever goes wrong and however often the training is killed and resumed (from any checkpoint with a training state), every
    checkpoint ever written is the state after a whole number of steps, with the counters and the data cursor of exactly these. *)
Theorem C58_every_checkpoint_is_a_step_boundary : forall d c, history (same_data size acc) d -> In c d -> exists n, exact n c.
Proof.
  intros d c H I. destruct (@history_good _ False d (fun x Hx => Hx) ltac:(tauto) H c I) as (n & E & _). eauto.
Qed.
(** So checkpoints of the same iteration have the same contents, whichever processes wrote them. *)
Theorem C58_an_iteration_has_one_state : forall d d' c c', history (same_data size acc) d -> history (same_data size acc) d' ->
  In c d -> In c' d' -> at_iteration c = at_iteration c' -> at_w c = at_w c' /\ at_rows c = at_rows c' /\ at_cursor c = at_cursor c'.
Proof.
  intros d d' c c' H H' I I' E. destruct (C58_every_checkpoint_is_a_step_boundary H I) as (n & E1 & E2 & E3 & E4). destruct (C58_every_checkpoint_is_a_step_boundary H' I') as (n' & E1' & E2' & E3' & E4').
  assert (n = n') as -> by lia. split; [congruence|]. split; congruence.
Qed.
(** A process that returns has made exactly the steps asked for: one that resumed ends like one that never stopped. *)
Theorem C58_resumed_training_ends_like_an_uninterrupted_one : forall d c x y, history (same_data size acc) d -> In c d -> full c = true -> same_data size acc x -> same_data size acc y ->
  snd (runs x (resumed c d)) = true -> snd (runs y (fresh w0)) = true -> at_iteration c <= iterations (the_cfg x) -> iterations (the_cfg x) = iterations (the_cfg y) ->
  let a := fst (runs x (resumed c d)) in let b := fst (runs y (fresh w0)) in
  iteration a = iteration b /\ rows a = rows b /\ w a = w b /\ committed a = committed b.
Proof.
  intros d c x y H I Fc Sx Sy Rx Ry Le Eq. cbv zeta. pose proof (@history_good _ False d (fun x Hx => Hx) ltac:(tauto) H) as G. destruct (G c I) as (n & E & Fn).
  destruct (@run_facts _ _ batch_at clip step observe early_finite last_finite w0 size acc acc_pos x Sx False ltac:(tauto) n Fn _ (resumed_starts G I E Fc)) as (_ & Fx & _).
  destruct (@run_facts _ _ batch_at clip step observe early_finite last_finite w0 size acc acc_pos y Sy False ltac:(tauto) 0 ltac:(tauto) _ (fresh_starts False)) as (_ & Fy & _).
  destruct (Fx Rx) as (m & _ & Em & (A1 & A2 & A3 & A4) & _). destruct (Fy Ry) as (m' & _ & Em' & (B1 & B2 & B3 & B4) & _).
  destruct E as (E & _). assert (m = m') as -> by lia. split; [congruence|]. split; [congruence|]. split; congruence.
Qed.

(** ** C59: no step that is not finite *)
(** With the checks deferred too, nothing that follows a step with a non-finite loss or gradient is written - unless an interrupt
    comes between two steps while the check of the first is still on its way. *)
Theorem C59_checkpoints_follow_finite_steps_only : forall d c n, history (fun x => same_data size acc x /\ calm x) d -> In c d -> exact n c ->
  forall m, (m < n)%nat -> finite_step m.
Proof.
  intros d c n H I E. destruct (@history_good _ True d (fun x Hx => proj1 Hx) (fun _ x Hx => proj2 Hx) H c I) as (n' & E' & Fn). assert (n = n') as -> by (destruct E as (E & _), E' as (E' & _); lia). auto.
Qed.
(** A run that returns has seen the result of every check. *)
Theorem C59_a_run_that_returns_was_finite : forall x, same_data size acc x -> snd (runs x (fresh w0)) = true ->
  forall m, Z.of_nat m < iteration (fst (runs x (fresh w0))) -> finite_step m.
Proof.
  intros x Sx R m Hm. destruct (@run_facts _ _ batch_at clip step observe early_finite last_finite w0 size acc acc_pos x Sx False ltac:(tauto) 0 ltac:(tauto) _ (fresh_starts False)) as (_ & Fy & _).
  destruct (Fy R) as (n & _ & _ & (A & _) & B & _). apply B. lia.
Qed.

(** ** C60: a run that returns has saved everything due *)
Definition on_disk (d : list (ckpt W)) (i : Z) (with_state : Prop) : Prop := exists c, In c d /\ at_iteration c = i /\ (with_state -> full c = true).
Lemma stored_on_disk d i b (P : Prop) : (P <-> b = true) -> stored d i b -> on_disk d i P.
Proof. intros E (c & I & A & B). exists c. split; [exact I|]. split; [exact A|]. intros H. apply B, E, H. Qed.
Lemma true_True : True <-> true = true.
Proof. split; auto. Qed.
Theorem C60_a_run_that_returns_has_saved_what_was_due : forall d c x, history (same_data size acc) d -> In c d -> full c = true -> same_data size acc x ->
  snd (runs x (resumed c d)) = true ->
  let s := fst (runs x (resumed c d)) in
  iteration s = Z.max (at_iteration c) (iterations (the_cfg x)) /\ on_disk (disk s) (iteration s) True
  /\ forall i, at_iteration c < i <= iteration s -> saves_at (the_cfg x) i -> on_disk (disk s) i (state_saved_at (the_cfg x) i).
Proof.
  intros d c x H I Fc Sx R. cbv zeta. pose proof (@history_good _ False d (fun x Hx => Hx) ltac:(tauto) H) as G. destruct (G c I) as (n & E & Fn).
  destruct (@run_facts _ _ batch_at clip step observe early_finite last_finite w0 size acc acc_pos x Sx False ltac:(tauto) n Fn _ (resumed_starts G I E Fc)) as (_ & Fx & _).
  destruct (Fx R) as (m & Hm & Em & (A1 & _) & _ & St & Du). destruct E as (E & _). rewrite A1, E. split; [exact Em|]. split; [apply (stored_on_disk true_True St)|]. intros i Hi Hd. apply saves_at_iff in Hd.
  specialize (Du (Z.to_nat i)). rewrite Z2Nat.id in Du by lia. apply (stored_on_disk (state_saved_at_iff _ _)). apply Du; [lia|exact Hd].
Qed.
Theorem C60_a_fresh_run_that_returns_has_saved_what_was_due : forall x, same_data size acc x -> snd (runs x (fresh w0)) = true ->
  let s := fst (runs x (fresh w0)) in
  iteration s = Z.max 0 (iterations (the_cfg x)) /\ on_disk (disk s) (iteration s) True
  /\ forall i, 0 < i <= iteration s -> saves_at (the_cfg x) i -> on_disk (disk s) i (state_saved_at (the_cfg x) i).
Proof.
  intros x Sx R. cbv zeta.
  destruct (@run_facts _ _ batch_at clip step observe early_finite last_finite w0 size acc acc_pos x Sx False ltac:(tauto) 0 ltac:(tauto) _ (fresh_starts False)) as (_ & Fx & _).
  destruct (Fx R) as (m & Hm & Em & (A1 & _) & _ & St & Du). rewrite A1. split; [exact Em|]. split; [apply (stored_on_disk true_True St)|]. intros i Hi Hd. apply saves_at_iff in Hd.
  specialize (Du (Z.to_nat i)). rewrite Z2Nat.id in Du by lia. apply (stored_on_disk (state_saved_at_iff _ _)). apply Du; [lia|exact Hd].
Qed.
(** If operations and saves work and the steps are finite, interrupts between steps lose nothing: the state of the last completed
    step is on disk, to be resumed; without an interrupt the run returns. *)
Theorem C60_interrupts_between_steps_lose_nothing : forall x, same_data size acc x -> smooth 0 x ->
  let s := fst (runs x (fresh w0)) in on_disk (disk s) (iteration s) True /\ (~ interrupted x -> snd (runs x (fresh w0)) = true).
Proof.
  intros x Sx Sm. cbv zeta.
  destruct (@run_facts _ _ batch_at clip step observe early_finite last_finite w0 size acc acc_pos x Sx False ltac:(tauto) 0 ltac:(tauto) _ (fresh_starts False)) as (_ & _ & Fx). destruct (Fx Sm) as (A & B). split; [exact (stored_on_disk true_True A)|exact B].
Qed.
Theorem C60_interrupts_of_a_resumed_run_lose_nothing : forall d c x n, history (same_data size acc) d -> In c d -> full c = true -> exact n c -> same_data size acc x -> smooth n x ->
  let s := fst (runs x (resumed c d)) in on_disk (disk s) (iteration s) True /\ (~ interrupted x -> snd (runs x (resumed c d)) = true).
Proof.
  intros d c x n H I Fc E Sx Sm. cbv zeta. pose proof (@history_good _ False d (fun x Hx => Hx) ltac:(tauto) H) as G. destruct (G c I) as (n' & E' & Fn). assert (n' = n) as -> by (destruct E as (E & _), E' as (E' & _); lia).
  destruct (@run_facts _ _ batch_at clip step observe early_finite last_finite w0 size acc acc_pos x Sx False ltac:(tauto) n Fn _ (resumed_starts G I E Fc)) as (_ & _ & Fx). destruct (Fx Sm) as (A & B). split; [exact (stored_on_disk true_True A)|exact B].
Qed.
End Training.

(** ** Examples *)
Definition clear_sky : weather nat :=
  {| top := false; fetch_fails := None; between_counters := false; step_fails := false; commit_fails := false; change_fails := None; after_commit := false;
     log_fails := false; show_fails := false; val_fails := false; profiler_fails := false; gap := false; save := {| kept := true; equal := true; outcome := Saves |} |}.
Definition nice_end : ending := {| at_start := false; before_loop := false; after_loop := false; final_save := {| kept := true; equal := true; outcome := Saves |}; last_word := false; emergency := {| kept := true; equal := true; outcome := Saves |} |}.
Definition small : config := {| iterations := 5; batch_size := 3; accumulation := 2; log_interval := 2; show_interval := 3; val_interval := 4; has_val := true;
  save_interval := 2; temp_save_interval := 100; state_save_interval := Some 4; deferred := true |}.
(** The weights add up the batches; a step whose batches contain 7 is not finite. *)
Definition add_up (i : Z) (v : nat) (bs : list nat) : nat := fold_left Nat.add bs v.
Definition no_seven (i : Z) (v : nat) (bs : list nat) : bool := forallb (fun b => negb (b =? 7)%nat) bs.
Definition go (first : nat) (sky : Z -> weather nat) (e : ending) (s : st nat) : st nat * bool :=
  run (fun k => (first + k)%nat) (fun v => v) add_up (fun _ v => v) (fun _ _ _ => true) no_seven small sky e s.
Definition at_ (c : ckpt nat) := (at_iteration c, at_rows c, at_w c, at_cursor c, full c).
(** From batch 10 on, all goes well: checkpoints at 2 and 4 (with state) and at the end. *)
Example smooth_run : let r := go 10 (fun _ => clear_sky) nice_end (fresh 0%nat) in
  snd r = true /\ map at_ (disk (fst r)) = [(5, 30, 145%nat, 10%nat, true); (4, 24, 108%nat, 8%nat, true); (2, 12, 46%nat, 4%nat, false)].
Proof. split; vm_compute; reflexivity. Qed.
(** An interrupt right after the third step; then resumed. *)
Definition cut_at (k : Z) (i : Z) : weather nat :=
  if i =? k then {| top := false; fetch_fails := None; between_counters := false; step_fails := false; commit_fails := false; change_fails := None; after_commit := false;
     log_fails := false; show_fails := false; val_fails := false; profiler_fails := false; gap := true; save := {| kept := true; equal := true; outcome := Saves |} |} else clear_sky.
Example interrupted_run : let r := go 10 (cut_at 3) nice_end (fresh 0%nat) in
  snd r = false /\ map at_ (disk (fst r)) = [(3, 18, 75%nat, 6%nat, true); (2, 12, 46%nat, 4%nat, false)]
  /\ match disk (fst r) with
     | c :: _ => let r' := go 10 (fun _ => clear_sky) nice_end (resumed c (disk (fst r))) in snd r' = true /\ map at_ (disk (fst r')) = [(5, 30, 145%nat, 10%nat, true); (4, 24, 108%nat, 8%nat, true); (3, 18, 75%nat, 6%nat, true); (2, 12, 46%nat, 4%nat, false)]
     | [] => False
     end.
Proof. split; [|split]; vm_compute; [reflexivity|reflexivity|split; reflexivity]. Qed.
(** An optimizer that breaks in the third step and leaves nonsense behind: nothing of it is written. *)
Definition junk_at (k : Z) (i : Z) : weather nat :=
  if i =? k then {| top := false; fetch_fails := None; between_counters := false; step_fails := false; commit_fails := false; change_fails := Some 999%nat; after_commit := false;
     log_fails := false; show_fails := false; val_fails := false; profiler_fails := false; gap := false; save := {| kept := true; equal := true; outcome := Saves |} |} else clear_sky.
Example broken_run : let r := go 10 (junk_at 3) nice_end (fresh 0%nat) in snd r = false /\ w (fst r) = 999%nat /\ map at_ (disk (fst r)) = [(2, 12, 46%nat, 4%nat, false)].
Proof. split; [|split]; vm_compute; reflexivity. Qed.
(** A step that is not finite (the third has batches 6 and 7): found one step later, and not written. *)
Example infinite_run : let r := go 2 (fun _ => clear_sky) nice_end (fresh 0%nat) in snd r = false /\ map at_ (disk (fst r)) = [(2, 12, 14%nat, 4%nat, false)].
Proof. split; vm_compute; reflexivity. Qed.
Definition job (sky : Z -> weather nat) : session nat := {| the_cfg := small; the_sky := sky; the_ending := nice_end |}.
Example jobs_meet_the_hypotheses : same_data 3 2 (job (cut_at 2)) /\ calm (job (cut_at 2)) /\ ~ calm (job (cut_at 3))
  /\ smooth (fun k => (10 + k)%nat) (fun v => v) add_up (fun _ v => v) (fun _ _ _ => true) no_seven 0%nat 2 0 (job (cut_at 3)).
Proof.
  split; [split; reflexivity|]. split; [|split].
  - intros _. split; [reflexivity|]. intros i S _. cbn in *. unfold cut_at. destruct (Z.eqb_spec i 2) as [-> |N]; [destruct S; left; reflexivity|]. destruct (Z.eqb_spec (i + 1) 2); split; reflexivity.
  - intros H. destruct (H eq_refl) as (_ & K). destruct (K 3) as (G & _); [apply (due_not (saves_at_iff _ _)); reflexivity|apply (due_not (validates_at_iff _ _)); reflexivity|]. discriminate.
  - split; [reflexivity|]. split; [split; reflexivity|]. split; [split; reflexivity|]. intros n _ L. cbn [the_cfg job iterations small] in L. split.
    + cbn [the_sky job]. unfold cut_at. destruct (Z.eqb_spec (Z.of_nat n + 1) 3); (split; [reflexivity|]); repeat (split; [reflexivity|]); split; reflexivity.
    + split; [reflexivity|]. assert (N : (n = 0 \/ n = 1 \/ n = 2 \/ n = 3 \/ n = 4)%nat) by lia. destruct N as [-> |[-> |[-> |[-> | ->]]]]; reflexivity.
Qed.
(** The hypothesis of [C59_checkpoints_follow_finite_steps_only] cannot be left out: an interrupt right after the third step, and
    the emergency checkpoint has the weights of the step that was not finite. *)
Theorem C59_refuted_interrupted_runs_save_finite_steps_only :
  ~ (forall x d c n, same_data 3 2 x ->
       d = disk (fst (runs (fun k => (2 + k)%nat) (fun v => v) add_up (fun _ v => v) (fun _ _ _ => true) no_seven x (fresh 0%nat))) -> In c d ->
       exact (fun k => (2 + k)%nat) (fun v => v) add_up (fun _ v => v) 0%nat 3 2 n c ->
       forall m, (m < n)%nat -> finite_step (fun k => (2 + k)%nat) (fun v => v) add_up (fun _ v => v) (fun _ _ _ => true) no_seven 0%nat 2 m).
Proof.
  intros H. destruct (H (job (cut_at 3)) _ {| at_iteration := 3; at_rows := 18; at_w := 27%nat; at_cursor := 6%nat; full := true |} 3%nat (conj eq_refl eq_refl) eq_refl) with (m := 2%nat) as (_ & X).
  - vm_compute. left. reflexivity.
  - split; [reflexivity|]. split; [reflexivity|]. split; reflexivity.
  - lia.
  - vm_compute in X. discriminate.
Qed.
