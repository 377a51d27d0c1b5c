(** Specification vocabulary for C58-C60: the course of a training run. *)
From Verif Require Import Base TrainLoop.
Set Implicit Arguments. Unset Strict Implicit.

Section Course.
Variables W batch : Type.
Variable batch_at : nat -> batch.
Variable clip : W -> W.
Variable step : Z -> W -> list batch -> W.
Variable observe : Z -> W -> W.
Variables early_finite last_finite : Z -> W -> list batch -> bool.
Variable w0 : W.
Variables (size : Z) (acc : nat).

(** The batches of the (n+1)-th step, and the state after n steps without any trouble. *)
Definition batches (n : nat) : list batch := map batch_at (seq (n * acc) acc).
Fixpoint after (n : nat) : W :=
  match n with O => w0 | S m => observe (Z.of_nat n) (step (Z.of_nat n) (clip (after m)) (batches m)) end.
Definition finite_step (n : nat) : Prop :=
  early_finite (Z.of_nat (S n)) (clip (after n)) (batches n) = true /\ last_finite (Z.of_nat (S n)) (clip (after n)) (batches n) = true.

(** A checkpoint taken exactly after n steps. *)
Definition exact (n : nat) (c : ckpt W) : Prop :=
  at_iteration c = Z.of_nat n /\ at_rows c = Z.of_nat n * (size * Z.of_nat acc) /\ at_w c = after n /\ at_cursor c = (n * acc)%nat.

(** One process: its configuration, and everything that goes wrong. *)
Record session := { the_cfg : config; the_sky : Z -> weather W; the_ending : ending }.
Definition same_data (x : session) : Prop := batch_size (the_cfg x) = size /\ accumulation (the_cfg x) = acc.
(** When checkpoints are due - for the weights, as temporary ones, for the training state - and when validation is. *)
Definition multiple (n i : Z) : Prop := i mod n = 0.
Definition saves_at (c : config) (i : Z) : Prop :=
  multiple (save_interval c) i \/ multiple (temp_save_interval c) i \/ exists n, state_save_interval c = Some n /\ multiple n i.
Definition state_saved_at (c : config) (i : Z) : Prop := forall n, state_save_interval c = Some n -> multiple n i.
Definition validates_at (c : config) (i : Z) : Prop := has_val c = true /\ multiple (val_interval c) i.
(** No interrupt between two steps if the result of the first one may still be unknown. *)
Definition calm (x : session) : Prop :=
  deferred (the_cfg x) = true ->
  after_loop (the_ending x) = false
  /\ forall i, ~ saves_at (the_cfg x) i -> ~ validates_at (the_cfg x) i -> gap (the_sky x i) = false /\ top (the_sky x (i + 1)) = false.
Definition runs (x : session) (s : st W) : st W * bool :=
  run batch_at clip step observe early_finite last_finite (the_cfg x) (the_sky x) (the_ending x) s.
(** No operation fails and every save works; what is left are interrupts between two steps. *)
Definition fine (a : attempt) : Prop := equal a = true /\ outcome a = Saves.
Definition clear (wx : weather W) : Prop :=
  fetch_fails wx = None /\ between_counters wx = false /\ step_fails wx = false /\ commit_fails wx = false /\ change_fails wx = None /\ after_commit wx = false
  /\ log_fails wx = false /\ show_fails wx = false /\ val_fails wx = false /\ profiler_fails wx = false /\ fine (save wx).
Definition smooth (n0 : nat) (x : session) : Prop :=
  at_start (the_ending x) = false /\ fine (final_save (the_ending x)) /\ fine (emergency (the_ending x))
  /\ forall n, (n0 <= n)%nat -> Z.of_nat n < iterations (the_cfg x) -> clear (the_sky x (Z.of_nat n + 1)) /\ finite_step n.
Definition interrupted (x : session) : Prop :=
  before_loop (the_ending x) = true \/ after_loop (the_ending x) = true \/ last_word (the_ending x) = true
  \/ exists i, gap (the_sky x i) = true \/ top (the_sky x i) = true.
(** The checkpoints there have ever been, after any number of processes, each of which starts afresh or from one of them. *)
Inductive history (P : session -> Prop) : list (ckpt W) -> Prop :=
| h_fresh x : P x -> history P (disk (fst (runs x (fresh w0))))
| h_resume d c x : history P d -> In c d -> full c = true -> P x -> history P (disk (fst (runs x (resumed c d)))).
End Course.
