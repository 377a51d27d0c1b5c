(** Model of how the trainer keeps a set of checkpoint files on disk
    (trainer/base.py): the checkpoint names and the runtime sidecars (116-127, 1262-1330,
    1420-1424), resuming (1426-1566), saving (1968-2147), pruning (3037-3156), and the
    discipline of the training loop that calls them (4006-4108).

    The disk is that of Checkpoint.v; directories other than the checkpoint directory are
    not looked at, and every entry of the checkpoint directory is a regular file.  Files
    hold a model (iteration and weights), a training state (iteration, everything else the
    trainer stores, and the names of the sidecars its rank states refer to), a sidecar, or
    something else.  The many format checks on the rank states and manifests
    (_validate_rank_resume_states, _validate_retained_vq_runtime_manifest) are one
    predicate [valid] that may reject a training state and make pruning raise.  An exception
    in the middle of a save is the same as a crash there: it ends the run
    (_checkpoint_attempt_failed).  On CUDA the operations of a save happen on the writer
    thread, but the next save first waits for it (flush), so the operations of
    successive saves never interleave; see AsyncWriter.v. *)
From Coq Require Import Ascii String.
From Verif Require Import Base Checkpoint.
Set Implicit Arguments.
Unset Strict Implicit.

(** ** Names of the runtime sidecars *)
Definition is_hex (c : ascii) : bool :=
  (is_digit c || ((97 <=? nat_of_ascii c) && (nat_of_ascii c <=? 102)))%nat%bool.
(** [0-9]{7}|[1-9][0-9]{7,} *)
Definition iteration_text (s : str) : bool :=
  forallb is_digit s && ((List.length s =? 7)%nat || ((8 <=? List.length s)%nat && negb (startswith (lit "0") s))).
(** 0|[1-9][0-9]* *)
Definition number_text (s : str) : bool :=
  isdigit s && (str_eqb s (lit "0") || negb (startswith (lit "0") s)).
Definition token_text (s : str) : bool := forallb is_hex s && (List.length s =? 32)%nat.
Definition strip_pt (s : str) : option str :=
  if endswith (lit ".pt") s then Some (firstn (List.length s - 3) s) else None.
(** _RUNTIME_SIDECAR_RE.fullmatch (lines 117-121): no field contains an underscore. *)
Definition is_sidecar (f : str) : bool :=
  match split_on underscore f with
  | [a; b; c; d; e] =>
      str_eqb a (lit "runtime") && iteration_text b && token_text c && str_eqb d (lit "rank")
      && match strip_pt e with Some r => number_text r | None => false end
  | _ => false
  end.
(** _RUNTIME_TEMP_RE.fullmatch (lines 122-127). *)
Definition is_runtime_temp (f : str) : bool :=
  match split_on underscore f with
  | [a; b; c; d; e; p; q] =>
      str_eqb a (lit ".runtime-tmp") && iteration_text b && token_text c && str_eqb d (lit "rank")
      && number_text e && number_text p && match strip_pt q with Some n => token_text n | None => false end
  | _ => false
  end.
(** _runtime_basename (1262-1277) and the temporary name (1320-1323). *)
Definition runtime_basename (iteration : Z) (generation : str) (rank : nat) : str :=
  lit "runtime_" ++ padded iteration ++ lit "_" ++ generation ++ lit "_rank_" ++ decimal (Z.of_nat rank) ++ lit ".pt".
Definition runtime_temp (iteration : Z) (generation : str) (rank : nat) (pid : Z) (nonce : str) : str :=
  lit ".runtime-tmp_" ++ padded iteration ++ lit "_" ++ generation ++ lit "_rank_" ++ decimal (Z.of_nat rank)
  ++ lit "_" ++ decimal pid ++ lit "_" ++ nonce ++ lit ".pt".

(** The operations of several ranks, each in its own order, mixed in some way. *)
Inductive interleave (A : Type) : list (list A) -> list A -> Prop :=
| il_done ls : Forall (fun l => l = []) ls -> interleave ls []
| il_step ls r x l t : nth_error ls r = Some (x :: l) -> interleave (upd ls r l) t -> interleave ls (x :: t).

Section Trainer.
Variables W T P : Type.   (* weights, training state, sidecar payload *)
Inductive obj :=
| OModel (iteration : Z) (w : W)
| OState (iteration : Z) (t : T) (sidecars : list str)
| OSidecar (p : P)
| OOther.

Variable dir : str.
Variable names : list str.                (* the checkpointed models, in dictionary order *)
Variable world : nat.                     (* number of ranks *)
Variable num_keep_states : Z.
Variable save_interval : Z.
Variable state_save_interval : option Z.
Variable valid : T -> bool.

Definition at_ (f : str) : str := join_path dir f.

(** One call of _save_checkpoint: the iteration, whether the state is forced, what is to
    be saved, and the random tokens drawn. *)
Record save := {
  sv_it : Z; sv_force : bool; sv_weights : str -> W; sv_training : T;
  sv_generation : str; sv_payload : nat -> P; sv_pid : nat -> Z; sv_nonce : nat -> str;
  sv_chunks : nat
}.
(** lines 1974-1978 and 2130-2134. *)
Definition saves_state (s : save) : bool :=
  sv_force s || match state_save_interval with None => true | Some k => sv_it s mod k =? 0 end.

(** _write_vq_runtime_sidecar (1306-1351): exclusive temporary file, link, unlink. *)
Definition sidecar_ops (s : save) (rank : nat) : list (op obj) :=
  let tmp := at_ (runtime_temp (sv_it s) (sv_generation s) rank (sv_pid s rank) (sv_nonce s rank)) in
  torch_save (sv_chunks s) (OSidecar (sv_payload s rank)) tmp
  ++ [Link tmp (at_ (runtime_basename (sv_it s) (sv_generation s) rank)); Remove tmp].
Definition sidecars (s : save) : list str := map (runtime_basename (sv_it s) (sv_generation s)) (seq 0 world).

(** _save_checkpoint_main (2110-2147): every model file, then the state file. *)
Definition model_ops (s : save) : list (op obj) :=
  flat_map (fun n => atomic_torch_save (sv_chunks s) (OModel (sv_it s) (sv_weights s n)) (at_ (model_ckpt_name n (sv_it s)))) names.
Definition state_ops (s : save) : list (op obj) :=
  if saves_state s
  then atomic_torch_save (sv_chunks s) (OState (sv_it s) (sv_training s) (sidecars s)) (at_ (state_name (sv_it s)))
  else [].
(** All writes of one save, [rt] being the mixed sidecar operations of the ranks. *)
Definition write_ops (s : save) (rt : list (op obj)) : list (op obj) :=
  (if saves_state s then rt else []) ++ model_ops s ++ state_ops s.

(** ** _cleanup_checkpoints (3037-3156) *)
Definition state_ltb (a b : Z * str) : bool :=
  if fst a =? fst b then str_ltb (snd a) (snd b) else fst a <? fst b.
(** lines 3050-3061. *)
Definition state_files (filenames : list str) : list (Z * str) :=
  flat_map (fun f => match get_iteration_from_ckpt_filename f with
                     | Some i => if startswith (lit "state_") f then [(i, at_ f)] else []
                     | None => [] end) filenames.
Definition model_files (filenames : list str) : list (Z * str) :=
  flat_map (fun f => match get_iteration_from_ckpt_filename f with
                     | Some i => if startswith (lit "state_") f then []
                                 else if startswith (lit "ckpt_") f then [(i, at_ f)] else []
                     | None => [] end) filenames.
(** lines 3063-3066. *)
Definition num_delete (n : Z) : Z :=
  let keep := if num_keep_states <? 0 then n else num_keep_states in Z.max 0 (n - keep).
(** lines 3068-3112: load and check the retained states, collect their sidecars. *)
Fixpoint protected_sidecars (d : disk obj) (retained : list (Z * str)) : res (list str) :=
  match retained with
  | [] => Ok []
  | (i, p) :: r =>
      match d p with
      | Some (Whole (OState j t sc)) =>
          guard (j =? i) && valid t else RuntimeError ;;
          rest <- protected_sidecars d r ;; Ok (sc ++ rest)
      | _ => Err RuntimeError
      end
  end.
(** lines 3148-3156; [None] is the iteration of no file. *)
Definition latest_iter (l : list (Z * str)) : option Z :=
  match l with [] => None | (i, _) :: r => Some (fold_left (fun m e => Z.max m (fst e)) r i) end.
Definition prunable (models : list (Z * str)) (kept : list Z) (i : Z) : bool :=
  negb (match latest_iter models with Some m => i =? m | None => false end)
  && negb (existsb (Z.eqb i) kept).

(** The removals, in order, and the temporary iterations that stay recorded.
    [filenames] is os.listdir in whatever order, [temp] the recorded temporary
    iterations in set order. *)
Definition cleanup (d : disk obj) (filenames : list str) (temp : list Z) : res (list (op obj) * list Z) :=
  let sorted := sort_by state_ltb (state_files filenames) in
  let nd := Z.to_nat (num_delete (zlen sorted)) in
  let retained := skipn nd sorted in
  prot <- protected_sidecars d retained ;;
  guard (forallb (fun f => negb (startswith (lit "runtime_") f && negb (is_sidecar f)
                                || startswith (lit ".runtime-tmp_") f && negb (is_runtime_temp f))) filenames)
    else RuntimeError ;;
  let models := model_files filenames in
  let gone := filter (prunable models (map fst retained)) temp in
  Ok (map (fun e => Remove (snd e)) (firstn nd sorted)
      ++ map (fun f => Remove (at_ f))
           (filter (fun f => is_sidecar f && negb (existsb (str_eqb f) prot) || is_runtime_temp f) filenames)
      ++ flat_map (fun i => map (fun e => Remove (snd e)) (filter (fun e => fst e =? i) models)) gone,
      filter (fun i => negb (prunable models (map fst retained) i)) temp).

(** ** _load_state_checkpoint (1452-1564), restricted to what depends on the files *)
Fixpoint load_models (d : disk obj) (iteration : Z) (ns : list str) : res (list W) :=
  match ns with
  | [] => Ok []
  | n :: r =>
      match d (at_ (model_ckpt_name n iteration)) with
      | None => Err OSError
      | Some (Whole (OModel j w)) =>
          guard (j =? iteration) else RuntimeError ;;
          ws <- load_models d iteration r ;; Ok (w :: ws)
      | Some _ => Err RuntimeError
      end
  end.
Fixpoint check_sidecars (d : disk obj) (l : list str) : res unit :=
  match l with
  | [] => Ok tt
  | f :: r => match d (at_ f) with Some (Whole (OSidecar _)) => check_sidecars d r | _ => Err RuntimeError end
  end.
(** _load_checkpoint (1426-1450): [None] when there is no training state to resume. *)
Definition resume (d : disk obj) (filenames : list str) : res (option (Z * T * list W)) :=
  match find_latest_ckpt (Some (map (fun f => (f, true)) filenames)) dir (lit "state_") default_exts with
  | None => Ok None
  | Some path =>
      match get_iteration_from_ckpt_filename path with
      | None => Err RuntimeError
      | Some iteration =>
          match d path with
          | Some (Whole (OState j t sc)) =>
              guard (j =? iteration) else RuntimeError ;;
              ws <- load_models d iteration names ;;
              '_ <- check_sidecars d sc ;;
              Ok (Some (iteration, t, ws))
          | _ => Err RuntimeError
          end
      end
  end.

(** ** The training process *)
(** What a running trainer remembers: the iteration of the last save or resume, the
    temporary iterations, and the iteration of its last saved state. *)
Record session := { ss_iteration : Z; ss_temp : list Z; ss_last_state : option Z }.
Inductive outcome := Completed | Interrupted.

(** os.listdir. *)
Definition lists (d : disk obj) (filenames : list str) : Prop :=
  NoDup filenames /\ forall f, In f filenames <-> (~ In slash f /\ d (at_ f) <> None).

(** The tokens drawn by a save: hexadecimal, and never used before (os.urandom). *)
Definition tokens_fresh (d : disk obj) (s : save) : Prop :=
  token_text (sv_generation s) = true
  /\ forall r, 0 <= sv_pid s r /\ token_text (sv_nonce s r) = true
     /\ d (at_ (runtime_basename (sv_it s) (sv_generation s) r)) = None
     /\ d (at_ (runtime_temp (sv_it s) (sv_generation s) r (sv_pid s r) (sv_nonce s r))) = None.

(** When the training loop saves (4061-4108): after a step, or once more, forced, when the
    state of the current iteration has not been saved. *)
Definition save_called (ss : session) (s : save) : Prop :=
  0 <= sv_it s
  /\ (ss_iteration ss < sv_it s
      \/ (sv_force s = true /\ ss_iteration ss <= sv_it s /\ ss_last_state ss <> Some (sv_it s))).
(** What the trainer remembers once a save has been requested (2127-2128). *)
Definition temp_with (ss : session) (s : save) : list Z :=
  if sv_it s mod save_interval =? 0 then ss_temp ss else sv_it s :: ss_temp ss.

(** All histories: a run starts (fresh or from the latest state), saves, is interrupted at
    any point of a save or between saves, and starts again.  [h] lists the saves so far. *)
Inductive trained (d0 : disk obj) : list (save * outcome) -> disk obj -> option session -> Prop :=
| tr_init : trained d0 [] d0 None
| tr_fresh h d fs : trained d0 h d None -> lists d fs -> resume d fs = Ok None ->
    trained d0 h d (Some {| ss_iteration := 0; ss_temp := []; ss_last_state := None |})
| tr_resume h d fs i t ws : trained d0 h d None -> lists d fs -> resume d fs = Ok (Some (i, t, ws)) ->
    trained d0 h d (Some {| ss_iteration := i; ss_temp := []; ss_last_state := Some i |})
| tr_stop h d ss : trained d0 h d (Some ss) -> trained d0 h d None
| tr_skip h d ss s : trained d0 h d (Some ss) -> save_called ss s ->
    (* the state file of this iteration exists: lines 1979-2005 *)
    saves_state s = true -> d (at_ (state_name (sv_it s))) <> None ->
    trained d0 h d (Some {| ss_iteration := sv_it s; ss_temp := ss_temp ss; ss_last_state := Some (sv_it s) |})
| tr_save h d ss s rt fs order ops temp : trained d0 h d (Some ss) -> save_called ss s ->
    ~ (saves_state s = true /\ d (at_ (state_name (sv_it s))) <> None) ->
    tokens_fresh d s -> interleave (map (sidecar_ops s) (seq 0 world)) rt ->
    lists (run_ops d (write_ops s rt)) fs ->
    (forall i, In i order <-> In i (temp_with ss s)) ->
    cleanup (run_ops d (write_ops s rt)) fs order = Ok (ops, temp) ->
    trained d0 (h ++ [(s, Completed)]) (run_ops (run_ops d (write_ops s rt)) ops)
      (Some {| ss_iteration := sv_it s; ss_temp := temp;
               ss_last_state := if saves_state s then Some (sv_it s) else ss_last_state ss |})
| tr_crash_writing h d ss s rt k : trained d0 h d (Some ss) -> save_called ss s ->
    ~ (saves_state s = true /\ d (at_ (state_name (sv_it s))) <> None) ->
    tokens_fresh d s -> interleave (map (sidecar_ops s) (seq 0 world)) rt ->
    trained d0 (h ++ [(s, Interrupted)]) (run_ops d (firstn k (write_ops s rt))) None
| tr_crash_pruning h d ss s rt fs order ops temp k : trained d0 h d (Some ss) -> save_called ss s ->
    ~ (saves_state s = true /\ d (at_ (state_name (sv_it s))) <> None) ->
    tokens_fresh d s -> interleave (map (sidecar_ops s) (seq 0 world)) rt ->
    lists (run_ops d (write_ops s rt)) fs ->
    (forall i, In i order <-> In i (temp_with ss s)) ->
    cleanup (run_ops d (write_ops s rt)) fs order = Ok (ops, temp) ->
    trained d0 (h ++ [(s, Interrupted)]) (run_ops (run_ops d (write_ops s rt)) (firstn k ops)) None.
End Trainer.
Arguments OModel {W T P} iteration w.
Arguments OState {W T P} iteration t sidecars.
Arguments OSidecar {W T P} p.
Arguments OOther {W T P}.
