(** dataset/telemetry.py 684-969: PipelineAutotuner, the controller of the prefetch and
    cache parameters.
    Simplifications: the float arithmetic on the metrics is abstract (the tests it decides
    are parameters, so every outcome is covered); keys are integers; reasons given as text
    are left out, as are the run record (a log file) and wall-clock times; the profile
    cache is modelled in ProfileStore.v, here it answers with what load() returned and
    whether save() raised OSError. *)
From Verif Require Import Base.
Set Implicit Arguments. Unset Strict Implicit.

(** PipelineAutotuneConfig (telemetry.py:97-111), after parse (113-161). *)
Record tconfig := {
  warmup_iterations : Z; verify_iterations : Z; decision_interval : Z; freeze_after : Z;
  max_threads : Z; max_batches : Z; cache_budget : Z }.
Definition tconfig_check (c : tconfig) : res unit :=
  guard 0 <=? warmup_iterations c else ValueError ;;
  guard 0 <=? verify_iterations c else ValueError ;;
  guard 1 <=? decision_interval c else ValueError ;;
  guard 1 <=? freeze_after c else ValueError ;;
  guard 1 <=? max_threads c else ValueError ;;
  guard 1 <=? max_batches c else ValueError ;;
  guard 1 <=? cache_budget c else ValueError ;; Ok tt.

(** The four tuned parameters, and their names. *)
Record settings := { threads : Z; batches : Z; entries : Z; bytes_ : Z }.
Inductive option_name := Threads | Batches | Entries | Bytes.
Definition get (s : settings) (o : option_name) : Z :=
  match o with Threads => threads s | Batches => batches s | Entries => entries s | Bytes => bytes_ s end.
Definition put (s : settings) (o : option_name) (v : Z) : settings :=
  match o with
  | Threads => {| threads := v; batches := batches s; entries := entries s; bytes_ := bytes_ s |}
  | Batches => {| threads := threads s; batches := v; entries := entries s; bytes_ := bytes_ s |}
  | Entries => {| threads := threads s; batches := batches s; entries := v; bytes_ := bytes_ s |}
  | Bytes => {| threads := threads s; batches := batches s; entries := entries s; bytes_ := v |}
  end.
Definition settings_eqb (a b : settings) : bool :=
  (threads a =? threads b) && (batches a =? batches b) && (entries a =? entries b) && (bytes_ a =? bytes_ b).

Inductive reuse_kind := ExactProfile | CompatibleProfile.
Inductive decision :=
| Adjust (iteration : Z) (before after : settings)
| Freeze (iteration : Z)
| InvalidateReuse (iteration : Z)
| CacheWriteFailed (iteration : Z).

Record tuner := {
  t_settings : settings; t_reused : option reuse_kind; t_frozen : bool;
  t_started : option Z; t_last : option Z; t_decisions : list decision }.

Section Tuner.
Variable cfg : tconfig.
Variable locked : option_name -> bool.
Variables exact_key compatible_key : Z.

(** telemetry.py:725-738 *)
Definition clamp (s : settings) : settings :=
  {| threads := Z.min (Z.max 1 (threads s)) (max_threads cfg);
     batches := Z.min (Z.max 1 (batches s)) (max_batches cfg);
     entries := Z.max 1 (entries s);
     bytes_ := Z.min (Z.max 1 (bytes_ s)) (cache_budget cfg) |}.

(** telemetry.py:687-723.  [profile]: the [resolved] dictionary of the profile found (its
    entries by name, in order; unknown names left out) and how it was found. *)
Definition apply_profile (s : settings) (resolved : list (option_name * Z)) : settings :=
  fold_left (fun s nv => if locked (fst nv) then s else put s (fst nv) (snd nv)) resolved s.
Definition construct (initial : settings) (profile : option (list (option_name * Z) * reuse_kind)) : tuner :=
  {| t_settings := clamp (match profile with Some (r, _) => apply_profile initial r | None => initial end);
     t_reused := match profile with Some (_, k) => Some k | None => None end;
     t_frozen := false; t_started := None; t_last := None; t_decisions := [] |}.

(** telemetry.py:926-937, state_dict *)
Record tstate := {
  s_schema : bool; (* schema == PIPELINE_TUNING_SCHEMA *)
  s_exact : Z; s_compatible : Z;
  s_settings : option settings; (* None: not a dictionary with exactly the four names *)
  s_reused : option reuse_kind; s_frozen : bool; s_started : option Z; s_last : option Z;
  s_decisions : option (list decision) (* None: not a list *) }.
Definition state_dict (t : tuner) : tstate :=
  {| s_schema := true; s_exact := exact_key; s_compatible := compatible_key; s_settings := Some (t_settings t);
     s_reused := t_reused t; s_frozen := t_frozen t; s_started := t_started t; s_last := t_last t;
     s_decisions := Some (t_decisions t) |}.
(** telemetry.py:939-968 (what it changes before it raises for [decisions] is not modelled) *)
Definition load_state_dict (s : tstate) : res tuner :=
  guard s_schema s else ValueError ;;
  guard (s_exact s =? exact_key) && (s_compatible s =? compatible_key) else ValueError ;;
  st <- match s_settings s with Some x => Ok x | None => Err ValueError end ;;
  ds <- match s_decisions s with Some l => Ok l | None => Err ValueError end ;;
  Ok {| t_settings := clamp st; t_reused := s_reused s; t_frozen := s_frozen s; t_started := s_started s;
        t_last := s_last s; t_decisions := ds |}.

(** The metrics, through the tests made on them (telemetry.py:822-827, 870, 889, 890, 899). *)
Record metrics := {
  healthy : bool;            (* headroom and wait fraction both meet their targets *)
  reloads : bool;            (* cache/reloads > 0 *)
  queue_full : Z -> bool;    (* queue_depth_mean >= prefetch_batches * 0.7 *)
  excess : bool }.           (* headroom >= 2 * target *)
(** int(cache_bytes * 1.25) *)
Variable scaled : Z -> Z.

(** telemetry.py:778-801, _freeze; [save_ok]: the profile cache took the record. *)
Definition freeze (t : tuner) (i : Z) (save_ok : bool) : tuner :=
  {| t_settings := t_settings t; t_reused := t_reused t; t_frozen := true; t_started := t_started t; t_last := Some i;
     t_decisions := t_decisions t ++ [Freeze i] ++ (if save_ok then [] else [CacheWriteFailed i]) |}.

(** telemetry.py:848-902: the adjusted settings *)
Definition adjusted (s : settings) (m : metrics) : settings :=
  if negb (healthy m) then
    if negb (locked Threads) && (threads s <? max_threads cfg) then put s Threads (threads s + 1)
    else if negb (locked Batches) && (batches s <? max_batches cfg) then
      put s Batches (Z.min (max_batches cfg) (Z.max (batches s + 1) (batches s * 2)))
    else if reloads m && negb (locked Bytes) && (bytes_ s <? cache_budget cfg) then
      put (put s Entries (entries s + 1)) Bytes
          (Z.min (cache_budget cfg) (Z.max (bytes_ s + 128 * 1024 ^ 2) (scaled (bytes_ s))))
    else s
  else
    let minimum_depth := Z.max 2 (threads s * 2) in
    if negb (locked Batches) && (minimum_depth <? batches s) && queue_full m (batches s) && excess m then
      put s Batches (Z.max minimum_depth (batches s / 2))
    else if negb (locked Threads) && (1 <? threads s) && excess m then put s Threads (threads s - 1)
    else s.

(** telemetry.py:803-924.  The result is None when there is nothing to decide; the third
    component is the profile record handed to the cache, if any. *)
Definition elapsed (started : Z) (i : Z) : Z := Z.max 0 (i - started).
Definition update (t : tuner) (m : metrics) (i : Z) (save_ok : bool) : tuner * option tstate * option settings :=
  let started := match t_started t with Some s => s | None => i end in
  let t := {| t_settings := t_settings t; t_reused := t_reused t; t_frozen := t_frozen t; t_started := Some started;
              t_last := t_last t; t_decisions := t_decisions t |} in
  let minimum := match t_reused t with Some _ => verify_iterations cfg | None => warmup_iterations cfg end in
  if t_frozen t || (elapsed started i <? minimum) then (t, None, None)
  else if match t_last t with Some l => i - l <? decision_interval cfg | None => false end then (t, None, None)
  else
    let frozen t := let t' := freeze t i save_ok in (t', Some (state_dict t'), Some (t_settings t')) in
    let with_last reused decisions :=
      {| t_settings := t_settings t; t_reused := reused; t_frozen := false; t_started := Some started;
         t_last := Some i; t_decisions := decisions |} in
    let verify := match t_reused t with Some _ => verify_iterations cfg <=? elapsed started i | None => false end in
    if verify && healthy m then frozen (with_last (t_reused t) (t_decisions t))
    else
      let t := if verify then with_last None (t_decisions t ++ [InvalidateReuse i]) else with_last (t_reused t) (t_decisions t) in
      if freeze_after cfg <=? elapsed started i then frozen t
      else
        let before := t_settings t in
        let after := clamp (adjusted before m) in
        if settings_eqb after before then
          if healthy m then frozen t else (t, Some (state_dict t), None)
        else
          let t' := {| t_settings := after; t_reused := t_reused t; t_frozen := false; t_started := Some started; t_last := Some i;
                       t_decisions := t_decisions t ++ [Adjust i before after] |} in
          (t', Some (state_dict t'), None).
End Tuner.

(** ** The dataset around it: telemetry.py 1030-1034, 1152-1194 and katago.py 912-944.
    [d_limit] is the limit of the decode gate, [d_cache] the decoder's cache capacity. *)
Record tuned := { d_tuner : tuner; d_limit : Z; d_cache : Z * Z }.
Section Dataset.
Variable cfg : tconfig.
Variable locked : option_name -> bool.
Variable scaled : Z -> Z.

(** decoder.py:82-102, configure_cache *)
Definition configure_cache (entries byte_capacity : Z) : res (Z * Z) :=
  guard 1 <=? entries else ValueError ;;
  guard 1 <=? byte_capacity else ValueError ;; Ok (entries, byte_capacity).
Definition tuned_init (initial : settings) (profile : option (list (option_name * Z) * reuse_kind)) : res tuned :=
  let t := construct cfg locked initial profile in
  c <- configure_cache (entries (t_settings t)) (bytes_ (t_settings t)) ;;
  Ok {| d_tuner := t; d_limit := threads (t_settings t); d_cache := c |}.
(** telemetry.py:1167-1180 *)
Definition load_tuning (k1 k2 : Z) (s : tstate) : res tuned :=
  t <- load_state_dict cfg k1 k2 s ;;
  c <- configure_cache (entries (t_settings t)) (bytes_ (t_settings t)) ;;
  Ok {| d_tuner := t; d_limit := threads (t_settings t); d_cache := c |}.
(** telemetry.py:1156-1162 *)
Definition tuning_update (k1 k2 : Z) (d : tuned) (m : metrics) (i : Z) (save_ok : bool) : res (tuned * option tstate) :=
  let '(t, s, _) := update cfg locked k1 k2 scaled (d_tuner d) m i save_ok in
  match s with
  | None => Ok ({| d_tuner := t; d_limit := d_limit d; d_cache := d_cache d |}, None)
  | Some s => d' <- load_tuning k1 k2 s ;; Ok (d', Some s)
  end.
(** telemetry.py:1182-1193; None: the state is ignored *)
Definition restore_tuning (k1 k2 : Z) (s : tstate) : res (option tuned) :=
  if (s_exact s =? k1) && (s_compatible s =? k2) then d <- load_tuning k1 k2 s ;; Ok (Some d) else Ok None.
(** trainer/base.py:4339-4352: the main process decides, the others load its state.  A rank
    is a dataset and its two keys; the main process is the first. *)
Definition ranks_update (main : Z * Z * tuned) (others : list (Z * Z * tuned)) (m : metrics) (i : Z) (save_ok : bool)
  : res (list (Z * Z * tuned)) :=
  let '(k1, k2, d) := main in
  '(d', s) <- tuning_update k1 k2 d m i save_ok ;;
  match s with
  | None => Ok ((k1, k2, d') :: others)
  | Some s =>
      l <- mapM (fun o => let '(e1, e2, _) := o in d2 <- load_tuning e1 e2 s ;; Ok (e1, e2, d2)) others ;;
      Ok ((k1, k2, d') :: l)
  end.
End Dataset.
