(** Model of utils/training_utils.py:761-1003, ResumableSampler, of the batch
    sampler torch's DataLoader puts around it, and of the way the trainer drives it
    (trainer/base.py:_fetch_batch 4218-4285, the commit at 3857-3870 and 3948-3956,
    the rollback at 4022-4028, the checkpoint at 2303-2310 and 2659-2666).
    Simplifications: torch.randperm(n, generator seeded with g) is the parameter
    [randperm g n]; a batch is its list of dataset indices together with the
    epoch the dataset was told when the iterator started (_active_epoch);
    a raised exception ends the run. *)
From Verif Require Import Base.
Set Implicit Arguments.
Unset Strict Implicit.

(** lines 785-800: constructor arguments; sm_length is len(data_source). *)
Record sampler_config := {
  sm_length : Z;
  sm_shuffle : bool;
  sm_seed : Z;
  sm_rank : Z;
  sm_world : Z
}.

(** lines 806-811. *)
Record sampler := {
  sp_epoch : Z;
  sp_offset : Z;
  sp_yield_epoch : Z;
  sp_yielded : Z;
  sp_staged_epoch : Z;
  sp_staged : Z
}.

(** lines 761-766 SamplerBatchToken. *)
Record stoken := {
  st_before : Z * Z;
  st_after : Z * Z
}.

(** lines 769-775 PreparedSamplerCommit. *)
Record sprepared := {
  sq_before : Z * Z;
  sq_after : Z * Z;
  sq_count : Z
}.

(** lines 932-942 state_dict (version 2) and the legacy version 1. *)
Record sampler_state := {
  ss_version : Z;
  ss_length : Z;
  ss_shuffle : bool;
  ss_seed : Z;
  ss_world : Z;
  ss_rank : Z;
  ss_epoch : Z;
  ss_offset : Z
}.

Section Sampler.
  Variable randperm : Z -> nat -> list nat.
  Variable cf : sampler_config.

  (** lines 785-811 __init__. *)
  Definition sampler_at (epoch offset : Z) : sampler :=
    {| sp_epoch := epoch; sp_offset := offset; sp_yield_epoch := epoch; sp_yielded := offset;
       sp_staged_epoch := epoch; sp_staged := offset |}.
  Definition sampler_new : res sampler :=
    guard negb ((sm_world cf <=? 0) || negb ((0 <=? sm_rank cf) && (sm_rank cf <? sm_world cf)))
      else ValueError ;;
    Ok (sampler_at 0 0).

  (** lines 813-815. *)
  Definition local_length : Z := sm_length cf / sm_world cf.

  (** lines 828-834: the indices of one epoch. *)
  Definition epoch_indices (epoch : Z) : list nat :=
    if sm_shuffle cf then randperm (sm_seed cf + epoch) (Z.to_nat (sm_length cf))
    else range (Z.to_nat (sm_length cf)).

  (** The generator object of __iter__: the body runs from the first next() on. *)
  Inductive siter := INew | ILive (epoch : Z) (indices : list nat) | IDone (epoch : Z).

  Definition set_yielded (s : sampler) (v : Z) : sampler :=
    {| sp_epoch := sp_epoch s; sp_offset := sp_offset s; sp_yield_epoch := sp_yield_epoch s;
       sp_yielded := v; sp_staged_epoch := sp_staged_epoch s; sp_staged := sp_staged s |}.

  (** lines 820-838 __iter__; the epoch announced to the dataset (lines 821-827) is
      returned with the index. *)
  Definition iter_next (s : sampler) (it : siter) : res (option nat * Z * siter * sampler) :=
    match it with
    | IDone e => Ok (None, e, IDone e, s)
    | _ =>
        let '(epoch, indices) := match it with
                                 | ILive e l => (e, l)
                                 | _ => (sp_yield_epoch s, epoch_indices (sp_yield_epoch s))
                                 end in
        if sp_yielded s <? local_length then
          i <- py_get indices (Z.to_nat (sp_yielded s * sm_world cf + sm_rank cf)) ;;
          Ok (Some i, epoch, ILive epoch indices, set_yielded s (sp_yielded s + 1))
        else Ok (None, epoch, IDone epoch, s)
    end.

  (** torch.utils.data.BatchSampler.__iter__ (library): up to [n] indices. *)
  Fixpoint grab (n : nat) (s : sampler) (it : siter) : res (list nat * siter * sampler) :=
    match n with
    | O => Ok ([], it, s)
    | S k =>
        '(o, _, it1, s1) <- iter_next s it ;;
        match o with
        | None => Ok ([], it1, s1)
        | Some i => '(l, it2, s2) <- grab k s1 it1 ;; Ok (i :: l, it2, s2)
        end
    end.

  Definition iter_epoch (s : sampler) (it : siter) : Z :=
    match it with INew => sp_yield_epoch s | ILive e _ => e | IDone e => e end.

  (** next() of a DataLoader with batch_size [b]; None is StopIteration. *)
  Definition loader_next (b : nat) (drop_last : bool) (s : sampler) (it : siter)
    : res (option (Z * list nat) * siter * sampler) :=
    let epoch := iter_epoch s it in
    '(l, it1, s1) <- grab b s it ;;
    Ok (if (List.length l =? b)%nat then Some (epoch, l)
        else if drop_last || match l with [] => true | _ => false end then None
        else Some (epoch, l), it1, s1).

  (** lines 840-877 stage_batch. *)
  Definition stage_batch (s : sampler) (count : Z) : res (stoken * sampler) :=
    guard negb (count <=? 0) else RuntimeError ;;
    let before := (sp_staged_epoch s, sp_staged s) in
    '(epoch, offset) <-
      (if sp_yield_epoch s =? sp_staged_epoch s + 1 then Ok (sp_yield_epoch s, 0)
       else guard sp_yield_epoch s =? sp_staged_epoch s else RuntimeError ;;
            Ok (sp_staged_epoch s, sp_staged s)) ;;
    let available := local_length - offset in
    let delivered := Z.min count available in
    guard negb ((delivered <=? 0) || (sp_yielded s <? offset + delivered)) else RuntimeError ;;
    Ok ({| st_before := before; st_after := (epoch, offset + delivered) |},
        {| sp_epoch := sp_epoch s; sp_offset := sp_offset s; sp_yield_epoch := sp_yield_epoch s;
           sp_yielded := sp_yielded s; sp_staged_epoch := epoch; sp_staged := offset + delivered |}).

  (** lines 879-885 advance_yield_epoch. *)
  Definition advance_yield_epoch (s : sampler) : res sampler :=
    guard negb (sp_yielded s <? local_length) else RuntimeError ;;
    Ok {| sp_epoch := sp_epoch s; sp_offset := sp_offset s; sp_yield_epoch := sp_yield_epoch s + 1;
          sp_yielded := 0; sp_staged_epoch := sp_staged_epoch s; sp_staged := sp_staged s |}.

  Definition pos_eqb (a b : Z * Z) : bool := (fst a =? fst b) && (snd a =? snd b).

  (** lines 894-907: the loop of prepare_commit. *)
  Fixpoint check_stokens (s : sampler) (toks : list stoken) (pos : Z * Z) : res (Z * Z) :=
    match toks with
    | [] => Ok pos
    | t :: rest =>
        guard pos_eqb (st_before t) pos else RuntimeError ;;
        guard negb ((fst (st_after t) <? sp_epoch s) || (sp_yield_epoch s <? fst (st_after t)))
          else RuntimeError ;;
        guard (0 <=? snd (st_after t)) && (snd (st_after t) <=? local_length) else RuntimeError ;;
        check_stokens s rest (st_after t)
    end.

  (** lines 887-914 prepare_commit. *)
  Definition prepare_commit (s : sampler) (toks : list stoken) : res sprepared :=
    match toks with
    | [] => Err ValueError
    | _ =>
        pos <- check_stokens s toks (sp_epoch s, sp_offset s) ;;
        Ok {| sq_before := (sp_epoch s, sp_offset s); sq_after := pos; sq_count := zlen toks |}
    end.

  (** lines 916-923 commit_prepared. *)
  Definition commit_prepared (s : sampler) (c : sprepared) : res sampler :=
    guard pos_eqb (sq_before c) (sp_epoch s, sp_offset s) else RuntimeError ;;
    Ok {| sp_epoch := fst (sq_after c); sp_offset := snd (sq_after c);
          sp_yield_epoch := sp_yield_epoch s; sp_yielded := sp_yielded s;
          sp_staged_epoch := sp_staged_epoch s; sp_staged := sp_staged s |}.

  (** lines 925-930 rollback_uncommitted. *)
  Definition rollback (s : sampler) : sampler := sampler_at (sp_epoch s) (sp_offset s).

  (** lines 932-942 state_dict. *)
  Definition sampler_save (s : sampler) : sampler_state :=
    {| ss_version := 2; ss_length := sm_length cf; ss_shuffle := sm_shuffle cf; ss_seed := sm_seed cf;
       ss_world := sm_world cf; ss_rank := sm_rank cf; ss_epoch := sp_epoch s; ss_offset := sp_offset s |}.

  (** lines 944-1003 load_state_dict. *)
  Definition sampler_load (t : sampler_state) : res sampler :=
    if ss_version t =? 1 then
      guard (sm_world cf =? 1) && (sm_rank cf =? 0) else RuntimeError ;;
      guard (ss_length t =? sm_length cf) && Bool.eqb (ss_shuffle t) (sm_shuffle cf)
            && (ss_seed t =? sm_seed cf) else RuntimeError ;;
      guard (0 <=? ss_offset t) && (ss_offset t <=? local_length) else RuntimeError ;;
      Ok (sampler_at (ss_epoch t) (ss_offset t))
    else
      guard (ss_version t =? 2) && (ss_length t =? sm_length cf) && Bool.eqb (ss_shuffle t) (sm_shuffle cf)
            && (ss_seed t =? sm_seed cf) && (ss_world t =? sm_world cf) && (ss_rank t =? sm_rank cf)
        else RuntimeError ;;
      guard (0 <=? ss_offset t) && (ss_offset t <=? local_length) else RuntimeError ;;
      Ok (sampler_at (ss_epoch t) (ss_offset t)).

  (** ** The trainer around it *)
  Variable b : nat.              (* batch_size_per_process *)
  Variable drop_last : bool.

  Definition sbatch := (Z * list nat)%type.

  (** The loader iterator with what a look-ahead wrapper has read (utils/training_utils.py:209-760)
      and the trainer's open tokens. *)
  Record tloop := {
    tl_s : sampler;
    tl_it : siter;
    tl_ended : bool;             (* the loader iterator has raised StopIteration *)
    tl_queue : list sbatch;
    tl_open : list stoken
  }.

  Definition loop_at (s : sampler) : tloop :=
    {| tl_s := s; tl_it := INew; tl_ended := false; tl_queue := []; tl_open := [] |}.

  (** One read of the wrapper. *)
  Definition read_ahead (l : tloop) : res tloop :=
    if tl_ended l then Ok l
    else
      '(o, it, s) <- loader_next b drop_last (tl_s l) (tl_it l) ;;
      Ok {| tl_s := s; tl_it := it; tl_ended := match o with None => true | Some _ => false end;
            tl_queue := tl_queue l ++ match o with None => [] | Some x => [x] end; tl_open := tl_open l |}.
  Fixpoint read_ahead_n (n : nat) (l : tloop) : res tloop :=
    match n with O => Ok l | S k => l1 <- read_ahead l ;; read_ahead_n k l1 end.

  (** trainer/base.py:4225-4233: a new epoch. *)
  Definition next_epoch (l : tloop) : res tloop :=
    s <- advance_yield_epoch (tl_s l) ;;
    Ok {| tl_s := s; tl_it := INew; tl_ended := false; tl_queue := []; tl_open := tl_open l |}.

  (** next(self._train_data_iter): take the queue's head, after reading [ahead] more
      batches (at least one when the queue is empty). *)
  Definition take_batch (ahead : nat) (l : tloop) : res (option sbatch * tloop) :=
    l1 <- read_ahead_n (match tl_queue l with [] => S ahead | _ => ahead end) l ;;
    Ok (match tl_queue l1 with
        | [] => (None, l1)
        | x :: q => (Some x, {| tl_s := tl_s l1; tl_it := tl_it l1; tl_ended := tl_ended l1;
                                tl_queue := q; tl_open := tl_open l1 |})
        end).

  (** trainer/base.py:4218-4285 _fetch_batch (one process, no error to gather). *)
  Definition fetch (ahead : nat) (l : tloop) : res (sbatch * tloop) :=
    '(o, l1) <- take_batch ahead l ;;
    '(o2, l2) <- match o with
                 | Some x => Ok (Some x, l1)
                 | None => l2 <- next_epoch l1 ;; take_batch ahead l2
                 end ;;
    match o2 with
    | None => Err RuntimeError
    | Some x =>
        '(t, s) <- stage_batch (tl_s l2) (Z.of_nat b) ;;
        Ok (x, {| tl_s := s; tl_it := tl_it l2; tl_ended := tl_ended l2; tl_queue := tl_queue l2;
                  tl_open := tl_open l2 ++ [t] |})
    end.

  (** trainer/base.py:3857-3865 and 3948-3956, for the first [n] open tokens. *)
  Definition commit (n : nat) (l : tloop) : res tloop :=
    c <- prepare_commit (tl_s l) (firstn n (tl_open l)) ;;
    s <- commit_prepared (tl_s l) c ;;
    Ok {| tl_s := s; tl_it := tl_it l; tl_ended := tl_ended l; tl_queue := tl_queue l;
          tl_open := skipn n (tl_open l) |}.

  (** trainer/base.py:4022-4028 and 4003: a failed step, then training again. *)
  Definition roll_back (l : tloop) : tloop := loop_at (rollback (tl_s l)).

  (** Save, end of process, new process, load. *)
  Definition restart (l : tloop) : res tloop :=
    _ <- sampler_new ;;
    s <- sampler_load (sampler_save (tl_s l)) ;;
    Ok (loop_at s).
End Sampler.
