(** Specification vocabulary for the sequential source: what the records of a
    file are, independent of interleaving, cursors and sampling mechanics. *)
From Verif Require Import Base Rng Source Composite NpzSpec Sequential.
Set Implicit Arguments.
Unset Strict Implicit.

(** A byte string is a sequence of entries of a format. *)
Inductive entries (fmt : seq_format) : bytes -> list bytes -> Prop :=
| entries_nil : entries fmt [] []
| entries_cons rest n t :
    rest <> [] -> f_read fmt rest = Ok n -> firstn n rest <> [] ->
    entries fmt (skipn n rest) t -> entries fmt rest (firstn n rest :: t).

(** An entry the format can handle: it has a declared shape or is skipped, its
    subrecords can be counted, and it decodes. *)
Definition entry_ok (s : seq_source) (raw : bytes) : Prop :=
  f_decode (q_format s) raw = Ok tt
  /\ match f_shape (q_format s) raw with
     | Err _ => False
     | Ok None => True
     | Ok (Some sh) =>
         In sh (q_shapes s)
         /\ match f_count (q_format s) with
            | None => True
            | Some cnt => exists n, cnt raw = Ok n /\ 0 <= n
            end
     end.

(** How many records an entry stands for. *)
Definition entry_count (s : seq_source) (raw : bytes) : Z :=
  match f_shape (q_format s) raw with
  | Ok (Some _) => match f_count (q_format s) with
                   | None => 1
                   | Some cnt => match cnt raw with Ok n => n | Err _ => 0 end
                   end
  | _ => 0
  end.
Definition entry_code (s : seq_source) (raw : bytes) : Z :=
  match f_shape (q_format s) raw with
  | Ok (Some sh) => match index_of sh (q_shapes s) with Some c => Z.of_nat c | None => -1 end
  | _ => -1
  end.

Section Records.
  Variable header : bytes.
  Variable hash64 : bytes -> Z.
  Variable s : seq_source.
  Variable cycle : Z.
  Variable a : Z.           (* the augmentation epoch of the cycle *)

  (** Is subrecord [sub] of entry [entry] of file [f] kept by the sampling rate? *)
  Definition sub_admitted (f : seq_file) (entry sub : Z) : bool :=
    match sample_is_admitted header hash64 (q_num s) (q_den s) (q_seed s) a
            (seq_key s f cycle entry sub) with
    | Ok b => b
    | Err _ => false
    end.

  (** The records of subrecords [from], from+1, ... of one entry. *)
  Definition entry_records (file : nat) (f : seq_file) (raw : bytes) (entry from : Z)
    : list (envelope seq_payload) :=
    map (seq_envelope s file f cycle a raw entry (entry_code s raw))
      (filter (sub_admitted f entry) (zrows from (entry_count s raw))).

  (** The records of consecutive entries, the first of which has index [entry]. *)
  Fixpoint entries_records (file : nat) (f : seq_file) (entry : Z) (es : list bytes)
    : list (envelope seq_payload) :=
    match es with
    | [] => []
    | raw :: t => entry_records file f raw entry 0 ++ entries_records file f (entry + 1) t
    end.

  (** All records of a file. *)
  Definition file_records (es : nat -> list bytes) (file : nat) : list (envelope seq_payload) :=
    match nth_error (q_files s) file with
    | Some f => entries_records file f 0 (es file)
    | None => []
    end.
End Records.

(** Every file of the source is a sequence of good entries; [es] says which. *)
Definition seq_contents (s : seq_source) (es : nat -> list bytes) : Prop :=
  forall i f, nth_error (q_files s) i = Some f ->
    entries (q_format s) (q_content f) (es i) /\ Forall (entry_ok s) (es i).

(** The sampling decisions can be computed: the integers involved fit the
    64-bit key encoding (and, when sampling, also entry and subrecord numbers). *)
Definition seq_sampling_ok (s : seq_source) (es : nat -> list bytes) (epoch cycle : Z) : Prop :=
  int64 (q_seed s) /\ int64 epoch /\ int64 cycle
  /\ (q_num s = q_den s
      \/ (zlen (f_id (q_format s)) < 2 ^ 32
          /\ forall i f, nth_error (q_files s) i = Some f ->
               zlen (q_key f) < 2 ^ 32 /\ zlen (es i) < 2 ^ 63
               /\ forall raw, In raw (es i) -> entry_count s raw < 2 ^ 63)).

(** Sources obtained from the constructor and configure_distributed. *)
Inductive seq_built : seq_source -> Prop :=
| seq_built_made files fmt seed shuffle num den act quantum shapes identity s :
    make_sequential files fmt seed shuffle num den act quantum shapes identity = Ok s -> seq_built s
| seq_built_configured s world rank sharded s' :
    seq_built s -> seq_configure s world rank sharded = Ok s' -> seq_built s'.

(** Records of [l] that come from file [g]. *)
Definition from_file (g : nat) (l : list (envelope seq_payload)) : list (envelope seq_payload) :=
  filter (fun e => e_source_id e =? Z.of_nat g) l.
