(** Specification vocabulary for the NPZ sources: which rows a cycle consists
    of, in which order, independent of chunking and cursors. *)
From Verif Require Import Base Rng Source CompositeSim Npz.
Set Implicit Arguments.

(** a, a+1, ..., b-1 *)
Definition zrows (a b : Z) : list Z := map (fun k => a + Z.of_nat k) (seq 0 (Z.to_nat (b - a))).

(** Rows of the files [order] names, starting at row [row] of the first one,
    that [keep] selects. *)
Fixpoint rows_at (files : list file_desc) (keep : file_desc -> Z -> bool)
    (order : list nat) (row : Z) : list (file_desc * Z) :=
  match order with
  | [] => []
  | i :: rest =>
      match nth_error files i with
      | Some d => map (pair d) (filter (keep d) (zrows row (d_count d)))
      | None => []
      end ++ rows_at files keep rest 0
  end.

(** The global record id of a row. *)
Definition row_id (p : file_desc * Z) : Z := d_begin (fst p) + snd p.

Section Keep.
  Variable header : bytes.
  Variable hash64 : bytes -> Z.

  Definition is_admitted (n : npz) (epoch cycle : Z) (d : file_desc) (row : Z) : bool :=
    match admitted header hash64 n epoch cycle d row with Ok b => b | Err _ => false end.

  (** The rows one rank reads: admitted and, when sharded, with id congruent to the rank. *)
  Definition wanted (n : npz) (epoch cycle rank : Z) (d : file_desc) (row : Z) : bool :=
    (if n_sharded n then (d_begin d + row) mod n_world n =? rank else true)
    && is_admitted n epoch cycle d row.

  (** Everything still to come from a cursor. *)
  Definition remaining (n : npz) (cur : npz_cursor) : list (file_desc * Z) :=
    rows_at (n_files n) (wanted n (nc_epoch cur) (nc_cycle cur) (nc_rank cur))
      (skipn (nc_file cur) (nc_order cur)) (nc_row cur).
End Keep.

Definition row_envelopes (cycle : Z) (l : list (file_desc * Z)) : res (list (envelope Z)) :=
  mapM (fun p => row_envelope cycle (fst p) (snd p)) l.

(** Any source serving any sequence of single and bulk requests. *)
Fixpoint serve_source {C P} (src : source C P) (cur : C) (qs : list request)
  : res (list (envelope P) * C) :=
  match qs with
  | [] => Ok ([], cur)
  | q :: rest =>
      '(chunk, cur1) <-
        match q with
        | NextOne => '(e, c) <- s_next src cur ;;
                     Ok (match e with None => [] | Some x => [x] end, c)
        | NextMany k => match s_many src with Some f => f cur k | None => Err TypeError end
        end ;;
      '(more, cur2) <- serve_source src cur1 rest ;;
      Ok (chunk ++ more, cur2)
  end.

(** Sources obtained from the two constructors and configure_distributed. *)
Inductive built : npz -> Prop :=
| built_dense cats seed shuffle num den n :
    make_dense cats seed shuffle num den = Ok n -> built n
| built_indexed cats seed shuffle num den n :
    make_indexed cats seed shuffle num den = Ok n -> built n
| built_configured n world rank sharded n' :
    built n -> configure_distributed n world rank sharded = Ok n' -> built n'.

Definition int64 (z : Z) : Prop := - 2 ^ 63 <= z < 2 ^ 63.

(** The sampling decision of every row can be computed: either all rows are
    admitted without hashing, or the RNG key fits the 64-bit key encoding. *)
Definition sampling_ok (n : npz) (epoch cycle : Z) : Prop :=
  n_num n = n_den n
  \/ (int64 (n_seed n) /\ int64 epoch /\ int64 cycle
      /\ forall d row p, In d (n_files n) -> 0 <= row < d_count d ->
           physical_row d row = Ok p -> int64 p).

(** Is the record with global id [id] admitted in this cycle? *)
Definition id_admitted (header : bytes) (hash64 : bytes -> Z) (n : npz) (epoch cycle id : Z) : bool :=
  match resolve n id with
  | Ok (d, row) => is_admitted header hash64 n epoch cycle d row
  | Err _ => false
  end.
