(** What the statements of Prop_Decoder.v are about. *)
From Verif Require Import Base Symmetry Decoder.
Set Implicit Arguments.
Unset Strict Implicit.

Section Spec.
  Variables (B V P : Type).
  Notation npz := (npz B V P).
  Notation row := (row B V P).
  Notation cols := (cols B V P).

  (** the rows stacked field by field: what torch's and numpy's stack of the samples is *)
  Definition stacked (rows : list row) : cols :=
    {| c_size := map (@r_size B V P) rows; c_board := map (@r_board B V P) rows; c_stm := map (@r_stm B V P) rows;
       c_value := map (@r_value B V P) rows; c_policy := map (@r_policy B V P) rows |}.

  (** two samples can be rows of one array *)
  Definition same_layout (a b : row) : Prop :=
    stack_shape (r_board a) = stack_shape (r_board b) /\
    zlen (r_stm a) = zlen (r_stm b) /\ zlen (r_value a) = zlen (r_value b) /\
    policy_shape (r_policy a) = policy_shape (r_policy b).
  Definition stackable (rows : list row) : Prop := forall a b, In a rows -> In b rows -> same_layout a b.

  (** a loaded file is four arrays with one number of rows *)
  Definition all_same A C (f : A -> C) (l : list A) : Prop := forall a b, In a l -> In b l -> f a = f b.
  Definition rectangular (f : npz) : Prop :=
    all_same (@stack_shape B) (f_bf f) /\ all_same (fun l => zlen l) (f_vt f) /\ List.length (f_vt f) = List.length (f_bf f) /\
    (forall l, f_gf f = Some l -> all_same (fun l => zlen l) l /\ List.length l = List.length (f_bf f)) /\
    (forall l, f_pt f = Some l -> all_same (@policy_shape P) l /\ List.length l = List.length (f_bf f)).

  (** a reference to an existing row, carrying the board size of its file *)
  Definition placed (load : Z -> res npz) (r : ref) : Prop :=
    exists f i board, load (rf_path r) = Ok f /\ rectangular f /\ rf_address r = [i] /\ 0 <= i < zlen (f_bf f) /\
      In board (f_bf f) /\ rf_size r = (k_h board, k_w board).

  (** the rows a packed request asks for, as ordinary references *)
  Definition packed_ref (q : packed) (f : nat) (r : Z) : res ref :=
    path <- py_get (q_paths q) f ;; k <- packed_key (q_digests q) f r ;;
    Ok {| rf_path := path; rf_address := [r]; rf_size := q_size q; rf_key := k |}.
  Definition packed_refs (q : packed) : res (list ref) :=
    mapM (fun '(f, r) => packed_ref q f r) (combine (q_files q) (q_rows q)).

  (** the policy layout a file stores (or is given when it stores none) *)
  Definition stored_policy (zero : Z * Z -> policy P) (f : npz) (size : Z * Z) : policy P :=
    match f_pt f with Some (p :: _) => p | _ => zero size end.
  Definition same_stored_policies (zero : Z * Z -> policy P) (load : Z -> res npz) (refs : list ref) : Prop :=
    forall r1 r2 f1 f2, In r1 refs -> In r2 refs -> load (rf_path r1) = Ok f1 -> load (rf_path r2) = Ok f2 ->
      policy_shape (stored_policy zero f1 (rf_size r1)) = policy_shape (stored_policy zero f2 (rf_size r2)).
End Spec.
