(** Model of utils/file_utils.py:89-176 (save_torch_ckpt, load_torch_ckpt,
    find_latest_ckpt, get_iteration_from_ckpt_filename), of the checkpoint file names of
    trainer/base.py:1420-1424 and of _atomic_torch_save (trainer/base.py:110-114), with
    the parts of os.path they use.

    Simplifications: file names are strings of 8-bit characters and str.isdigit is taken
    on ASCII digits; the disk is a map from paths to contents; torch.save writes the file
    through some sequence of incomplete contents ([Torn]) before the complete one, and
    os.replace is atomic (POSIX); loss of power after a successful rename (no fsync) is not
    modelled, death of the process at any moment is. *)
From Coq Require Import Ascii String.
From Verif Require Import Base.
Set Implicit Arguments.
Unset Strict Implicit.

Definition str := list ascii.
Definition lit (x : string) : str := list_ascii_of_string x.
Fixpoint str_eqb (a b : str) : bool :=
  match a, b with
  | [], [] => true
  | x :: a, y :: b => Ascii.eqb x y && str_eqb a b
  | _, _ => false
  end.
(** str.startswith / str.endswith. *)
Fixpoint startswith (p l : str) : bool :=
  match p, l with
  | [], _ => true
  | x :: p, y :: l => Ascii.eqb x y && startswith p l
  | _, [] => false
  end.
Definition endswith (p l : str) : bool := startswith (rev p) (rev l).
(** Cut at the last occurrence of a character (str.rfind). *)
Fixpoint rcut (c : ascii) (l : str) : option (str * str) :=
  match l with
  | [] => None
  | x :: r =>
      match rcut c r with
      | Some (a, b) => Some (x :: a, b)
      | None => if Ascii.eqb x c then Some ([], r) else None
      end
  end.
(** str.split(sep) for a one-character separator. *)
Fixpoint split_on (c : ascii) (l : str) : list str :=
  match l with
  | [] => [[]]
  | x :: r =>
      let parts := split_on c r in
      if Ascii.eqb x c then [] :: parts
      else match parts with [] => [[x]] | p :: ps => (x :: p) :: ps end
  end.
Definition slash : ascii := "/"%char.
Definition dot : ascii := "."%char.
Definition underscore : ascii := "_"%char.

(** ** os.path (posixpath) *)
Definition basename (p : str) : str := match rcut slash p with Some (_, b) => b | None => p end.
(** posixpath.dirname: the part before the last slash, trailing slashes removed unless it
    consists of slashes only. *)
Fixpoint rstrip (c : ascii) (l : str) : str :=
  match l with
  | [] => []
  | x :: r => match rstrip c r with [] => if Ascii.eqb x c then [] else [x] | t => x :: t end
  end.
Definition dirname (p : str) : str :=
  match rcut slash p with
  | None => []
  | Some (a, _) => match rstrip slash a with [] => a ++ [slash] | h => h end
  end.
(** genericpath._splitext: the extension starts at the last dot of the last component,
    unless only dots precede it there. *)
Definition splitext (p : str) : str * str :=
  let '(dir, base) := match rcut slash p with Some (a, b) => (a ++ [slash], b) | None => ([], p) end in
  match rcut dot base with
  | None => (p, [])
  | Some (a, b) => if existsb (fun c => negb (Ascii.eqb c dot)) a then (dir ++ a, dot :: b) else (p, [])
  end.
Definition join_path (d f : str) : str :=
  if endswith [slash] d then d ++ f else d ++ slash :: f.

(** ** str.isdigit, int, format "07d" *)
Definition is_digit (c : ascii) : bool := ((48 <=? nat_of_ascii c) && (nat_of_ascii c <=? 57))%nat.
Definition isdigit (l : str) : bool := match l with [] => false | _ => forallb is_digit l end.
Definition digit_value (c : ascii) : Z := Z.of_nat (nat_of_ascii c) - 48.
Definition int_of (l : str) : Z := fold_left (fun v c => 10 * v + digit_value c) l 0.
Definition digit_char (d : Z) : ascii := ascii_of_nat (Z.to_nat (d + 48)).
Fixpoint decimal_aux (fuel : nat) (n : Z) : str :=
  match fuel with
  | 0%nat => []
  | S f => if n <? 10 then [digit_char n] else decimal_aux f (n / 10) ++ [digit_char (n mod 10)]
  end.
(** str(n) of a natural number. *)
Definition decimal (n : Z) : str := decimal_aux (S (Z.to_nat n)) n.
(** f"{n:07d}" *)
Definition padded (n : Z) : str := repeat "0"%char (7 - List.length (decimal n)) ++ decimal n.

(** ** file_utils.py:161-176 *)
Definition get_iteration_from_ckpt_filename (model_name : str) : option Z :=
  let root := fst (splitext (basename model_name)) in
  match find isdigit (rev (split_on underscore root)) with
  | Some part => Some (int_of part)
  | None => None
  end.

(** ** file_utils.py:129-158 *)
(** Comparison of Python strings (by code point). *)
Fixpoint str_ltb (a b : str) : bool :=
  match a, b with
  | _, [] => false
  | [], _ => true
  | x :: a, y :: b =>
      if (nat_of_ascii x <? nat_of_ascii y)%nat then true
      else if (nat_of_ascii y <? nat_of_ascii x)%nat then false else str_ltb a b
  end.
(** sort_key (lines 153-155) and the comparison of the resulting tuples. *)
Definition sort_key (filepath : str) : bool * Z * str :=
  match get_iteration_from_ckpt_filename filepath with
  | Some i => (true, i, filepath)
  | None => (false, 0, filepath)
  end.
Definition key_ltb (a b : bool * Z * str) : bool :=
  let '(a1, a2, a3) := a in let '(b1, b2, b3) := b in
  if Bool.eqb a1 b1 then
    if a2 =? b2 then str_ltb a3 b3 else a2 <? b2
  else b1.
(** list.sort (stable). *)
Fixpoint insert_by (A : Type) (lt : A -> A -> bool) (x : A) (l : list A) : list A :=
  match l with
  | [] => [x]
  | y :: r => if lt y x then y :: insert_by lt x r else x :: l
  end.
Definition sort_by (A : Type) (lt : A -> A -> bool) (l : list A) : list A := fold_right (insert_by lt) [] l.

(** os.listdir with os.path.isfile for each entry: [None] when the directory does not
    exist. *)
Definition listing := option (list (str * bool)).
Definition default_exts : list str := [lit ".pt"; lit ".pth"; lit ".sft"; lit ".safetensors"].
Definition find_latest_ckpt (l : listing) (dir prefix : str) (exts : list str) : option str :=
  match l with
  | None => None
  | Some entries =>
      let ckpt_list := map (fun e => join_path dir (fst e))
        (filter (fun e => snd e && startswith prefix (fst e) && existsb (fun x => endswith x (fst e)) exts) entries) in
      match ckpt_list with
      | [] => None
      | _ => Some (last (sort_by (fun a b => key_ltb (sort_key a) (sort_key b)) ckpt_list) [])
      end
  end.

(** ** The disk *)
Section Disk.
Variable obj : Type.
Inductive file := Torn | Whole (x : obj).
Definition disk := str -> option file.
Inductive op :=
| Write (p : str) (c : file)      (* the file now holds this content *)
| Replace (a b : str)             (* os.replace(a, b) *)
| Link (a b : str)                (* os.link(a, b) *)
| Remove (a : str).               (* os.remove / os.unlink *)
Definition put (d : disk) (p : str) (c : option file) : disk := fun q => if str_eqb q p then c else d q.
Definition run_op (d : disk) (o : op) : disk :=
  match o with
  | Write p c => put d p (Some c)
  | Replace a b => match d a with Some c => put (put d a None) b (Some c) | None => d end
  | Link a b => match d a, d b with Some c, None => put d b (Some c) | _, _ => d end
  | Remove a => put d a None
  end.
Definition run_ops (d : disk) (os : list op) : disk := fold_left run_op os d.

(** torch.save(obj, p): [n] incomplete contents, then the complete one. *)
Definition torch_save (n : nat) (x : obj) (p : str) : list op := repeat (Write p Torn) (S n) ++ [Write p (Whole x)].
(** trainer/base.py:110-114. *)
Definition atomic_torch_save (n : nat) (x : obj) (p : str) : list op :=
  torch_save n x (p ++ lit ".tmp") ++ [Replace (p ++ lit ".tmp") p].
End Disk.
Arguments Torn {obj}.
Arguments Remove {obj} a.
Arguments Replace {obj} a b.
Arguments Link {obj} a b.

(** ** file_utils.py:89-126 *)
Section Save.
Variable tensors : Type.   (* a state dict *)
Variable other : Type.     (* any other Python value *)
Inductive value := VDict (d : tensors) | VStr (s : str) | VOther (o : other).
(** Python dictionaries: insertion ordered, assignment replaces in place. *)
Fixpoint dict_set (A : Type) (l : list (str * A)) (k : str) (v : A) : list (str * A) :=
  match l with
  | [] => [(k, v)]
  | (k1, v1) :: r => if str_eqb k k1 then (k1, v) :: r else (k1, v1) :: dict_set r k v
  end.
Fixpoint dict_get (A : Type) (l : list (str * A)) (k : str) : option A :=
  match l with [] => None | (k1, v) :: r => if str_eqb k k1 then Some v else dict_get r k end.
Definition checkpoint := list (str * value).

(** lines 107-119: the dictionary that is written; TypeError for an extra state that is
    not a dictionary or a metadata value that is not a string. *)
Fixpoint add_extras (sd : checkpoint) (extra : list (str * value)) : res checkpoint :=
  match extra with
  | [] => Ok sd
  | (k, VDict d) :: r => add_extras (dict_set sd k (VDict d)) r
  | _ => Err TypeError
  end.
Fixpoint add_metadata (sd : checkpoint) (metadata : list (str * value)) : res checkpoint :=
  match metadata with
  | [] => Ok sd
  | (k, VStr s) :: r => add_metadata (dict_set sd k (VStr s)) r
  | _ => Err TypeError
  end.
Definition build_checkpoint (model : tensors) (extra : list (str * value)) (metadata : option (list (str * value))) : res checkpoint :=
  sd <- add_extras [(lit "model", VDict model)] extra ;;
  match metadata with None => Ok sd | Some m => add_metadata sd m end.

(** lines 120-121. *)
Definition with_extension (filepath : str) : str :=
  match snd (splitext filepath) with [] => filepath ++ lit ".pt" | _ => filepath end.

(** save_torch_ckpt: the disk operations, in order.  make_dir of an empty directory name
    raises (os.makedirs("")): line 105. *)
Definition save_torch_ckpt (n : nat) (filepath : str) (model : tensors) (extra : list (str * value))
    (metadata : option (list (str * value))) : res (list (op checkpoint)) :=
  guard (negb (str_eqb (dirname filepath) [])) else OSError ;;
  sd <- build_checkpoint model extra metadata ;;
  Ok (atomic_torch_save n sd (with_extension filepath)).

(** ** file_utils.py:47-86 *)
(** str(v) of a value that is not a string. *)
Variable str_of : other -> str.
Fixpoint dict_pop (A : Type) (l : list (str * A)) (k : str) : res (A * list (str * A)) :=
  match l with
  | [] => Err KeyError
  | (k1, v) :: r => if str_eqb k k1 then Ok (v, r) else '(x, r') <- dict_pop r k ;; Ok (x, (k1, v) :: r')
  end.
Fixpoint extras_of (sd : checkpoint) : list (str * tensors) :=
  match sd with [] => [] | (k, VDict d) :: r => (k, d) :: extras_of r | _ :: r => extras_of r end.
Fixpoint metadata_of (sd : checkpoint) : list (str * str) :=
  match sd with
  | [] => []
  | (k, VStr s) :: r => (k, s) :: metadata_of r
  | (k, VOther o) :: r => (k, str_of o) :: metadata_of r
  | _ :: r => metadata_of r
  end.
Definition load_torch_ckpt (d : disk checkpoint) (filepath : str) : res (value * list (str * tensors) * list (str * str)) :=
  match d filepath with
  | None => Err OSError
  | Some Torn => Err RuntimeError
  | Some (Whole sd) => '(model, sd) <- dict_pop sd (lit "model") ;; Ok (model, extras_of sd, metadata_of sd)
  end.
End Save.
Arguments VStr {tensors other} s.
Arguments VDict {tensors other} d.
Arguments VOther {tensors other} o.

(** ** trainer/base.py:1420-1424 *)
Definition model_ckpt_name (name : str) (iteration : Z) : str := lit "ckpt_" ++ name ++ underscore :: padded iteration ++ lit ".pt".
Definition state_name (iteration : Z) : str := lit "state_" ++ padded iteration ++ lit ".pt".
