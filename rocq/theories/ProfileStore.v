(** The cache of tuning profiles: dataset/telemetry.py lines 537-622
    ([PipelineProfileStore]).  A call is a program over single file operations, so that calls of
    other processes and crashes can come between any two of them.

    Not modelled: which directory is used ([_default_profile_cache_dir], lines 537-545), Python's
    recursion limit for deeply nested JSON. *)
From Verif Require Import Base Checkpoint Json.
Set Implicit Arguments. Unset Strict Implicit.

(** ** The cache directory *)
Record file := File { mtime : Z; content : list Z }.
(** The entries of the directory, or [None] while it does not exist. *)
Definition dir := option (list (ustr * file)).
Definition entries (d : dir) : list (ustr * file) := match d with Some l => l | None => [] end.
Definition remove (l : list (ustr * file)) (n : ustr) : list (ustr * file) :=
  filter (fun e => negb (ustr_eqb n (fst e))) l.

(** The errors of a file operation: FileNotFoundError, or any other OSError. *)
Inductive failure := NotFound | OtherOSError | InvalidRecord.
(** [write_text] is [Create] (which empties an existing file) followed by [Append]s. *)
Inductive op :=
| Mkdir | IsDir | Glob
| Exists (n : ustr) | Stat (n : ustr) | Read (n : ustr)
| Create (n : ustr) | Append (n : ustr) (b : list Z)
| Replace (a b : ustr) | Unlink (n : ustr).
Inductive ans :=
| Done | Yes (b : bool) | Names (l : list ustr) | Time (t : Z) | Text (b : list Z) | Failed (e : failure).

(** What the file system does with one operation at time [now].  A directory listing comes in any
    order; where the disk is [faulty], any operation can fail without effect. *)
Inductive served (faulty : bool) (now : Z) : dir -> op -> dir -> ans -> Prop :=
| s_fail d o : faulty = true -> served faulty now d o d (Failed OtherOSError)
| s_mkdir d : served faulty now d Mkdir (Some (entries d)) Done
| s_isdir d : served faulty now d IsDir d (Yes (match d with Some _ => true | None => false end))
| s_glob l names : Permutation names (map fst l) -> served faulty now (Some l) Glob (Some l) (Names names)
| s_glob_none : served faulty now None Glob None (Names [])
| s_exists d n : served faulty now d (Exists n) d (Yes (match obj_get (entries d) n with Some _ => true | None => false end))
| s_stat d n f : obj_get (entries d) n = Some f -> served faulty now d (Stat n) d (Time (mtime f))
| s_stat_none d n : obj_get (entries d) n = None -> served faulty now d (Stat n) d (Failed NotFound)
| s_read d n f : obj_get (entries d) n = Some f -> served faulty now d (Read n) d (Text (content f))
| s_read_none d n : obj_get (entries d) n = None -> served faulty now d (Read n) d (Failed NotFound)
| s_create l n : served faulty now (Some l) (Create n) (Some (obj_set l n (File now []))) Done
| s_create_none n : served faulty now None (Create n) None (Failed NotFound)
| s_append l n b f : obj_get l n = Some f ->
    served faulty now (Some l) (Append n b) (Some (obj_set l n (File now (content f ++ b)))) Done
| s_replace l a b f : obj_get l a = Some f -> a <> b ->
    served faulty now (Some l) (Replace a b) (Some (obj_set (remove l a) b f)) Done
| s_replace_none d a b : obj_get (entries d) a = None -> served faulty now d (Replace a b) d (Failed NotFound)
| s_unlink l n f : obj_get l n = Some f -> served faulty now (Some l) (Unlink n) (Some (remove l n)) Done
| s_unlink_none d n : obj_get (entries d) n = None -> served faulty now d (Unlink n) d (Failed NotFound).

(** ** Programs over file operations *)
Inductive prog (A : Type) :=
| Ret (a : A)
| Raise (e : failure)
| Do (o : op) (k : ans -> prog A).
Arguments Raise {A} e.
Fixpoint pbind (A B : Type) (p : prog A) (f : A -> prog B) : prog B :=
  match p with
  | Ret a => f a
  | Raise e => Raise e
  | Do o k => Do o (fun a => pbind (k a) f)
  end.
(** An operation whose failure is raised. *)
Definition must (o : op) : prog ans :=
  Do o (fun a => match a with Failed e => Raise e | _ => Ret a end).

(** ** The store *)
Definition schema_text := ulit "pipeline-tuning-v1".
Definition key_schema := ulit "schema".
Definition key_exact := ulit "exact_key".
Definition key_compatible := ulit "compatible_key".
Definition key_resolved := ulit "resolved".
(** lines 555-563, [_valid] *)
Definition valid (record : json) : bool :=
  match record with
  | JObj d =>
      match obj_get d key_schema with Some (JStr s) => ustr_eqb s schema_text | _ => false end
      && match obj_get d key_exact with Some (JStr _) => true | _ => false end
      && match obj_get d key_compatible with Some (JStr _) => true | _ => false end
      && match obj_get d key_resolved with Some (JObj _) => true | _ => false end
  | _ => false
  end.
(** [record[k]] for a valid record and [k] one of its two string entries *)
Definition text_entry (record : json) (k : ustr) : ustr :=
  match record with JObj d => match obj_get d k with Some (JStr s) => s | _ => [] end | _ => [] end.
Definition exact_key (record : json) : ustr := text_entry record key_exact.
Definition compatible_key (record : json) : ustr := text_entry record key_compatible.

Definition hex_char (c : Z) : bool := (48 <=? c) && (c <=? 57) || (97 <=? c) && (c <=? 102).
Definition suffix := ulit ".json".
(** lines 565-571: names "*.json" whose stem has 64 hexadecimal digits *)
Definition is_profile (n : ustr) : bool :=
  (List.length n =? 69)%nat && forallb hex_char (firstn 64 n) && ustr_eqb (skipn 64 n) suffix.
Definition profile_name (key : ustr) : ustr := key ++ suffix.
(** lines 606-608 *)
Definition temporary_name (pid tid : Z) (key : ustr) : ustr :=
  ulit "." ++ key ++ ulit "." ++ digits pid ++ ulit "." ++ digits tid ++ ulit ".tmp".

(** [sorted(paths, key=lambda path: path.stat().st_mtime_ns, reverse=True)]: every key is
    computed first, in the order of the list; equal keys keep that order. *)
Fixpoint stats (names : list ustr) : prog (list (ustr * Z)) :=
  match names with
  | [] => Ret []
  | n :: r => pbind (must (Stat n)) (fun a =>
              match a with Time t => pbind (stats r) (fun l => Ret ((n, t) :: l)) | _ => Raise OtherOSError end)
  end.
Definition newer (a b : ustr * Z) : bool := snd b <? snd a.
Definition newest_first (l : list (ustr * Z)) : list ustr := map fst (sort_by newer l).
(** lines 565-571 and 579-583 / 613-617 *)
Definition sorted_profiles : prog (list ustr) :=
  pbind (must Glob) (fun a =>
  match a with
  | Names l => pbind (stats (filter is_profile l)) (fun s => Ret (newest_first s))
  | _ => Raise OtherOSError
  end).

Inductive reuse_mode := Off | Exact | Compatible.
Inductive kind := IsExact | IsCompatible.

Section Store.
(** [json.loads] of the UTF-8 text, [None] for any ValueError. *)
Variable parse : list Z -> option json.

(** lines 585-597 *)
Fixpoint first_match (exact compatible : ustr) (compatible_ok : bool) (candidates : list ustr) : prog (option (json * kind)) :=
  match candidates with
  | [] => Ret None
  | path :: rest =>
      Do (Read path) (fun a =>
      match a with
      | Text b =>
          match parse b with
          | Some record =>
              if negb (valid record) then first_match exact compatible compatible_ok rest
              else if ustr_eqb (exact_key record) exact then Ret (Some (record, IsExact))
              else if compatible_ok && ustr_eqb (compatible_key record) compatible then Ret (Some (record, IsCompatible))
              else first_match exact compatible compatible_ok rest
          | None => first_match exact compatible compatible_ok rest
          end
      | _ => first_match exact compatible compatible_ok rest
      end)
  end.
(** lines 573-597, [load] *)
Definition load (exact compatible : ustr) (reuse : reuse_mode) : prog (option (json * kind)) :=
  match reuse with
  | Off => Ret None
  | _ =>
    pbind (must IsDir) (fun a =>
    match a with
    | Yes true =>
      let exact_path := profile_name exact in
      let compatible_ok := match reuse with Compatible => true | _ => false end in
      pbind
        (if compatible_ok then
           pbind (must (Exists exact_path)) (fun a =>
           match a with Yes false => sorted_profiles | _ => Ret [] end)
         else Ret [])
        (fun more => first_match exact compatible compatible_ok (exact_path :: more))
    | _ => Ret None
    end)
  end.

(** [write_text]: the text reaches the file in pieces *)
Fixpoint appends (n : ustr) (chunks : list (list Z)) : prog unit :=
  match chunks with
  | [] => Ret tt
  | b :: r => pbind (must (Append n b)) (fun _ => appends n r)
  end.
Definition write_text (n : ustr) (chunks : list (list Z)) : prog unit :=
  pbind (must (Create n)) (fun _ => appends n chunks).
(** lines 618-622 *)
Fixpoint unlink_all (names : list ustr) : prog unit :=
  match names with
  | [] => Ret tt
  | n :: r => Do (Unlink n) (fun a =>
              match a with
              | Failed NotFound => unlink_all r
              | Failed e => Raise e
              | _ => unlink_all r
              end)
  end.
(** lines 599-622, [save]; [chunks] are the pieces of the record's text *)
Definition save (max_entries : Z) (pid tid : Z) (record : json) (chunks : list (list Z)) : prog unit :=
  if negb (valid record) then Raise InvalidRecord else
  pbind (must Mkdir) (fun _ =>
  let temporary := temporary_name pid tid (exact_key record) in
  pbind (write_text temporary chunks) (fun _ =>
  pbind (must (Replace temporary (profile_name (exact_key record)))) (fun _ =>
  pbind sorted_profiles (fun profiles =>
  unlink_all (skipn (Z.to_nat max_entries) profiles))))).

(** A call running alone on a disk without faults, with a clock that never shows less than [since]. *)
Inductive runs (A : Type) (since : Z) : prog A -> dir -> dir -> A + failure -> Prop :=
| r_ret a d : runs since (Ret a) d d (inl a)
| r_raise e d : runs since (Raise e) d d (inr e)
| r_do o k now d d1 a d2 r :
    since <= now -> served false now d o d1 a -> runs since (k a) d1 d2 r -> runs since (Do o k) d d2 r.

(** ** Calls of several processes and threads *)
Inductive call :=
| CLoad (exact compatible : ustr) (reuse : reuse_mode)
| CSave (record : json) (chunks : list (list Z)).
Inductive outcome := Loaded (r : option (json * kind)) | Saved.
Definition program (max_entries : Z) (pid tid : Z) (c : call) : prog outcome :=
  match c with
  | CLoad e c r => pbind (load e c r) (fun x => Ret (Loaded x))
  | CSave r ch => pbind (save max_entries pid tid r ch) (fun _ => Ret Saved)
  end.
(** A running call: process, thread, what was called, what is left to do. *)
Record task := Task { pid : Z; tid : Z; called : call; left_to_do : prog outcome }.
End Store.
