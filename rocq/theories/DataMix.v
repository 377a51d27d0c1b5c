(** Combining and splitting data sets: dataset/__init__.py lines 107-140 (the map-style [multi] data set), 231-252
    (the integer weights of [iterative_multi]); tools/npzsplit.py (splitting a file of arrays). *)
From Verif Require Import Base Json.
Set Implicit Arguments. Unset Strict Implicit.

(** ** [multi]: lines 111-120 *)
(** A child is its list of samples; [len] and indexing by a nonnegative or negative integer as Python lists do. *)
Definition child_get (A : Type) (child : list A) (index : Z) : res A :=
  let n := zlen child in
  let i := if index <? 0 then index + n else index in
  if (0 <=? i) && (i <? n) then py_get child (Z.to_nat i) else Err IndexError.
Definition multi_len (A : Type) (children : list (list A)) : Z := zsum (map (@zlen A) children).
Fixpoint multi_get (A : Type) (children : list (list A)) (index : Z) : res A :=
  match children with
  | [] => Err IndexError
  | child :: rest => if index <? zlen child then child_get child index else multi_get rest (index - zlen child)
  end.

(** lines 122-140: the reference of a sample.  A reference is its data set id, its index, and its key: kind, digest, name
    and path.  Output shapes are left out. *)
Record ref := mkRef { r_id : ustr; r_index : Z; r_kind : ustr; r_digest : list Z; r_name : ustr; r_path : list Z }.
Fixpoint multi_ref_from (name : ustr) (original : Z) (k : Z) (children : list (Z * (Z -> res ref))) (index : Z) : res ref :=
  match children with
  | [] => Err IndexError
  | (n, child) :: rest =>
      if index <? n then
        r <- child index ;;
        Ok (mkRef (name ++ ulit ":" ++ int_text k ++ ulit ":" ++ r_id r) original
                  (ulit "map-child") (r_digest r) (r_name r) (k :: r_path r))
      else multi_ref_from name original (k + 1) rest (index - n)
  end.
Definition multi_ref (name : ustr) (children : list (Z * (Z -> res ref))) (index : Z) : res ref :=
  multi_ref_from name index 0 children index.

(** ** Blend ratios: lines 231-252 *)
(** A float ratio by its decimal text [str(ratio)]: digits * 10^exponent.  [NotFinite] is an infinity or NaN. *)
Inductive ratio := NotFinite | Decimal (mantissa exponent : Z).
(** [Fraction(str(ratio))]: lowest terms *)
Definition fraction (m e : Z) : Z * Z :=
  if 0 <=? e then (m * 10 ^ e, 1) else let g := Z.gcd m (10 ^ (- e)) in (m / g, 10 ^ (- e) / g).
Definition reduce_gcd (l : list Z) : res Z :=
  match l with [] => Err TypeError | w :: r => Ok (fold_left Z.gcd r w) end.
Definition integer_ratio_weights (ratios : list ratio) : res (list Z) :=
  fractions <- mapM (fun r =>
      match r with
      | NotFinite => Err ValueError
      | Decimal m e =>
          guard negb (m <=? 0) else ValueError ;;
          let '(n, d) := fraction m e in
          guard negb (1000000 <? d) else ValueError ;;
          Ok (n, d)
      end) ratios ;;
  let denominator := fold_left Z.lcm (map snd fractions) 1 in
  let weights := map (fun '(n, d) => n * (denominator / d)) fractions in
  divisor <- reduce_gcd weights ;;
  Ok (map (fun w => w / divisor) weights).

(** ** tools/npzsplit.py lines 26-59 *)
Section Split.
Variable row : Type.
(** [array[start::step]] for 0 <= start and 0 < step *)
Fixpoint every (fuel : nat) (l : list row) (step : nat) : list row :=
  match fuel with
  | O => []
  | S f => match l with [] => [] | x :: _ => x :: every f (skipn step l) step end
  end.
Definition strided (l : list row) (start step : nat) : list row := every (List.length l) (skipn start l) step.
(** [array[perm]] *)
Definition take_rows (l : list row) (perm : list nat) : res (list row) := mapM (py_get l) perm.
(** [shuffle] is the drawn permutation of the common length, when shuffling is requested.  [splits] is the command line
    number (the file overview divides by it).  The result are the files, in order, each a list of arrays. *)
Definition npz_split (arrays : list (ustr * list row)) (exclude : list ustr) (splits : Z) (shuffle : option (list nat))
    : res (list (list (ustr * list row))) :=
  let kept := filter (fun a => negb (existsb (ustr_eqb (fst a)) exclude)) arrays in
  _ <- mapM (fun a =>
      guard splits <=? zlen (snd a) else AssertionError ;;
      guard negb (splits =? 0) else ValueError ;;  (* ZeroDivisionError *)
      Ok tt) kept ;;
  kept <- match shuffle, kept with
          | Some perm, a :: rest =>
              guard forallb (fun b => List.length (snd b) =? List.length (snd a))%nat rest else AssertionError ;;
              mapM (fun b => l <- take_rows (snd b) perm ;; Ok (fst b, l)) kept
          | _, _ => Ok kept
          end ;;
  Ok (map (fun idx => map (fun a => (fst a, strided (snd a) idx (Z.to_nat splits))) kept) (seq 0 (Z.to_nat splits))).
End Split.
(** lines 21-23: [f"{name}_{idx:04d}" + ext] *)
Definition make_filename (name ext : ustr) (idx : nat) : ustr :=
  let d := digits (Z.of_nat idx) in
  name ++ ulit "_" ++ repeat 48 (4 - List.length d) ++ d ++ ext.
