(** JSON text, as the standard library's [json.dumps(..., sort_keys=True,
    separators=(",", ":"), ensure_ascii=False)] writes it and [json.loads] reads it,
    and UTF-8.  dataset/core.py lines 758-760 and 807-808 call exactly these.

    A Python string is a list of code points.  Python's recursion limit is not
    modelled: arbitrarily deep values are printed and parsed. *)
From Verif Require Import Base Checkpoint.
Set Implicit Arguments. Unset Strict Implicit.

Definition ustr := list Z.
Definition ulit (x : string) : ustr := map (fun c => Z.of_nat (nat_of_ascii c)) (list_ascii_of_string x).
Fixpoint ustr_eqb (a b : ustr) : bool :=
  match a, b with
  | [], [] => true
  | x :: a', y :: b' => (x =? y) && ustr_eqb a' b'
  | _, _ => false
  end.
(** [a < b] on Python strings: by code point. *)
Fixpoint ustr_ltb (a b : ustr) : bool :=
  match a, b with
  | _, [] => false
  | [], _ :: _ => true
  | x :: a', y :: b' => if x <? y then true else if y <? x then false else ustr_ltb a' b'
  end.

Inductive json :=
| JNull
| JBool (b : bool)
| JInt (n : Z)
| JFloat (bits : Z) (* a Python float, as the 64 bits of its binary64 encoding *)
| JStr (s : ustr)
| JList (l : list json)
| JObj (l : list (ustr * json)).

(** [d[k] = v] *)
Fixpoint obj_set (A : Type) (l : list (ustr * A)) (k : ustr) (v : A) : list (ustr * A) :=
  match l with
  | [] => [(k, v)]
  | (k', v') :: r => if ustr_eqb k k' then (k', v) :: r else (k', v') :: obj_set r k v
  end.
Fixpoint obj_get (A : Type) (l : list (ustr * A)) (k : ustr) : option A :=
  match l with
  | [] => None
  | (k', v') :: r => if ustr_eqb k k' then Some v' else obj_get r k
  end.

(** ** Writing *)
Fixpoint digits_aux (fuel : nat) (n : Z) : ustr :=
  match fuel with
  | 0%nat => []
  | S f => if n <? 10 then [48 + n] else digits_aux f (n / 10) ++ [48 + n mod 10]
  end.
(** [int.__repr__] *)
Definition digits (n : Z) : ustr := digits_aux (S (Z.to_nat (Z.log2 n))) n.
Definition int_text (n : Z) : ustr := if n <? 0 then 45 :: digits (- n) else digits n.
(** A hexadecimal digit, lower case. *)
Definition hex_digit (d : Z) : Z := if d <? 10 then 48 + d else 87 + d.
(** json.encoder's ESCAPE_DCT: backslash, quote and the control characters; with
    ensure_ascii=False nothing else is escaped. *)
Definition escape (c : Z) : ustr :=
  if c =? 34 then [92; 34] else if c =? 92 then [92; 92]
  else if c =? 8 then [92; 98] else if c =? 12 then [92; 102] else if c =? 10 then [92; 110]
  else if c =? 13 then [92; 114] else if c =? 9 then [92; 116]
  else if (0 <=? c) && (c <? 32) then [92; 117; 48; 48; hex_digit (c / 16); hex_digit (c mod 16)]
  else [c].
Definition quoted (s : ustr) : ustr := 34 :: flat_map escape s ++ [34].
Fixpoint join (sep : Z) (l : list ustr) : ustr :=
  match l with
  | [] => []
  | [x] => x
  | x :: r => x ++ sep :: join sep r
  end.
Definition key_lt (A : Type) (x y : ustr * A) : bool := ustr_ltb (fst x) (fst y).
Fixpoint dumps (float_text : Z -> ustr) (j : json) : ustr :=
  match j with
  | JNull => ulit "null"
  | JBool true => ulit "true"
  | JBool false => ulit "false"
  | JInt n => int_text n
  | JFloat b => float_text b
  | JStr s => quoted s
  | JList l => 91 :: join 44 (map (dumps float_text) l) ++ [93]
  | JObj l =>
      let printed := map (fun kv => (fst kv, dumps float_text (snd kv))) l in
      123 :: join 44 (map (fun kt => quoted (fst kt) ++ 58 :: snd kt) (sort_by (@key_lt ustr) printed)) ++ [125]
  end.

(** ** Reading *)
Definition is_ws (c : Z) : bool := (c =? 32) || (c =? 9) || (c =? 10) || (c =? 13).
Fixpoint skip_ws (l : ustr) : ustr :=
  match l with c :: r => if is_ws c then skip_ws r else l | [] => [] end.
Definition digit (c : Z) : bool := (48 <=? c) && (c <=? 57).
Definition hex_value (c : Z) : option Z :=
  if digit c then Some (c - 48)
  else if (97 <=? c) && (c <=? 102) then Some (c - 87)
  else if (65 <=? c) && (c <=? 70) then Some (c - 55)
  else None.
Fixpoint starts (p l : ustr) : option ustr :=
  match p, l with
  | [], _ => Some l
  | x :: p', y :: l' => if x =? y then starts p' l' else None
  | _ :: _, [] => None
  end.

(** The characters of a string after its opening quote, up to and including the closing
    one: code units, with "\u" escapes not yet paired. *)
Fixpoint scan_units (l : ustr) : res (ustr * ustr) :=
  match l with
  | [] => Err ValueError
  | c :: r =>
    if c =? 34 then Ok ([], r)
    else if c =? 92 then
      match r with
      | [] => Err ValueError
      | e :: r' =>
        let simple (x : Z) := ('(s, t) <- scan_units r' ;; Ok (x :: s, t)) in
        if e =? 34 then simple 34 else if e =? 92 then simple 92 else if e =? 47 then simple 47
        else if e =? 98 then simple 8 else if e =? 102 then simple 12 else if e =? 110 then simple 10
        else if e =? 114 then simple 13 else if e =? 116 then simple 9
        else if e =? 117 then
          match r' with
          | h1 :: h2 :: h3 :: h4 :: r'' =>
            match hex_value h1, hex_value h2, hex_value h3, hex_value h4 with
            | Some a, Some b, Some c', Some d =>
                '(s, t) <- scan_units r'' ;; Ok (((a * 16 + b) * 16 + c') * 16 + d :: s, t)
            | _, _, _, _ => Err ValueError
            end
          | _ => Err ValueError
          end
        else Err ValueError
      end
    else if c <? 32 then Err ValueError (* strict mode: no raw control characters *)
    else '(s, t) <- scan_units r ;; Ok (c :: s, t)
  end.
Definition high_surrogate (c : Z) : bool := (55296 <=? c) && (c <=? 56319).
Definition low_surrogate (c : Z) : bool := (56320 <=? c) && (c <=? 57343).
(** "\ud83d\ude00" is one code point.  (Text that comes out of a UTF-8 decoder contains
    no surrogates, so two adjacent ones are always two escapes.) *)
Fixpoint join_pairs (l : ustr) : ustr :=
  match l with
  | [] => []
  | h :: r =>
    match r with
    | [] => [h]
    | d :: r' =>
      if high_surrogate h && low_surrogate d
      then 65536 + (h - 55296) * 1024 + (d - 56320) :: join_pairs r'
      else h :: join_pairs r
    end
  end.
Definition scan_string (l : ustr) : res (ustr * ustr) :=
  '(s, t) <- scan_units l ;; Ok (join_pairs s, t).

Fixpoint take_digits (l : ustr) : ustr * ustr :=
  match l with
  | c :: r => if digit c then let '(d, t) := take_digits r in (c :: d, t) else ([], l)
  | [] => ([], [])
  end.
Definition digits_value (l : ustr) : Z := fold_left (fun v c => 10 * v + (c - 48)) l 0.
(** NUMBER_RE = (-?(?:0|[1-9][0-9]* ))(\.[0-9]+)?([eE][-+]?[0-9]+)? *)
Definition scan_number (float_of : ustr -> Z) (l : ustr) : res (json * ustr) :=
  let '(neg, l1) := match l with c :: r => if c =? 45 then (true, r) else (false, l) | [] => (false, l) end in
  '(ip, l2) <- match l1 with
               | c :: r => if c =? 48 then Ok ([48], r)
                           else if digit c then Ok (take_digits l1) else Err ValueError
               | [] => Err ValueError
               end ;;
  let '(fp, l3) := match l2 with
                   | c :: r => if c =? 46 then match take_digits r with
                                               | ([], _) => ([], l2)
                                               | (d, t) => (46 :: d, t)
                                               end
                               else ([], l2)
                   | [] => ([], l2)
                   end in
  let '(ep, l4) := match l3 with
                   | c :: r =>
                     if (c =? 101) || (c =? 69) then
                       let '(sg, r1) := match r with
                                        | s :: r' => if (s =? 43) || (s =? 45) then ([s], r') else ([], r)
                                        | [] => ([], r)
                                        end in
                       match take_digits r1 with
                       | ([], _) => ([], l3)
                       | (d, t) => (c :: sg ++ d, t)
                       end
                     else ([], l3)
                   | [] => ([], l3)
                   end in
  let sign := if neg : bool then [45] else [] in
  match fp, ep with
  | [], [] => Ok (JInt (if neg then - digits_value ip else digits_value ip), l4)
  | _, _ => Ok (JFloat (float_of (sign ++ ip ++ fp ++ ep)), l4)
  end.

Definition from_pairs (A : Type) (l : list (ustr * A)) : list (ustr * A) :=
  fold_left (fun d kv => obj_set d (fst kv) (snd kv)) l [].

(** json.loads: [float_of] converts the text of a number with a fraction or an exponent,
    or one of the constants NaN, Infinity, -Infinity. *)
Section Loads.
Variable float_of : ustr -> Z.
Fixpoint parse_value (fuel : nat) (l : ustr) {struct fuel} : res (json * ustr) :=
  match fuel with
  | 0%nat => Err OutOfFuel
  | S f =>
    match l with
    | [] => Err ValueError
    | c :: r =>
      if c =? 34 then '(s, t) <- scan_string r ;; Ok (JStr s, t)
      else if c =? 123 then
        match skip_ws r with
        | d :: t => if d =? 125 then Ok (JObj [], t)
                    else '(ps, t') <- parse_pairs f (d :: t) ;; Ok (JObj (from_pairs ps), t')
        | [] => Err ValueError
        end
      else if c =? 91 then
        match skip_ws r with
        | d :: t => if d =? 93 then Ok (JList [], t)
                    else '(vs, t') <- parse_items f (d :: t) ;; Ok (JList vs, t')
        | [] => Err ValueError
        end
      else match starts (ulit "null") l with Some t => Ok (JNull, t) | None =>
           match starts (ulit "true") l with Some t => Ok (JBool true, t) | None =>
           match starts (ulit "false") l with Some t => Ok (JBool false, t) | None =>
           match starts (ulit "NaN") l with Some t => Ok (JFloat (float_of (ulit "NaN")), t) | None =>
           match starts (ulit "Infinity") l with Some t => Ok (JFloat (float_of (ulit "Infinity")), t) | None =>
           match starts (ulit "-Infinity") l with Some t => Ok (JFloat (float_of (ulit "-Infinity")), t) | None =>
           scan_number float_of l
           end end end end end end
    end
  end
with parse_items (fuel : nat) (l : ustr) {struct fuel} : res (list json * ustr) :=
  match fuel with
  | 0%nat => Err OutOfFuel
  | S f =>
    '(v, t) <- parse_value f l ;;
    match skip_ws t with
    | d :: t' =>
      if d =? 93 then Ok ([v], t')
      else if d =? 44 then '(vs, t'') <- parse_items f (skip_ws t') ;; Ok (v :: vs, t'')
      else Err ValueError
    | [] => Err ValueError
    end
  end
with parse_pairs (fuel : nat) (l : ustr) {struct fuel} : res (list (ustr * json) * ustr) :=
  match fuel with
  | 0%nat => Err OutOfFuel
  | S f =>
    match l with
    | q :: r =>
      if q =? 34 then
        '(k, t) <- scan_string r ;;
        match skip_ws t with
        | d :: t' =>
          if d =? 58 then
            '(v, t2) <- parse_value f (skip_ws t') ;;
            match skip_ws t2 with
            | e :: t3 =>
              if e =? 125 then Ok ([(k, v)], t3)
              else if e =? 44 then '(ps, t4) <- parse_pairs f (skip_ws t3) ;; Ok ((k, v) :: ps, t4)
              else Err ValueError
            | [] => Err ValueError
            end
          else Err ValueError
        | [] => Err ValueError
        end
      else Err ValueError
    | [] => Err ValueError
    end
  end.
Definition loads (l : ustr) : res json :=
  let l' := skip_ws l in
  '(v, t) <- parse_value (2 * List.length l' + 2) l' ;;
  match skip_ws t with [] => Ok v | _ :: _ => Err ValueError end.
End Loads.

(** ** UTF-8 (strict): str.encode("utf-8") and bytes.decode("utf-8").
    UnicodeEncodeError and UnicodeDecodeError are subclasses of ValueError. *)
Definition scalar (c : Z) : bool := ((0 <=? c) && (c <? 55296)) || ((57344 <=? c) && (c <? 1114112)).
Definition utf8_char (c : Z) : list Z :=
  if c <? 128 then [c]
  else if c <? 2048 then [192 + c / 64; 128 + c mod 64]
  else if c <? 65536 then [224 + c / 4096; 128 + c / 64 mod 64; 128 + c mod 64]
  else [240 + c / 262144; 128 + c / 4096 mod 64; 128 + c / 64 mod 64; 128 + c mod 64].
Definition utf8_encode (s : ustr) : res (list Z) :=
  if forallb scalar s then Ok (flat_map utf8_char s) else Err ValueError.
Definition cont (b : Z) : bool := (128 <=? b) && (b <? 192).
Fixpoint utf8_decode (b : list Z) : res ustr :=
  match b with
  | [] => Ok []
  | b0 :: r0 =>
    if b0 <? 128 then s <- utf8_decode r0 ;; Ok (b0 :: s)
    else match r0 with
    | [] => Err ValueError
    | b1 :: r1 =>
      if negb (cont b1) then Err ValueError
      else if b0 <? 224 then
        let c := (b0 - 192) * 64 + (b1 - 128) in
        if (192 <=? b0) && (128 <=? c) then s <- utf8_decode r1 ;; Ok (c :: s) else Err ValueError
      else match r1 with
      | [] => Err ValueError
      | b2 :: r2 =>
        if negb (cont b2) then Err ValueError
        else if b0 <? 240 then
          let c := ((b0 - 224) * 64 + (b1 - 128)) * 64 + (b2 - 128) in
          if (2048 <=? c) && scalar c then s <- utf8_decode r2 ;; Ok (c :: s) else Err ValueError
        else match r2 with
        | [] => Err ValueError
        | b3 :: r3 =>
          let c := (((b0 - 240) * 64 + (b1 - 128)) * 64 + (b2 - 128)) * 64 + (b3 - 128) in
          if cont b3 && (65536 <=? c) && (c <? 1114112) then s <- utf8_decode r3 ;; Ok (c :: s) else Err ValueError
        end
      end
    end
  end.
