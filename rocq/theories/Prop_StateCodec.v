(** * C30: canonical pipeline states round-trip.
    Specification vocabulary (which values are supported, when two values are the same
    state): StateCodecSpec.v. *)
From Verif Require Import Base BaseFacts Rng Checkpoint Json JsonFacts StateCodec StateCodecSpec StateCodecFacts.
Set Implicit Arguments. Unset Strict Implicit.

Section C30.
(** What repr of a float, float of a text and int of an arbitrary JSON value return does
    not matter. *)
Variable float_text : Z -> ustr.
Variable float_of : ustr -> Z.
Variable int_of_other : json -> res Z.
Notation encode := (canonical_pipeline_state_bytes float_text).
Notation decode := (decode_canonical_pipeline_state float_text float_of int_of_other).

Lemma bytes_eqb_eq a : forall b, bytes_eqb a b = true <-> a = b.
Proof.
  induction a as [|x a IH]; intros [|y b]; cbn; try (split; (discriminate || reflexivity)).
  rewrite andb_true_iff, Z.eqb_eq, IH. split; [intros [-> ->]; reflexivity|intros H; injection H as -> ->; split; reflexivity].
Qed.
Lemma decode_encode v b : wf v -> encode v = Ok b -> decode b = Ok (norm v).
Proof.
  intros W E. pose proof (encode_inv W E) as H. rewrite (encode_ok float_text W H) in E. injection E as <-.
  assert (P : plain_json (cjs v)) by (apply cjs_plain; assumption).
  unfold decode_canonical_pipeline_state.
  rewrite (@utf8_roundtrip (dumps float_text (cjs v))); [|unfold utf8_encode; rewrite (plain_text float_text P); reflexivity].
  cbn [bind]. rewrite (loads_dumps float_text float_of P). cbn [bind]. rewrite (decode_cjs int_of_other W H). cbn [bind].
  rewrite (encode_ok float_text (norm_wf W H) (norm_supported H)), (cjs_norm W H). cbn [bind].
  rewrite (proj2 (bytes_eqb_eq _ _) eq_refl). reflexivity.
Qed.

(** Exactly the supported values have an encoding; for anything else - integers beyond 64
    bits, NaN and infinities, unpaired surrogates, keys that are not strings or collide
    with a tag, tensors that are not plain CPU tensors, other objects - an exception is raised. *)
Theorem C30_supported_states_are_encoded : forall v, wf v -> ((exists b, encode v = Ok b) <-> supported v).
Proof.
  intros v W. split; [intros (b & E); apply (encode_inv W E)|]. intros H. eexists. apply encode_ok; assumption.
Qed.

(** Decoding an encoded state gives it back: the same values, with tuples for lists. *)
Theorem C30_encoded_states_decode_to_themselves : forall v b, wf v -> encode v = Ok b ->
  exists v', decode b = Ok v' /\ same v v' /\ tuples_only v'.
Proof.
  intros v b W E. pose proof (encode_inv W E) as H. exists (norm v). split; [apply decode_encode; assumption|].
  split; [|apply norm_tuples; exact H]. apply norm_same; [exact H|apply norm_supported; exact H|].
  assert (D : decode b = Ok (norm v)) by (apply decode_encode; assumption).
  assert (E2 : encode (norm v) = Ok b).
  { rewrite (encode_ok float_text (norm_wf W H) (norm_supported H)), (cjs_norm W H), <- (encode_ok float_text W H). exact E. }
  pose proof (decode_encode (norm_wf W H) E2) as D2. rewrite D in D2. injection D2 as D2. exact D2.
Qed.

(** Two states have the same encoding exactly if they are the same: no collisions, and
    neither insertion order nor list/tuple nor a tensor's memory layout shows. *)
Theorem C30_encodings_are_equal_exactly_for_the_same_state : forall v1 v2 b1 b2, wf v1 -> wf v2 ->
  encode v1 = Ok b1 -> encode v2 = Ok b2 -> (b1 = b2 <-> same v1 v2).
Proof.
  intros v1 v2 b1 b2 W1 W2 E1 E2. pose proof (encode_inv W1 E1) as H1. pose proof (encode_inv W2 E2) as H2. split.
  - intros ->. apply norm_same; [exact H1|exact H2|]. pose proof (decode_encode W1 E1) as D1. pose proof (decode_encode W2 E2) as D2.
    rewrite D1 in D2. injection D2 as D2. exact D2.
  - intros S. pose proof (same_norm W1 H1 W2 H2 S) as N. rewrite (encode_ok float_text W1 H1) in E1. rewrite (encode_ok float_text W2 H2) in E2.
    rewrite <- (cjs_norm W1 H1), N, (cjs_norm W2 H2), E2 in E1. injection E1 as E1. congruence.
Qed.

(** Only canonical blobs are accepted: whatever decodes encodes to the very same bytes,
    so a state has exactly one accepted blob. *)
Theorem C30_only_canonical_blobs_decode : forall b v, decode b = Ok v -> encode v = Ok b.
Proof.
  intros b v H. unfold decode_canonical_pipeline_state in H.
  destruct (utf8_decode b) as [s|]; [|discriminate]. cbn [bind] in H. destruct (loads float_of s) as [j|]; [|discriminate]. cbn [bind] in H.
  destruct (decode_value int_of_other j) as [w|] eqn:D; [|discriminate]. cbn [bind] in H.
  destruct (encode w) as [again|] eqn:E; [|discriminate]. cbn [bind] in H.
  destruct (bytes_eqb again b) eqn:Eb; [|discriminate]. injection H as <-. apply bytes_eqb_eq in Eb. subst. exact E.
Qed.
Corollary C30_a_state_has_one_accepted_blob : forall b1 b2 v1 v2, decode b1 = Ok v1 -> decode b2 = Ok v2 ->
  wf v1 -> wf v2 -> same v1 v2 -> b1 = b2.
Proof.
  intros b1 b2 v1 v2 D1 D2 W1 W2 S. apply C30_only_canonical_blobs_decode in D1, D2.
  apply (C30_encodings_are_equal_exactly_for_the_same_state W1 W2 D1 D2). exact S.
Qed.
End C30.

(** ** The model's recursion bound is never reached: json.loads returns a value or raises
    its own error on every text. *)
Section Fuel.
Variable float_of : ustr -> Z.
Lemma skip_ws_length l : (List.length (skip_ws l) <= List.length l)%nat.
Proof. induction l as [|c l IH]; cbn; [lia|]. destruct (is_ws c); cbn; lia. Qed.
Lemma starts_length p : forall l t, starts p l = Some t -> (List.length t <= List.length l)%nat.
Proof.
  induction p as [|x p IH]; intros l t H; cbn in H; [injection H as <-; lia|]. destruct l as [|y l]; [discriminate|].
  destruct (x =? y); [|discriminate]. apply IH in H. cbn. lia.
Qed.
Lemma scan_units_length n : forall l, (List.length l <= n)%nat ->
  match scan_units l with Ok (_, t) => (List.length t <= List.length l)%nat | Err e => e <> OutOfFuel end.
Proof.
  induction n as [|n IH]; intros l Hl; (destruct l as [|c r]; [cbn; discriminate|]); [cbn in Hl; lia|].
  cbn [List.length] in Hl.
  assert (R : forall r', (List.length r' <= n)%nat -> (List.length r' <= List.length (c :: r))%nat -> forall x,
    match '(s, t) <- scan_units r' ;; Ok (x :: s, t) with Ok (_, t) => (List.length t <= List.length (c :: r))%nat | Err e => e <> OutOfFuel end).
  { intros r' H1 H2 x. specialize (IH r' H1). destruct (scan_units r') as [[s t]|e]; cbn [bind]; [lia|exact IH]. }
  cbn [scan_units]. destruct (c =? 34); [cbn; lia|]. destruct (c =? 92).
  - destruct r as [|e r']; [discriminate|]. cbn [List.length] in *. cbv zeta.
    repeat match goal with |- context [if ?x =? ?y then _ else _] => destruct (x =? y); [try (apply R; cbn [List.length]; lia)|] end; try discriminate.
    destruct r' as [|h1 [|h2 [|h3 [|h4 r'']]]]; try discriminate. cbn [List.length] in *.
    destruct (hex_value h1), (hex_value h2), (hex_value h3), (hex_value h4); try discriminate. apply R; cbn [List.length]; lia.
  - destruct (c <? 32); [discriminate|]. apply R; cbn [List.length]; lia.
Qed.
Lemma scan_string_length l : match scan_string l with Ok (_, t) => (List.length t <= List.length l)%nat | Err e => e <> OutOfFuel end.
Proof.
  unfold scan_string. pose proof (scan_units_length (le_n (List.length l))) as H. destruct (scan_units l) as [[s t]|e]; exact H.
Qed.
Lemma take_digits_length l : (List.length (snd (take_digits l)) <= List.length l)%nat.
Proof.
  induction l as [|c l IH]; [cbn; lia|]. cbn [take_digits]. destruct (digit c); [|cbn; lia]. destruct (take_digits l) as [d t]. cbn in *. lia.
Qed.
Lemma scan_number_length l : match scan_number float_of l with Ok (_, t) => (List.length t <= List.length l)%nat | Err e => e <> OutOfFuel end.
Proof.
  unfold scan_number.
  set (a := match l with c :: r => if c =? 45 then (true, r) else (false, l) | [] => (false, l) end).
  assert (A : (List.length (snd a) <= List.length l)%nat) by (subst a; destruct l as [|c r]; [|destruct (c =? 45)]; cbn; lia).
  destruct a as [neg l1]. cbn [snd] in A.
  set (b := match l1 with c :: r => if c =? 48 then Ok ([48], r) else if digit c then Ok (take_digits l1) else Err ValueError | [] => Err ValueError end).
  assert (B : match b with Ok (_, t) => (List.length t <= List.length l1)%nat | Err e => e <> OutOfFuel end).
  { subst b. destruct l1 as [|c r]; [discriminate|]. destruct (c =? 48); [cbn; lia|]. destruct (digit c); [|discriminate].
    pose proof (take_digits_length (c :: r)) as T. destruct (take_digits (c :: r)). exact T. }
  destruct b as [[ip l2]|e]; [|exact B]. cbn [bind].
  match goal with |- context [let '(_, _) := ?x in _] => set (f := x) end.
  assert (F : (List.length (snd f) <= List.length l2)%nat).
  { subst f. destruct l2 as [|c r]; [cbn; lia|]. destruct (c =? 46); [|cbn; lia]. pose proof (take_digits_length r) as T.
    destruct (take_digits r) as [[|d ds] t]; cbn in *; lia. }
  destruct f as [fp l3]. cbn [snd] in F.
  match goal with |- context [let '(_, _) := ?x in _] => set (g := x) end.
  assert (G : (List.length (snd g) <= List.length l3)%nat).
  { subst g. destruct l3 as [|c r]; [cbn; lia|]. destruct ((c =? 101) || (c =? 69)); [|cbn; lia].
    set (h := match r with s :: r' => if (s =? 43) || (s =? 45) then ([s], r') else ([], r) | [] => ([], r) end).
    assert (H : (List.length (snd h) <= List.length r)%nat) by (subst h; destruct r as [|s r]; [|destruct ((s =? 43) || (s =? 45))]; cbn; lia).
    destruct h as [sg r1]. cbn [snd] in H. pose proof (take_digits_length r1) as T. destruct (take_digits r1) as [[|d ds] t]; cbn in *; lia. }
  destruct g as [ep l4]. cbn [snd] in G. cbv zeta. destruct fp, ep; lia.
Qed.
Definition fine (A : Type) (l : ustr) (strict : nat) (r : res (A * ustr)) : Prop :=
  match r with Ok (_, t) => (List.length t + strict <= List.length l)%nat | Err e => e <> OutOfFuel end.
Lemma parse_fine f : forall l,
  ((2 * List.length l + 1 <= f)%nat -> fine l 0 (parse_value float_of f l)) /\
  ((2 * List.length l + 2 <= f)%nat -> fine l 0 (parse_items float_of f l)) /\
  ((2 * List.length l + 2 <= f)%nat -> fine l 0 (parse_pairs float_of f l)).
Proof.
  induction f as [|f IH]; intros l; [split; [|split]; intros; lia|]. split; [|split]; intros Hf.
  - destruct l as [|c r]; [discriminate|]. cbn [List.length] in Hf.
    assert (S : parse_value float_of (S f) (c :: r) =
      if c =? 34 then '(s, t) <- scan_string r ;; Ok (JStr s, t)
      else if c =? 123 then
        match skip_ws r with
        | d :: t => if d =? 125 then Ok (JObj [], t)
                    else '(ps, t') <- parse_pairs float_of f (d :: t) ;; Ok (JObj (from_pairs ps), t')
        | [] => Err ValueError
        end
      else if c =? 91 then
        match skip_ws r with
        | d :: t => if d =? 93 then Ok (JList [], t)
                    else '(vs, t') <- parse_items float_of f (d :: t) ;; Ok (JList vs, t')
        | [] => Err ValueError
        end
      else match starts (ulit "null") (c :: r) with Some t => Ok (JNull, t) | None =>
           match starts (ulit "true") (c :: r) with Some t => Ok (JBool true, t) | None =>
           match starts (ulit "false") (c :: r) with Some t => Ok (JBool false, t) | None =>
           match starts (ulit "NaN") (c :: r) with Some t => Ok (JFloat (float_of (ulit "NaN")), t) | None =>
           match starts (ulit "Infinity") (c :: r) with Some t => Ok (JFloat (float_of (ulit "Infinity")), t) | None =>
           match starts (ulit "-Infinity") (c :: r) with Some t => Ok (JFloat (float_of (ulit "-Infinity")), t) | None =>
           scan_number float_of (c :: r)
           end end end end end end) by reflexivity.
    rewrite S. clear S.
    destruct (c =? 34).
    + pose proof (scan_string_length r) as H. destruct (scan_string r) as [[s t]|e]; cbn in *; [lia|exact H].
    + destruct (c =? 123); [|destruct (c =? 91)].
      * pose proof (skip_ws_length r) as W. destruct (skip_ws r) as [|d t]; [discriminate|]. destruct (d =? 125); [cbn in *; lia|].
        destruct (IH (d :: t)) as (_ & _ & H). specialize (H ltac:(lia)). unfold fine in *. destruct (parse_pairs float_of f (d :: t)) as [[ps t']|e]; cbn in *; [lia|exact H].
      * pose proof (skip_ws_length r) as W. destruct (skip_ws r) as [|d t]; [discriminate|]. destruct (d =? 93); [cbn in *; lia|].
        destruct (IH (d :: t)) as (_ & H & _). specialize (H ltac:(lia)). unfold fine in *. destruct (parse_items float_of f (d :: t)) as [[ps t']|e]; cbn in *; [lia|exact H].
      * pose proof (@starts_length (ulit "null") (c :: r)) as S1. destruct (starts (ulit "null") (c :: r)); [cbn; specialize (S1 _ eq_refl); cbn in S1; lia|].
        pose proof (@starts_length (ulit "true") (c :: r)) as S2. destruct (starts (ulit "true") (c :: r)); [cbn; specialize (S2 _ eq_refl); cbn in S2; lia|].
        pose proof (@starts_length (ulit "false") (c :: r)) as S3. destruct (starts (ulit "false") (c :: r)); [cbn; specialize (S3 _ eq_refl); cbn in S3; lia|].
        pose proof (@starts_length (ulit "NaN") (c :: r)) as S4. destruct (starts (ulit "NaN") (c :: r)); [cbn; specialize (S4 _ eq_refl); cbn in S4; lia|].
        pose proof (@starts_length (ulit "Infinity") (c :: r)) as S5. destruct (starts (ulit "Infinity") (c :: r)); [cbn; specialize (S5 _ eq_refl); cbn in S5; lia|].
        pose proof (@starts_length (ulit "-Infinity") (c :: r)) as S6. destruct (starts (ulit "-Infinity") (c :: r)); [cbn; specialize (S6 _ eq_refl); cbn in S6; lia|].
        pose proof (scan_number_length (c :: r)) as H. unfold fine. destruct (scan_number float_of (c :: r)) as [[s t]|e]; [lia|exact H].
  - assert (S : parse_items float_of (S f) l =
      ('(v, t) <- parse_value float_of f l ;;
      match skip_ws t with
      | d :: t' =>
        if d =? 93 then Ok ([v], t')
        else if d =? 44 then '(vs, t'') <- parse_items float_of f (skip_ws t') ;; Ok (v :: vs, t'')
        else Err ValueError
      | [] => Err ValueError
      end)) by reflexivity.
    rewrite S. clear S. destruct (IH l) as (H & _). specialize (H ltac:(lia)). unfold fine in *.
    destruct (parse_value float_of f l) as [[v t]|e]; [|exact H]. cbn [bind]. pose proof (skip_ws_length t) as W.
    destruct (skip_ws t) as [|d t']; [discriminate|]. cbn [List.length] in W. destruct (d =? 93); [lia|]. destruct (d =? 44); [|discriminate].
    pose proof (skip_ws_length t') as W2. destruct (IH (skip_ws t')) as (_ & H2 & _). specialize (H2 ltac:(lia)).
    destruct (parse_items float_of f (skip_ws t')) as [[vs t'']|e]; cbn [bind]; [lia|exact H2].
  - assert (S : parse_pairs float_of (S f) l =
    match l with
    | q :: r =>
      if q =? 34 then
        '(k, t) <- scan_string r ;;
        match skip_ws t with
        | d :: t' =>
          if d =? 58 then
            '(v, t2) <- parse_value float_of f (skip_ws t') ;;
            match skip_ws t2 with
            | e :: t3 =>
              if e =? 125 then Ok ([(k, v)], t3)
              else if e =? 44 then '(ps, t4) <- parse_pairs float_of f (skip_ws t3) ;; Ok ((k, v) :: ps, t4)
              else Err ValueError
            | [] => Err ValueError
            end
          else Err ValueError
        | [] => Err ValueError
        end
      else Err ValueError
    | [] => Err ValueError
    end) by reflexivity.
    rewrite S. clear S. destruct l as [|q r]; [discriminate|]. cbn [List.length] in Hf. destruct (q =? 34); [|discriminate].
    pose proof (scan_string_length r) as H. destruct (scan_string r) as [[k t]|e]; [|exact H]. cbn [bind]. pose proof (skip_ws_length t) as W.
    destruct (skip_ws t) as [|d t']; [discriminate|]. cbn [List.length] in W. destruct (d =? 58); [|discriminate].
    pose proof (skip_ws_length t') as W1. destruct (IH (skip_ws t')) as (H1 & _). specialize (H1 ltac:(lia)). unfold fine in *.
    destruct (parse_value float_of f (skip_ws t')) as [[v t2]|e]; [|exact H1]. cbn [bind]. pose proof (skip_ws_length t2) as W2.
    destruct (skip_ws t2) as [|e t3]; [discriminate|]. cbn [List.length] in *. destruct (e =? 125); [lia|]. destruct (e =? 44); [|discriminate].
    pose proof (skip_ws_length t3) as W3. destruct (IH (skip_ws t3)) as (_ & _ & H2). specialize (H2 ltac:(lia)).
    destruct (parse_pairs float_of f (skip_ws t3)) as [[vs t'']|e']; cbn [bind]; [lia|exact H2].
Qed.
Theorem loads_never_out_of_fuel : forall s, loads float_of s <> Err OutOfFuel.
Proof.
  intros s. unfold loads. cbv zeta. destruct (parse_fine (2 * List.length (skip_ws s) + 2) (skip_ws s)) as (H & _). specialize (H ltac:(lia)).
  unfold fine in H. destruct (parse_value float_of _ _) as [[v t]|e]; cbn [bind]; [destruct (skip_ws t); discriminate|congruence].
Qed.
End Fuel.

(** ** A concrete state: every kind of value, a control character, a quote and characters
    of two, three and four UTF-8 bytes. *)
Module Ex.
Definition enc := canonical_pipeline_state_bytes (fun _ => []).
Definition dec := decode_canonical_pipeline_state (fun _ => []) (fun _ => 0) (fun _ => Err TypeError).
Definition k (s : string) := KStr (ulit s).
Definition t1 : tensor := {| t_dtype := Int16; t_shape := [2; 1]; t_data := [1; 0; 255; 127] |}.
Definition state : value := VDict
  [ (k "step", VInt (-9223372036854775808)); (k "flag", VBool true); (k "one", VInt 1);
    (k "lr", VFloat 4607182418800017408); (k "tensor", VTensor true t1); (k "raw", VBytes [0; 10; 255]);
    (k "names", VList [VStr [97; 34; 7; 233; 8364; 128512]; VNone; VTuple [VDict []]]) ].
Example state_wf : wf state.
Proof.
  unfold state, k. constructor.
  - repeat constructor; cbn; intuition discriminate.
  - repeat (constructor; try (cbn; unfold is_byte; lia)).
Qed.
Example state_supported : supported state.
Proof.
  unfold state, k. constructor.
  - repeat (apply Forall_cons; [eexists; split; [reflexivity|split; [apply scalars_iff; reflexivity|rewrite <- reserved_iff; discriminate]]|]).
    apply Forall_nil.
  - repeat (constructor; cbn [snd fst]; try lia; try (unfold scalar_value; lia); try reflexivity).
Qed.
Example round_trip : exists b, enc state = Ok b /\ zlen b = 223 /\
  dec b = Ok (VDict
   [ (k "flag", VBool true); (k "lr", VFloat 4607182418800017408);
     (k "names", VTuple [VStr [97; 34; 7; 233; 8364; 128512]; VNone; VTuple [VDict []]]);
     (k "one", VInt 1); (k "raw", VBytes [0; 10; 255]);
     (k "step", VInt (-9223372036854775808)); (k "tensor", VTensor true t1) ]).
Proof. eexists. split; [vm_compute; reflexivity|]. split; vm_compute; reflexivity. Qed.
(** Not canonical: a space, a float written as a JSON number, an upper-case digit. *)
Example rejected : dec (ulit "[1, 2]") = Err ValueError /\ dec (ulit "[1.5]") = Err ValueError /\
  dec (ulit "{""$bytes"":""FF""}") = Err ValueError /\ dec (ulit "{""$bytes"":""ff""}") = Ok (VBytes [255]) /\
  dec (ulit "{""a"":1,""a"":1}") = Err ValueError /\ dec (ulit "-0") = Err ValueError /\
  enc (VDict [(k "$f64", VNone)]) = Err ValueError /\ enc (VInt (2 ^ 63)) = Err ValueError.
Proof. repeat split; vm_compute; reflexivity. Qed.
End Ex.
