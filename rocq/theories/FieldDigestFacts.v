(** The byte stream of a field value without dictionaries can be read back: no other such
    value has the same stream. *)
From Verif Require Import Base BaseFacts Rng RngFacts Checkpoint Json JsonFacts StateCodec StateCodecSpec StateCodecFacts FieldDigest FieldDigestSpec.
Set Implicit Arguments. Unset Strict Implicit.

(** ** Pieces *)
Lemma split_sep (z : Z) (t1 t2 x y : list Z) : ~ In z t1 -> ~ In z t2 -> t1 ++ z :: x = t2 ++ z :: y -> t1 = t2 /\ x = y.
Proof.
  revert t2; induction t1 as [|a t1 IH]; intros [|b t2] H1 H2 H; cbn in *.
  - injection H as H. auto.
  - injection H as H _. exfalso. apply H2. left. auto.
  - injection H as H _. exfalso. apply H1. left. auto.
  - injection H as -> H. destruct (IH t2) as (-> & ->); auto.
Qed.

Lemma app_inv_len (A : Type) (a b x y : list A) : List.length a = List.length b -> a ++ x = b ++ y -> a = b /\ x = y.
Proof.
  revert b; induction a as [|u a IH]; intros [|v b] L H; cbn in *; try discriminate; [auto|].
  injection H as -> H. destruct (IH b) as (-> & ->); auto.
Qed.
Lemma hexn_length k c : List.length (hexn k c) = k.
Proof. revert c; induction k as [|k IH]; intros c; cbn; [reflexivity|]. rewrite app_length, IH. cbn. lia. Qed.
Lemma hexn_inj k c d : 0 <= c < 16 ^ Z.of_nat k -> 0 <= d < 16 ^ Z.of_nat k -> hexn k c = hexn k d -> c = d.
Proof.
  revert c d; induction k as [|k IH]; intros c d Hc Hd H.
  - cbn in *. lia.
  - cbn [hexn] in H. apply app_inj_tail in H. destruct H as [H1 H2].
    rewrite Nat2Z.inj_succ, Z.pow_succ_r in Hc, Hd by lia.
    apply IH in H1; [|split; [apply Z.div_pos; lia|apply Z.div_lt_upper_bound; lia]..].
    pose proof (Z.mod_pos_bound c 16 ltac:(lia)) as B1. pose proof (Z.mod_pos_bound d 16 ltac:(lia)) as B2.
    pose proof (hex_value_digit B1) as E1. pose proof (hex_value_digit B2) as E2. rewrite H2, E2 in E1. injection E1 as E1.
    rewrite (Z.div_mod c 16), (Z.div_mod d 16) by lia. lia.
Qed.
Lemma hexn_app_inj k c d x y : 0 <= c < 16 ^ Z.of_nat k -> 0 <= d < 16 ^ Z.of_nat k -> hexn k c ++ x = hexn k d ++ y -> c = d /\ x = y.
Proof.
  intros Hc Hd H. apply app_inv_len in H; [|rewrite !hexn_length; reflexivity]. destruct H as [H1 H2]. split; [|exact H2].
  apply (hexn_inj Hc Hd H1).
Qed.

Lemma utf8_char_app_inj c d x y : 0 <= c <= 1114111 -> 0 <= d <= 1114111 -> utf8_char c ++ x = utf8_char d ++ y -> c = d /\ x = y.
Proof.
  unfold utf8_char. intros Hc Hd H.
  destruct (c <? 128) eqn:C1; [|destruct (c <? 2048) eqn:C2; [|destruct (c <? 65536) eqn:C3]];
    (destruct (d <? 128) eqn:D1; [|destruct (d <? 2048) eqn:D2; [|destruct (d <? 65536) eqn:D3]]); cbn [app] in H;
    injection H; clear H; intros; try (exfalso; Z.to_euclidean_division_equations; lia); (split; [|assumption]);
    try (Z.to_euclidean_division_equations; lia).
Qed.

(** ** repr of texts *)
Section Texts.
Variable shown : Z -> bool.
Variable q : Z.
Hypothesis Hq : q = 39 \/ q = 34.
Definition code_point (c : Z) : Prop := 0 <= c <= 1114111.

Lemma utf8_first c : code_point c -> 128 <= c -> exists b t, utf8_char c = b :: t /\ 192 <= b.
Proof.
  unfold code_point, utf8_char. intros Hc H. replace (c <? 128) with false by lia.
  destruct (c <? 2048); [|destruct (c <? 65536)]; eexists _, _; (split; [reflexivity|]); Z.to_euclidean_division_equations; lia.
Qed.

(** What a character looks like, by its first bytes. *)
Inductive shape_of (c : Z) : bytes -> Prop :=
| so_self : (c = q \/ c = 92) -> shape_of c [92; c]
| so_t : c = 9 -> shape_of c [92; 116]
| so_n : c = 10 -> shape_of c [92; 110]
| so_r : c = 13 -> shape_of c [92; 114]
| so_x : c < 256 -> shape_of c (92 :: 120 :: hexn 2 c)
| so_u : c < 65536 -> shape_of c (92 :: 117 :: hexn 4 c)
| so_U : shape_of c (92 :: 85 :: hexn 8 c)
| so_raw : c <> 92 -> c <> q -> shape_of c (utf8_char c).
Lemma repr_char_shape c : code_point c -> shape_of c (repr_char shown q c).
Proof.
  unfold code_point. intros Hc. unfold repr_char.
  destruct ((c =? q) || (c =? 92)) eqn:E1; [apply so_self; lia|].
  destruct (c =? 9) eqn:E2; [apply so_t; lia|]. destruct (c =? 10) eqn:E3; [apply so_n; lia|].
  destruct (c =? 13) eqn:E4; [apply so_r; lia|].
  destruct ((c <? 32) || (c =? 127)) eqn:E5; [apply so_x; lia|].
  destruct (c <? 127) eqn:E6.
  { replace [c] with (utf8_char c) by (unfold utf8_char; replace (c <? 128) with true by lia; reflexivity). apply so_raw; lia. }
  destruct (shown c); [apply so_raw; lia|].
  destruct (c <? 256) eqn:E7; [apply so_x; lia|]. destruct (c <? 65536) eqn:E8; [apply so_u; lia|apply so_U].
Qed.
Lemma raw_first c : code_point c -> c <> 92 -> c <> q -> exists b t, utf8_char c = b :: t /\ b <> 92 /\ b <> q.
Proof.
  intros Hc H1 H2. unfold code_point in Hc. destruct (c <? 128) eqn:E.
  - unfold utf8_char. rewrite E. eexists _, _. split; [reflexivity|]. split; assumption.
  - destruct (@utf8_first c) as (b & t & -> & Hb); [exact Hc|lia|]. exists b, t. repeat split; lia.
Qed.
Lemma shape_inj c d s t x y : code_point c -> code_point d -> shape_of c s -> shape_of d t -> s ++ x = t ++ y -> c = d /\ x = y.
Proof.
  intros Hc Hd Hs Ht H. pose proof Hc as Bc. pose proof Hd as Bd. unfold code_point in Bc, Bd.
  destruct Hs as [P|P|P|P|P|P| |P P'], Ht as [Q|Q|Q|Q|Q|Q| |Q Q'];
    try (destruct (raw_first Hc P P') as (b1 & t1 & E1 & N1 & N1')); try (destruct (raw_first Hd Q Q') as (b2 & t2 & E2 & N2 & N2'));
    try (exfalso; first [rewrite E1 in H | rewrite E2 in H]; cbn [app] in H; injection H as H; lia);
    try (cbn [app] in H; injection H; intros; (split; [lia|assumption])); try (exfalso; cbn [app] in H; injection H; intros; lia).
  - apply (f_equal (@skipn Z 2)) in H. change (hexn 2 c ++ x = hexn 2 d ++ y) in H. apply (hexn_app_inj (k:=2)) in H; [exact H|cbn; lia..].
  - apply (f_equal (@skipn Z 2)) in H. change (hexn 4 c ++ x = hexn 4 d ++ y) in H. apply (hexn_app_inj (k:=4)) in H; [exact H|cbn; lia..].
  - apply (f_equal (@skipn Z 2)) in H. change (hexn 8 c ++ x = hexn 8 d ++ y) in H. apply (hexn_app_inj (k:=8)) in H; [exact H|cbn; lia..].
  - apply (utf8_char_app_inj Bc Bd H).
Qed.
Lemma shape_not_quote c s x y : code_point c -> shape_of c s -> s ++ x = q :: y -> False.
Proof.
  intros Hc Hs H. destruct Hs as [P|P|P|P|P|P| |P P']; try (cbn [app] in H; injection H; intros; lia).
  destruct (raw_first Hc P P') as (b & t & E & N1 & N2). rewrite E in H. cbn [app] in H. injection H; intros; lia.
Qed.
Lemma body_inj s t x y : Forall code_point s -> Forall code_point t ->
  flat_map (repr_char shown q) s ++ q :: x = flat_map (repr_char shown q) t ++ q :: y -> s = t /\ x = y.
Proof.
  revert t; induction s as [|c s IH]; intros [|d t] Hs Ht H; cbn [flat_map] in H; rewrite <- ?app_assoc in H.
  - cbn [app] in H. injection H as H. auto.
  - inversion Ht; subst. exfalso. cbn [app] in H. symmetry in H. revert H. apply shape_not_quote with (c:=d); [assumption|apply repr_char_shape; assumption].
  - inversion Hs; subst. exfalso. cbn [app] in H. revert H. apply shape_not_quote with (c:=c); [assumption|apply repr_char_shape; assumption].
  - inversion Hs; inversion Ht; subst. apply (@shape_inj c d) in H; [|assumption..|apply repr_char_shape; assumption|apply repr_char_shape; assumption].
    destruct H as [-> H]. apply IH in H; [|assumption..]. destruct H as [-> ->]. auto.
Qed.
End Texts.
Lemma quote_cases s : quote_of s = 39 \/ quote_of s = 34.
Proof. unfold quote_of. destruct (_ && _); auto. Qed.
Lemma text_inj shown s t x y : Forall code_point s -> Forall code_point t ->
  repr_text shown s ++ x = repr_text shown t ++ y -> s = t /\ x = y.
Proof.
  intros Hs Ht H. unfold repr_text in H. cbn [app] in H. injection H as H1 H2. rewrite <- H1, <- !app_assoc in H2.
  apply (@body_inj shown (quote_of s) (quote_cases s) s t x y Hs Ht H2).
Qed.

(** ** repr of integers, shapes and floats *)
Lemma int_inj n m x y : stops x -> stops y -> int_text n ++ x = int_text m ++ y -> n = m /\ x = y.
Proof.
  intros Hx Hy H. pose proof (@scan_int (fun _ => 0) n x Hx) as E1. pose proof (@scan_int (fun _ => 0) m y Hy) as E2.
  rewrite H, E2 in E1. injection E1 as E1 E3. auto.
Qed.
Lemma stops_44 x : stops (44 :: x). Proof. cbn. repeat split; lia. Qed.
Lemma stops_41 x : stops (41 :: x). Proof. cbn. repeat split; lia. Qed.
Lemma dims_tail_inj l m x y :
  flat_map (fun m => 44 :: 32 :: int_text m) l ++ 41 :: x = flat_map (fun m => 44 :: 32 :: int_text m) m ++ 41 :: y -> l = m /\ x = y.
Proof.
  revert m; induction l as [|a l IH]; intros [|b m] H; cbn [flat_map app] in H; try discriminate.
  - injection H as H. auto.
  - injection H as H. rewrite <- !app_assoc in H. apply int_inj in H.
    + destruct H as [-> H]. apply IH in H. destruct H as [-> ->]. auto.
    + destruct l; cbn [flat_map app]; [apply stops_41|apply stops_44].
    + destruct m; cbn [flat_map app]; [apply stops_41|apply stops_44].
Qed.
Lemma shape_text_inj l m x y : repr_shape l ++ x = repr_shape m ++ y -> l = m /\ x = y.
Proof.
  assert (I0 : forall n, exists c t, int_text n = c :: t /\ c <> 41).
  { intros n. unfold int_text. destruct (n <? 0) eqn:E; [eexists _, _; split; [reflexivity|lia]|].
    assert (Hn : 0 <= n) by lia. destruct (digits_ok Hn) as (_ & _ & H3 & H4). destruct (Z.eq_dec n 0) as [->|].
    - rewrite H3 by reflexivity. eexists _, _. split; [reflexivity|lia].
    - destruct H4 as (c & t & -> & Hc); [lia|]. exists c, t. split; [reflexivity|lia]. }
  intros H. destruct l as [|a [|a' l]], m as [|b [|b' m]]; cbn [repr_shape app] in H.
  - injection H as H. auto.
  - destruct (I0 b) as (c & t & E & N). rewrite E in H. cbn [app] in H. injection H; intros; lia.
  - destruct (I0 b) as (c & t & E & N). rewrite E in H. cbn [app] in H. injection H; intros; lia.
  - destruct (I0 a) as (c & t & E & N). rewrite E in H. cbn [app] in H. injection H; intros; lia.
  - injection H as H. rewrite <- !app_assoc in H. apply int_inj in H; [|apply stops_44..]. destruct H as [-> H]. cbn in H. injection H as H. auto.
  - injection H as H. rewrite <- !app_assoc in H. apply int_inj in H; [|apply stops_44..]. destruct H as [-> H]. cbn in H. discriminate.
  - destruct (I0 a) as (c & t & E & N). rewrite E in H. cbn [app] in H. injection H; intros; lia.
  - injection H as H. rewrite <- !app_assoc in H. apply int_inj in H; [|apply stops_44..]. destruct H as [-> H]. cbn in H. discriminate.
  - injection H as H. rewrite <- !app_assoc in H. apply int_inj in H; [|apply stops_44..]. destruct H as [-> H].
    assert (H' : flat_map (fun m => 44 :: 32 :: int_text m) (a' :: l) ++ 41 :: x = flat_map (fun m => 44 :: 32 :: int_text m) (b' :: m) ++ 41 :: y).
    { cbn [flat_map app]. rewrite <- !app_assoc in *. cbn [app] in *. rewrite <- ?app_assoc in *. exact H. }
    apply dims_tail_inj in H'. destruct H' as [E ->]. rewrite E. auto.
Qed.

(** What can follow a value in the stream: nothing, or the name of a type. *)
Definition nice (r : bytes) : Prop := match r with [] => True | c :: _ => 58 <= c /\ c <> 101 /\ c <> 69 end.
Lemma nice_stops r : nice r -> stops r.
Proof. destruct r as [|c r]; cbn; [auto|]. unfold digit. intros (H1 & H2 & H3). repeat split; lia. Qed.
Lemma nice_not_numeric c r : nice (c :: r) -> numeric_char c = false.
Proof. cbn. unfold numeric_char, digit. cbn. lia. Qed.
Fixpoint span (l : list Z) : list Z * list Z :=
  match l with
  | [] => ([], [])
  | c :: r => if numeric_char c then (c :: fst (span r), snd (span r)) else ([], l)
  end.
Lemma span_app t r : forallb numeric_char t = true -> nice r -> span (t ++ r) = (t, r).
Proof.
  intros Ht Hr. induction t as [|c t IH]; cbn in *.
  - destruct r as [|c r]; [reflexivity|]. cbn. rewrite (nice_not_numeric Hr). reflexivity.
  - apply andb_true_iff in Ht. destruct Ht as [-> Ht]. rewrite (IH Ht). reflexivity.
Qed.
Lemma float_inj ft a b x y : float_repr_law ft -> 0 <= a < 2 ^ 64 -> 0 <= b < 2 ^ 64 -> is_nan a = false ->
  nice x -> nice y -> ft a ++ x = ft b ++ y -> a = b /\ x = y.
Proof.
  intros L Ha Hb Na Hx Hy H. destruct (is_nan b) eqn:Nb.
  { exfalso. rewrite (fr_nan L Hb Nb) in H. destruct (fr_text L Ha Na) as [E|[E|[E D]]].
    - rewrite E in H. discriminate.
    - rewrite E in H. discriminate.
    - pose proof (span_app E Hx) as S. rewrite H in S. change (span (ulit "nan" ++ y)) with (@nil Z, ulit "nan" ++ y) in S.
      injection S as S _. rewrite <- S in D. discriminate. } enough (G : ft a = ft b).
  { split; [apply (fr_inj L); assumption|]. rewrite G in H. apply app_inv_head in H. exact H. }
  assert (S1 : forall z, span (ulit "inf" ++ z) = ([], ulit "inf" ++ z)) by reflexivity.
  assert (S2 : forall z, span (ulit "-inf" ++ z) = ([45], ulit "inf" ++ z)) by reflexivity.
  assert (D : forall t, existsb digit t = true -> t <> [] /\ t <> [45]) by (intros t Ht; split; intros ->; discriminate).
  destruct (fr_text L Ha Na) as [E1|[E1|[E1 D1]]], (fr_text L Hb Nb) as [E2|[E2|[E2 D2]]]; try congruence.
  - rewrite E1, E2 in H. discriminate.
  - exfalso. rewrite E1 in H. pose proof (S1 x) as S. rewrite H, (span_app E2 Hy) in S. injection S as S _. destruct (D _ D2); contradiction.
  - rewrite E1, E2 in H. discriminate.
  - exfalso. rewrite E1 in H. pose proof (S2 x) as S. rewrite H, (span_app E2 Hy) in S. injection S as S _. destruct (D _ D2); contradiction.
  - exfalso. rewrite E2 in H. pose proof (S1 y) as S. rewrite <- H, (span_app E1 Hx) in S. injection S as S _. destruct (D _ D1); contradiction.
  - exfalso. rewrite E2 in H. pose proof (S2 y) as S. rewrite <- H, (span_app E1 Hx) in S. injection S as S _. destruct (D _ D1); contradiction.
  - pose proof (span_app E1 Hx) as S. rewrite H, (span_app E2 Hy) in S. injection S as S _. congruence.
Qed.

(** ** Reading a value back *)
Section FvInd.
Variable P : fv -> Prop.
Hypothesis Ht : forall d s b, P (FTensor d s b).
Hypothesis Ha : forall d s b, P (FArray d s b).
Hypothesis Ho : forall s l, Forall P l -> P (FObjects s l).
Hypothesis Hl : forall l, Forall P l -> P (FList l).
Hypothesis Hu : forall l, Forall P l -> P (FTuple l).
Hypothesis Hd : forall l, Forall (fun kv => P (snd kv)) l -> P (FDict l).
Hypothesis Hn : P FNone.
Hypothesis Hb : forall b, P (FBool b).
Hypothesis Hi : forall n, P (FInt n).
Hypothesis Hf : forall n, P (FFloat n).
Hypothesis Hs : forall n, P (FStr n).
Hypothesis Hy : forall n, P (FBytes n).
Hypothesis Hz : forall q t, P (FOther q t).
Fixpoint fv_induction (v : fv) : P v :=
  let fl := fix fl (l : list fv) : Forall P l :=
    match l with [] => Forall_nil _ | x :: r => Forall_cons x (fv_induction x) (fl r) end in
  match v with
  | FTensor d s b => Ht d s b
  | FArray d s b => Ha d s b
  | FObjects s l => Ho s (fl l)
  | FList l => Hl (fl l)
  | FTuple l => Hu (fl l)
  | FDict l => Hd ((fix fd (l : list (ustr * fv)) : Forall (fun kv => P (snd kv)) l :=
      match l with [] => Forall_nil _ | x :: r => Forall_cons x (fv_induction (snd x)) (fd r) end) l)
  | FNone => Hn | FBool b => Hb b | FInt n => Hi n | FFloat n => Hf n | FStr n => Hs n | FBytes n => Hy n
  | FOther q t => Hz q t
  end.
End FvInd.

Section Feed.
Variable printable : Z -> bool.
Variable ft : Z -> ustr.
Hypothesis L : float_repr_law ft.
Notation feed := (feed printable ft).

Lemma all_ok_cons (A B : Type) (f : A -> res B) x l bs : all_ok (map f (x :: l)) = Ok bs ->
  exists b bs', f x = Ok b /\ all_ok (map f l) = Ok bs' /\ bs = b :: bs'.
Proof.
  cbn [map all_ok]. destruct (f x) as [b|]; [|discriminate]. cbn [bind]. destruct (all_ok (map f l)) as [bs'|]; [|discriminate].
  cbn [bind]. intros H. injection H as <-. eauto.
Qed.
(** The name a value's stream starts with, and the rest. *)
Definition tag_of (v : fv) : string :=
  match v with
  | FTensor _ _ _ => "tensor" | FArray _ _ _ | FObjects _ _ => "array" | FList _ => "list" | FTuple _ => "tuple" | FDict _ => "dict"
  | FNone => "NoneType" | FBool _ => "bool" | FInt _ => "int" | FFloat _ => "float" | FStr _ => "str" | FBytes _ => "bytes" | FOther _ _ => ""
  end.
Lemma dict_free_known v : dict_free v -> known v.
Proof.
  induction v using fv_induction; intros D; inversion D; subst; constructor; auto.
  - rewrite Forall_forall in *. auto.
  - rewrite Forall_forall in *. auto.
  - rewrite Forall_forall in *. auto.
Qed.
Lemma feed_tag v b : known v -> feed v = Ok b -> exists p, b = tagged (tag_of v) p.
Proof.
  intros D. destruct D; cbn [FieldDigest.feed tag_of]; intros Hx.
  - destruct d; try discriminate; cbn [bind] in Hx; injection Hx as <-; eexists; reflexivity.
  - injection Hx as <-. eexists; reflexivity.
  - destruct (all_ok _); [|discriminate]. injection Hx as <-. eexists; reflexivity.
  - destruct (all_ok _); [|discriminate]. injection Hx as <-. eexists; reflexivity.
  - destruct (all_ok _); [|discriminate]. injection Hx as <-. eexists; reflexivity.
  - destruct (all_ok_pairs _); [|discriminate]. injection Hx as <-. eexists; reflexivity.
  - injection Hx as <-. eexists; reflexivity.
  - injection Hx as <-. eexists; reflexivity.
  - injection Hx as <-. eexists; reflexivity.
  - injection Hx as <-. eexists; reflexivity.
  - injection Hx as <-. eexists; reflexivity.
  - injection Hx as <-. eexists; reflexivity.
Qed.
Lemma tag_no_nul v : ~ In 0 (ulit (tag_of v)).
Proof. destruct v; cbn; intuition discriminate. Qed.
Lemma feed_nice v b : known v -> feed v = Ok b -> forall r, nice (b ++ r).
Proof. intros D H r. destruct (feed_tag D H) as (p & ->). destruct D; cbn; repeat split; lia. Qed.
Lemma feeds_nice l bs r : Forall known l -> all_ok (map feed l) = Ok bs -> nice r -> nice (List.concat bs ++ r).
Proof.
  intros D H Hr. destruct l as [|v l]; [injection H as <-; exact Hr|].
  destruct (all_ok_cons H) as (b & bs' & E & _ & ->). cbn [List.concat]. rewrite <- app_assoc. inversion D; subst. eapply feed_nice; eauto.
Qed.

Definition reads_back (v : fv) : Prop := dict_free v -> forall w b1 b2 r1 r2, known w -> feed v = Ok b1 -> feed w = Ok b2 ->
  nice r1 -> nice r2 -> b1 ++ r1 = b2 ++ r2 -> v = w /\ r1 = r2.
Lemma lists_read_back l : Forall reads_back l -> Forall dict_free l -> forall m bs1 bs2 r1 r2, Forall known m ->
  all_ok (map feed l) = Ok bs1 -> all_ok (map feed m) = Ok bs2 -> List.length l = List.length m -> nice r1 -> nice r2 ->
  List.concat bs1 ++ r1 = List.concat bs2 ++ r2 -> l = m /\ r1 = r2.
Proof.
  induction l as [|v l IH]; intros R D [|w m] bs1 bs2 r1 r2 Dm E1 E2 Len N1 N2 H; try discriminate.
  - injection E1 as <-. injection E2 as <-. auto.
  - destruct (all_ok_cons E1) as (b1 & bs1' & F1 & E1' & ->). destruct (all_ok_cons E2) as (b2 & bs2' & F2 & E2' & ->).
    inversion R as [|? ? R1 R2]; inversion D as [|? ? D1 D2]; inversion Dm as [|? ? M1 M2]; subst. cbn [List.concat] in H. rewrite <- !app_assoc in H.
    destruct (R1 D1 w b1 b2 _ _ M1 F1 F2 (feeds_nice (Forall_impl known dict_free_known D2) E1' N1) (feeds_nice M2 E2' N2) H) as [-> H'].
    destruct (IH R2 D2 m bs1' bs2' r1 r2 M2 E1' E2' (eq_add_S _ _ Len) N1 N2 H') as [-> ->]. auto.
Qed.

Lemma dtype_name_no_paren d : ~ In 40 (dtype_name d).
Proof. destruct d; cbn; intuition discriminate. Qed.
Lemma dtype_name_inj d e : dtype_name d = dtype_name e -> d = e.
Proof. intros H. pose proof (dtype_named_name d) as E. rewrite H, dtype_named_name in E. congruence. Qed.
Lemma shape_paren s : exists t, repr_shape s = 40 :: t.
Proof. destruct s as [|a [|b l]]; eexists; reflexivity. Qed.
Lemma header_inj n1 n2 s1 s2 x y : ~ In 40 n1 -> ~ In 40 n2 -> n1 ++ repr_shape s1 ++ x = n2 ++ repr_shape s2 ++ y -> n1 = n2 /\ s1 = s2 /\ x = y.
Proof.
  intros H1 H2 H. destruct (shape_paren s1) as (t1 & E1). destruct (shape_paren s2) as (t2 & E2).
  pose proof H as H0. rewrite E1, E2 in H0. cbn [app] in H0. apply split_sep in H0; [|assumption..]. destruct H0 as [-> _].
  apply app_inv_head in H. apply shape_text_inj in H. destruct H as [-> ->]. auto.
Qed.
Lemma zlen_inv_len (A B : Type) (a : list A) (b : list B) : zlen a = zlen b -> List.length a = List.length b.
Proof. unfold zlen. lia. Qed.
Lemma count_inj (A B : Type) (a : list A) (b : list B) (x y : bytes) : zlen a < 2 ^ 64 -> zlen b < 2 ^ 64 ->
  le_bytes 8 (zlen a) ++ x = le_bytes 8 (zlen b) ++ y -> List.length a = List.length b /\ x = y.
Proof.
  intros Ha Hb H. apply app_inv_len in H; [|rewrite !le_bytes_length; reflexivity]. destruct H as [H ->]. split; [|reflexivity].
  apply le_bytes_inj in H. change (256 ^ Z.of_nat 8) with (2 ^ 64) in H. unfold zlen in *. rewrite !Z.mod_small in H by lia. lia.
Qed.
Lemma object_no_paren : ~ In 40 (ulit "object").
Proof. cbn. intuition discriminate. Qed.

Lemma tagged_inj n p p' x y : tagged n p ++ x = tagged n p' ++ y -> p ++ x = p' ++ y.
Proof.
  unfold tagged. rewrite <- !app_assoc. intros H. apply app_inv_head in H. exact (f_equal (@tl Z) H).
Qed.
Lemma Ok_inj (A : Type) (x y : A) : Ok x = Ok y -> y = x.
Proof. congruence. Qed.
Theorem values_read_back v : reads_back v.
Proof.
  induction v as [d s b|d s b|s l IH|l IH|l IH|l IH| |b|n|n|n|n|q t] using fv_induction; intros D w b1 b2 r1 r2 Dw E1 E2 N1 N2 H;
    (destruct (feed_tag (dict_free_known D) E1) as (p1 & T1); destruct (feed_tag Dw E2) as (p2 & T2));
    pose proof H as H0; rewrite T1, T2 in H0; unfold tagged in H0; rewrite <- !app_assoc in H0; cbn [app] in H0;
    apply split_sep in H0; try apply tag_no_nul; destruct H0 as [T _]; clear T1 T2 p1 p2;
    destruct Dw as [d' s' b' S' Z'|d' s' b' S' Z'|s' l' S' Z' F'|l' Z' F'|l' Z' F'|l'| |b'|n'|n' R'|n' R'|n' R'];
    cbn [tag_of] in T; try discriminate T; clear T; inversion D; subst; cbn [FieldDigest.feed] in E1, E2.
  - destruct (match d with BFloat16 => false | _ => true end); [|discriminate]. destruct (match d' with BFloat16 => false | _ => true end); [|discriminate].
    apply Ok_inj in E1; subst b1. apply Ok_inj in E2; subst b2. apply tagged_inj in H. rewrite <- !app_assoc in H.
    apply header_inj in H; try apply dtype_name_no_paren. destruct H as (En & -> & H). apply dtype_name_inj in En. subst d'.
    apply app_inv_len in H; [destruct H as [-> ->]; auto|apply zlen_inv_len; congruence].
  - apply Ok_inj in E1; subst b1. apply Ok_inj in E2; subst b2. apply tagged_inj in H.
    rewrite <- !app_assoc in H. apply header_inj in H; try apply dtype_name_no_paren. destruct H as (En & -> & H). apply dtype_name_inj in En. subst d'.
    apply app_inv_len in H; [destruct H as [-> ->]; auto|apply zlen_inv_len; congruence].
  - destruct (all_ok _) as [bs|]; [|discriminate]. apply Ok_inj in E1; subst b1. apply Ok_inj in E2; subst b2. apply tagged_inj in H.
    rewrite <- !app_assoc in H. apply header_inj in H; try apply dtype_name_no_paren; try apply object_no_paren. destruct H as (En & _). destruct d; discriminate En.
  - destruct (all_ok _) as [bs|]; [|discriminate]. apply Ok_inj in E1; subst b1. apply Ok_inj in E2; subst b2. apply tagged_inj in H.
    rewrite <- !app_assoc in H. apply header_inj in H; try apply dtype_name_no_paren; try apply object_no_paren. destruct H as (En & _). destruct d'; discriminate En.
  - destruct (all_ok (map feed l)) as [bs|] eqn:F1; [|discriminate]. destruct (all_ok (map feed l')) as [bs'|] eqn:F2; [|discriminate].
    apply Ok_inj in E1; subst b1. apply Ok_inj in E2; subst b2. apply tagged_inj in H.
    rewrite <- !app_assoc in H. apply header_inj in H; try apply object_no_paren. destruct H as (_ & -> & H).
    assert (Len : List.length l = List.length l') by (apply zlen_inv_len; congruence).
    match goal with Q : Forall dict_free l |- _ => destruct (lists_read_back IH Q F' F1 F2 Len N1 N2 H) as [-> ->] end. auto.
  - destruct (all_ok (map feed l)) as [bs|] eqn:F1; [|discriminate]. destruct (all_ok (map feed l')) as [bs'|] eqn:F2; [|discriminate].
    apply Ok_inj in E1; subst b1. apply Ok_inj in E2; subst b2. apply tagged_inj in H.
    rewrite <- !app_assoc in H. apply count_inj in H; [|assumption..]. destruct H as (Len & H).
    match goal with Q : Forall dict_free l |- _ => destruct (lists_read_back IH Q F' F1 F2 Len N1 N2 H) as [-> ->] end. auto.
  - destruct (all_ok (map feed l)) as [bs|] eqn:F1; [|discriminate]. destruct (all_ok (map feed l')) as [bs'|] eqn:F2; [|discriminate].
    apply Ok_inj in E1; subst b1. apply Ok_inj in E2; subst b2. apply tagged_inj in H.
    rewrite <- !app_assoc in H. apply count_inj in H; [|assumption..]. destruct H as (Len & H).
    match goal with Q : Forall dict_free l |- _ => destruct (lists_read_back IH Q F' F1 F2 Len N1 N2 H) as [-> ->] end. auto.
  - apply Ok_inj in E1; subst b1. apply Ok_inj in E2; subst b2. apply app_inv_head in H. auto.
  - apply Ok_inj in E1; subst b1. apply Ok_inj in E2; subst b2. destruct b, b'; try discriminate H; apply app_inv_head in H; auto.
  - apply Ok_inj in E1; subst b1. apply Ok_inj in E2; subst b2. apply tagged_inj in H.
    apply int_inj in H; [|apply nice_stops; assumption..]. destruct H as [-> ->]. auto.
  - apply Ok_inj in E1; subst b1. apply Ok_inj in E2; subst b2. apply tagged_inj in H.
    apply (float_inj L) in H; [|assumption..]. destruct H as [-> ->]. auto.
  - apply Ok_inj in E1; subst b1. apply Ok_inj in E2; subst b2. apply tagged_inj in H.
    apply text_inj in H; [|assumption..]. destruct H as [-> ->]. auto.
  - apply Ok_inj in E1; subst b1. apply Ok_inj in E2; subst b2. apply tagged_inj in H.
    apply (f_equal (@tl Z)) in H. change (repr_text (fun _ => false) n ++ r1 = repr_text (fun _ => false) n' ++ r2) in H.
    assert (B : forall l, Forall is_byte l -> Forall code_point l) by (intros l; apply Forall_impl; unfold is_byte, code_point; intros; lia).
    apply text_inj in H; [|apply B; assumption..].
    destruct H as [-> ->]. auto.
Qed.

(** No other value has the stream of a dictionary-free one. *)
Theorem feed_inj v w b : dict_free v -> known w -> feed v = Ok b -> feed w = Ok b -> v = w.
Proof. intros Dv Dw Ev Ew. apply (@values_read_back v Dv w b b [] [] Dw Ev Ew I I eq_refl). Qed.
End Feed.
