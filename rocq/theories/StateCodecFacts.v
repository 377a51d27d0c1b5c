(** Facts about StateCodec.v. *)
From Verif Require Import Base BaseFacts Rng RngFacts Checkpoint CheckpointFacts Json JsonFacts StateCodec StateCodecSpec PackedState.
From Coq Require Import Sorting.Sorted.
Set Implicit Arguments. Unset Strict Implicit.

Section ValueInd.
Variable P : value -> Prop.
Hypothesis Hnone : P VNone.
Hypothesis Hbool : forall b, P (VBool b).
Hypothesis Hint : forall n, P (VInt n).
Hypothesis Hfloat : forall b, P (VFloat b).
Hypothesis Hbytes : forall b, P (VBytes b).
Hypothesis Hstr : forall s, P (VStr s).
Hypothesis Hlist : forall l, Forall P l -> P (VList l).
Hypothesis Htuple : forall l, Forall P l -> P (VTuple l).
Hypothesis Hdict : forall l, Forall (fun kv => P (snd kv)) l -> P (VDict l).
Hypothesis Htensor : forall p t, P (VTensor p t).
Hypothesis Hother : forall n, P (VOther n).
Fixpoint value_ind2 (v : value) : P v :=
  let go := (fix go (l : list value) : Forall P l :=
      match l with [] => Forall_nil _ | x :: r => Forall_cons _ (value_ind2 x) (go r) end) in
  match v with
  | VNone => Hnone
  | VBool b => Hbool b
  | VInt n => Hint n
  | VFloat b => Hfloat b
  | VBytes b => Hbytes b
  | VStr s => Hstr s
  | VList l => Hlist (go l)
  | VTuple l => Htuple (go l)
  | VDict l => Hdict ((fix go (l : list (key * value)) : Forall (fun kv => P (snd kv)) l :=
      match l with
      | [] => Forall_nil _
      | kv :: r => Forall_cons kv (value_ind2 (snd kv) : (fun kv => P (snd kv)) kv) (go r)
      end) l)
  | VTensor p t => Htensor p t
  | VOther n => Hother n
  end.
End ValueInd.

(** ** Normal form *)
Fixpoint cj (v : value) : json :=
  match v with
  | VNone => JNull
  | VBool b => JBool b
  | VStr s => JStr s
  | VInt n => JInt n
  | VFloat bits => JObj [(tag_f64, JStr (hex (pack_double bits)))]
  | VBytes b => JObj [(tag_bytes, JStr (hex b))]
  | VList l | VTuple l => JList (map cj l)
  | VDict l => JObj (sort_by (@key_lt json) (map (fun kv => (key_text (fst kv), cj (snd kv))) l))
  | VTensor _ t => JObj [(tag_tensor, JObj [(f_dtype, JStr (dtype_name (t_dtype t)));
                                   (f_shape, JList (map JInt (t_shape t)));
                                   (f_data, JStr (hex (t_data t)))])]
  | VOther _ => JNull
  end.
(** The same with the tensor tag's keys sorted too, as json.dumps writes them. *)
Fixpoint cjs (v : value) : json :=
  match v with
  | VList l | VTuple l => JList (map cjs l)
  | VDict l => JObj (sort_by (@key_lt json) (map (fun kv => (key_text (fst kv), cjs (snd kv))) l))
  | VTensor _ t => JObj [(tag_tensor, JObj [(f_data, JStr (hex (t_data t)));
                                   (f_dtype, JStr (dtype_name (t_dtype t)));
                                   (f_shape, JList (map JInt (t_shape t)))])]
  | _ => cj v
  end.
Fixpoint norm (v : value) : value :=
  match v with
  | VList l | VTuple l => VTuple (map norm l)
  | VDict l => VDict (map (fun kv => (KStr (fst kv), snd kv))
                          (sort_by (@key_lt value) (map (fun kv => (key_text (fst kv), norm (snd kv))) l)))
  | VTensor _ t => VTensor true t
  | _ => v
  end.

Lemma Forall2_weaken (A B : Type) (R S : A -> B -> Prop) l m : (forall x y, R x y -> S x y) -> Forall2 R l m -> Forall2 S l m.
Proof. intros H. induction 1; constructor; auto. Qed.
Lemma all_ok_map (A B : Type) (f : A -> res B) (g : A -> B) l : Forall (fun x => f x = Ok (g x)) l -> all_ok (map f l) = Ok (map g l).
Proof. induction 1 as [|x l Hx _ IH]; [reflexivity|]. cbn [map all_ok]. rewrite Hx, IH. reflexivity. Qed.
Lemma all_ok_inv (A B : Type) (f : A -> res B) l ys : all_ok (map f l) = Ok ys -> Forall2 (fun x y => f x = Ok y) l ys.
Proof.
  revert ys. induction l as [|x l IH]; intros ys H; cbn in H; [injection H as <-; constructor|].
  destruct (f x) as [y|e] eqn:E; [|discriminate]. cbn in H. destruct (all_ok (map f l)) as [zs|e]; [|discriminate].
  cbn in H. injection H as <-. constructor; auto.
Qed.
Lemma all_ok_pairs_map (A B : Type) (f : A -> res B) (g : A -> B) (l : list (ustr * A)) : Forall (fun kv => f (snd kv) = Ok (g (snd kv))) l ->
  all_ok_pairs (map (fun kv => (fst kv, f (snd kv))) l) = Ok (map (fun kv => (fst kv, g (snd kv))) l).
Proof.
  intros H. unfold all_ok_pairs. rewrite map_map. apply all_ok_map. eapply Forall_impl; [|exact H]. cbn. intros kv ->. reflexivity.
Qed.
Lemma all_ok_pairs_inv (A B : Type) (f : A -> res B) (l : list (ustr * A)) ys : all_ok_pairs (map (fun kv => (fst kv, f (snd kv))) l) = Ok ys ->
  Forall2 (fun x y => fst y = fst x /\ f (snd x) = Ok (snd y)) l ys.
Proof.
  unfold all_ok_pairs. rewrite map_map. intros H. apply all_ok_inv in H. eapply Forall2_weaken; [|exact H]. cbn.
  intros x y E. destruct (f (snd x)); [|discriminate]. cbn in E. injection E as <-. split; reflexivity.
Qed.

Definition keyed (A : Type) (l : list (key * A)) : list (ustr * A) := map (fun kv => (key_text (fst kv), snd kv)) l.
Definition sk (A : Type) (l : list (key * A)) : list (ustr * A) := sort_by (@key_lt A) (keyed l).
Lemma sort_keyed (A B : Type) (f : A -> B) (l : list (key * A)) :
  sort_by (@key_lt B) (map (fun kv => (key_text (fst kv), f (snd kv))) l) = map (fun kv => (fst kv, f (snd kv))) (sk l).
Proof. unfold sk. rewrite <- sort_map. unfold keyed. rewrite map_map. reflexivity. Qed.
Lemma sk_perm (A : Type) (l : list (key * A)) : Permutation (sk l) (keyed l).
Proof. apply sort_perm. Qed.
Lemma sk_Forall (A : Type) (Q : ustr * A -> Prop) (l : list (key * A)) :
  Forall (fun kv => Q (key_text (fst kv), snd kv)) l <-> Forall Q (sk l).
Proof.
  rewrite !Forall_forall. split; intros H x Hx.
  - apply (Permutation_in _ (sk_perm l)) in Hx. apply in_map_iff in Hx. destruct Hx as (kv & <- & Hin). apply H. exact Hin.
  - apply H. apply (Permutation_in _ (Permutation_sym (sk_perm l))). unfold keyed.
    apply (in_map (fun kv => (key_text (fst kv), snd kv))). exact Hx.
Qed.
Definition str_keys (A : Type) (l : list (key * A)) : Prop := Forall (fun kv => is_str_key (fst kv) = true) l.
Lemma keyed_nodup (A : Type) (l : list (key * A)) : str_keys l -> NoDup (map fst l) -> NoDup (map fst (keyed l)).
Proof.
  unfold str_keys, keyed. rewrite map_map. cbn [fst].
  induction l as [|[k v] l IH]; cbn; intros Hs Hn; [constructor|]. inversion Hs as [|? ? S1 S2]; subst. inversion Hn as [|? ? N1 N2]; subst.
  constructor; [|apply IH; assumption]. intros Hin. apply in_map_iff in Hin. destruct Hin as ([k' v'] & E & Hin). cbn in E, S1.
  rewrite Forall_forall in S2. pose proof (S2 _ Hin) as S3. cbn in S3. destruct k as [s|]; [|discriminate]. destruct k' as [s'|]; [|discriminate].
  cbn in E. subst s'. apply N1. apply (in_map fst) in Hin. exact Hin.
Qed.
Lemma sk_increasing (A : Type) (l : list (key * A)) : str_keys l -> NoDup (map fst l) -> increasing (sk l).
Proof. intros H1 H2. apply sort_by_increasing. apply keyed_nodup; assumption. Qed.
Lemma increasing_map (A B : Type) (f : A -> B) (l : list (ustr * A)) : increasing l -> increasing (map (fun kv => (fst kv, f (snd kv))) l).
Proof.
  intros H. induction H as [|x l Hs IH Hf]; cbn; [constructor|]. constructor; [exact IH|].
  rewrite Forall_forall in *. intros y Hy. apply in_map_iff in Hy. destruct Hy as (z & <- & Hz). apply (Hf z Hz).
Qed.

(** ** Hexadecimal *)
Lemma hex_digit_facts d : 0 <= d < 16 -> hex_value (hex_digit d) = Some d /\ hex_ws (hex_digit d) = false /\
  ascii_upper (hex_digit d) = false /\ scalar (hex_digit d) = true.
Proof.
  intros H. split; [apply hex_value_digit; exact H|]. unfold hex_ws, ascii_upper, scalar, hex_digit.
  destruct (d <? 10) eqn:E; lia.
Qed.
Lemma nibbles b : is_byte b -> 0 <= b / 16 < 16 /\ 0 <= b mod 16 < 16 /\ b / 16 * 16 + b mod 16 = b.
Proof.
  unfold is_byte. intros H. pose proof (Z.mod_pos_bound b 16 ltac:(lia)). pose proof (Z.div_mod b 16 ltac:(lia)).
  split; [split; [apply Z.div_pos; lia|apply Z.div_lt_upper_bound; lia]|]. lia.
Qed.
Lemma fromhex_hex b : Forall is_byte b -> fromhex (hex b) = Ok b.
Proof.
  unfold hex. induction 1 as [|x b Hx _ IH]; [reflexivity|]. cbn [flat_map app fromhex].
  destruct (nibbles Hx) as (H1 & H2 & H3). destruct (hex_digit_facts H1) as (-> & -> & _). destruct (hex_digit_facts H2) as (-> & _).
  rewrite IH. cbn [bind]. rewrite H3. reflexivity.
Qed.
Lemma hex_lower b : Forall is_byte b -> lower_case (hex b) = true.
Proof.
  unfold lower_case, hex. intros H. apply negb_true_iff. induction H as [|x b Hx _ IH]; [reflexivity|]. cbn [flat_map app existsb].
  destruct (nibbles Hx) as (H1 & H2 & H3). destruct (hex_digit_facts H1) as (_ & _ & -> & _). destruct (hex_digit_facts H2) as (_ & _ & -> & _).
  exact IH.
Qed.
Lemma hex_scalar b : Forall is_byte b -> forallb scalar (hex b) = true.
Proof.
  unfold hex. induction 1 as [|x b Hx _ IH]; [reflexivity|]. cbn [flat_map app forallb].
  destruct (nibbles Hx) as (H1 & H2 & H3). destruct (hex_digit_facts H1) as (_ & _ & _ & ->). destruct (hex_digit_facts H2) as (_ & _ & _ & ->).
  exact IH.
Qed.
Lemma hex_length b : zlen (hex b) = 2 * zlen b.
Proof. unfold hex. induction b as [|x b IH]; [reflexivity|]. cbn [flat_map app]. rewrite !zlen_cons, IH. lia. Qed.
Lemma le_bytes_bytes n : forall v, Forall is_byte (le_bytes n v).
Proof. induction n as [|n IH]; intros v; cbn; constructor; [unfold is_byte; apply Z.mod_pos_bound; lia|apply IH]. Qed.
Lemma be_value_snoc a x : be_value (a ++ [x]) = 256 * be_value a + x.
Proof.
  induction a as [|y a IH]; cbn [app be_value]; [change (zlen (@nil Z)) with 0; lia|].
  rewrite IH, zlen_app. change (zlen [x]) with 1. rewrite Z.pow_add_r by (pose proof (zlen_nonneg a); lia).
  change (256 ^ 1) with 256. generalize (256 ^ zlen a). intros p. lia.
Qed.
Lemma be_value_rev b : be_value (rev b) = le_value b.
Proof. induction b as [|x b IH]; [reflexivity|]. cbn [rev le_value]. rewrite be_value_snoc, IH. lia. Qed.
Lemma pack_double_ok bits : 0 <= bits < 2 ^ 64 ->
  Forall is_byte (pack_double bits) /\ zlen (pack_double bits) = 8 /\ unpack_double (pack_double bits) = Ok bits.
Proof.
  intros H. unfold pack_double.
  assert (L : zlen (rev (le_bytes 8 bits)) = 8) by (unfold zlen; rewrite rev_length, le_bytes_length; reflexivity).
  split; [apply Forall_rev, le_bytes_bytes|]. split; [exact L|]. unfold unpack_double. rewrite L. cbn [Z.eqb Pos.eqb].
  rewrite be_value_rev, le_value_bytes; [reflexivity|]. change (256 ^ Z.of_nat 8) with (2 ^ 64). exact H.
Qed.

(** ** Encoding *)
Lemma scalar_iff c : scalar c = true <-> scalar_value c.
Proof. unfold scalar, scalar_value. lia. Qed.
Lemma scalars_iff s : forallb scalar s = true <-> Forall scalar_value s.
Proof. rewrite forallb_forall, Forall_forall. split; intros H x Hx; apply scalar_iff; auto. Qed.
Definition key_ok (k : key) : Prop := exists s, k = KStr s /\ Forall scalar_value s /\ ~ In s [ulit "$bytes"; ulit "$f64"; ulit "$tensor"].
Lemma reserved_iff s : reserved s = true <-> In s [ulit "$bytes"; ulit "$f64"; ulit "$tensor"].
Proof.
  unfold reserved, tag_bytes, tag_f64, tag_tensor. rewrite !orb_true_iff, !ustr_eqb_eq. cbn [In]. split.
  - intros [[-> | ->] | ->]; tauto.
  - intros [H|[H|[H|[]]]]; subst; tauto.
Qed.
Lemma str_keys_ok (l : list (key * value)) : Forall (fun kv => key_ok (fst kv)) l -> str_keys l.
Proof. intros H. eapply Forall_impl; [|exact H]. cbn. intros kv (s & -> & _). reflexivity. Qed.
Lemma no_reserved (l : list (key * value)) : Forall (fun kv => key_ok (fst kv)) l ->
  existsb reserved (map (fun kv => key_text (fst kv)) l) = false.
Proof.
  intros H. induction H as [|kv l (s & E & _ & Hn) _ IH]; [reflexivity|]. cbn [map existsb]. rewrite IH, E. cbn [key_text].
  destruct (reserved s) eqn:R; [|reflexivity]. apply reserved_iff in R. contradiction.
Qed.
Lemma cj_dict l : cj (VDict l) = JObj (map (fun kv => (fst kv, cj (snd kv))) (sk l)).
Proof. cbn [cj]. rewrite (sort_keyed cj). reflexivity. Qed.
Lemma cjs_dict l : cjs (VDict l) = JObj (map (fun kv => (fst kv, cjs (snd kv))) (sk l)).
Proof. cbn [cjs]. rewrite (sort_keyed cjs). reflexivity. Qed.
Lemma norm_dict l : norm (VDict l) = VDict (map (fun kv => (KStr (fst kv), norm (snd kv))) (sk l)).
Proof. cbn [norm]. rewrite (sort_keyed norm), map_map. reflexivity. Qed.
Lemma canonical_supported v : supported v -> canonical v = Ok (cj v).
Proof.
  induction v as [|b|n|b|b|s|l IH|l IH|l IH|p t|n] using value_ind2; intros H; inversion H as [|? |? Hr|? Hf| |? Hs|? Hl|? Hl|? Hk Hl|?]; subst; try reflexivity.
  - cbn. replace (int64_ok n) with true by (unfold int64_ok; lia). reflexivity.
  - cbn. rewrite Hf. reflexivity.
  - cbn [canonical cj]. rewrite (@all_ok_map _ _ canonical cj); [reflexivity|]. rewrite Forall_forall in *. auto.
  - cbn [canonical cj]. rewrite (@all_ok_map _ _ canonical cj); [reflexivity|]. rewrite Forall_forall in *. auto.
  - rewrite cj_dict. cbn [canonical].
    assert (E : forallb is_str_key (map fst l) = true).
    { apply forallb_forall. intros k Hin. apply in_map_iff in Hin. destruct Hin as (kv & <- & Hin).
      rewrite Forall_forall in Hk. destruct (Hk _ Hin) as (s & -> & _). reflexivity. }
    rewrite E, (no_reserved Hk). cbn [negb]. rewrite (sort_keyed canonical).
    rewrite (@all_ok_pairs_map _ _ canonical cj); [reflexivity|]. apply (sk_Forall (fun kv => canonical (snd kv) = Ok (cj (snd kv)))).
    rewrite Forall_forall in *. cbn. auto.
Qed.

Section Text.
Variable float_text : Z -> ustr.
Notation dumps := (dumps float_text).
Lemma forallb_join p sep l : forallb p (join sep l) = true -> Forall (fun x => forallb p x = true) l.
Proof.
  induction l as [|x [|y l] IH]; intros H; [constructor|constructor; [exact H|constructor]|].
  rewrite join_cons_app, forallb_app in H. cbn [forallb] in H. rewrite !andb_true_iff in H. destruct H as (H1 & _ & H2).
  constructor; [exact H1|apply IH; exact H2].
Qed.
Lemma join_forallb p sep l : p sep = true -> Forall (fun x => forallb p x = true) l -> forallb p (join sep l) = true.
Proof.
  intros Hp H. induction H as [|x l Hx Hl IH]; [reflexivity|]. destruct l as [|y l]; [exact Hx|].
  rewrite join_cons_app, forallb_app, Hx. cbn [andb forallb]. rewrite Hp. cbn [andb]. exact IH.
Qed.
Lemma escape_scalar c : forallb scalar (escape c) = scalar c.
Proof.
  unfold escape. 
  destruct (c =? 34) eqn:E1; [apply Z.eqb_eq in E1; subst; reflexivity|].
  destruct (c =? 92) eqn:E2; [apply Z.eqb_eq in E2; subst; reflexivity|].
  destruct (c =? 8) eqn:E3; [apply Z.eqb_eq in E3; subst; reflexivity|].
  destruct (c =? 12) eqn:E4; [apply Z.eqb_eq in E4; subst; reflexivity|].
  destruct (c =? 10) eqn:E5; [apply Z.eqb_eq in E5; subst; reflexivity|].
  destruct (c =? 13) eqn:E6; [apply Z.eqb_eq in E6; subst; reflexivity|].
  destruct (c =? 9) eqn:E7; [apply Z.eqb_eq in E7; subst; reflexivity|].
  destruct ((0 <=? c) && (c <? 32)) eqn:E8.
  - cbn [forallb]. assert (H1 : 0 <= c / 16 < 16) by (split; [apply Z.div_pos; lia|apply Z.div_lt_upper_bound; lia]).
    assert (H2 : 0 <= c mod 16 < 16) by (apply Z.mod_pos_bound; lia).
    destruct (hex_digit_facts H1) as (_ & _ & _ & ->). destruct (hex_digit_facts H2) as (_ & _ & _ & ->).
    cbn. unfold scalar. lia.
  - cbn. apply andb_true_r.
Qed.
Lemma quoted_scalar s : forallb scalar (quoted s) = forallb scalar s.
Proof.
  unfold quoted. cbn [forallb]. change (scalar 34) with true. cbn [andb]. rewrite forallb_app. cbn [forallb]. change (scalar 34) with true.
  rewrite andb_true_r. induction s as [|c s IH]; [reflexivity|]. cbn [flat_map forallb]. rewrite forallb_app, IH, escape_scalar. reflexivity.
Qed.
Lemma plain_text j : plain_json j -> forallb scalar (dumps j) = true.
Proof.
  induction j as [|b|n|b|s|l IH|l IH] using json_ind2; intros H; inversion H as [| |? |? Hs|? Hl|? Hl Hi]; subst.
  - reflexivity.
  - destruct b; reflexivity.
  - cbn [Json.dumps]. assert (D : forall m, 0 <= m -> forallb scalar (digits m) = true).
    { intros m Hm. destruct (digits_ok Hm) as (_ & D & _). rewrite forallb_forall in *. intros c Hc. specialize (D c Hc).
      unfold digit, scalar in *. lia. }
    unfold int_text. destruct (n <? 0) eqn:E; [cbn [forallb]; rewrite D by lia; reflexivity|apply D; lia].
  - cbn [Json.dumps]. rewrite quoted_scalar. exact Hs.
  - cbn [Json.dumps forallb]. rewrite forallb_app, join_forallb; [reflexivity|reflexivity|].
    apply Forall_map. rewrite Forall_forall in *. auto.
  - rewrite (dumps_obj _ Hi). cbn [forallb]. rewrite forallb_app, join_forallb; [reflexivity|reflexivity|].
    apply Forall_map, Forall_map. rewrite Forall_forall in *. intros kv Hin. unfold entry, show. cbn [fst snd]. rewrite forallb_app.
    destruct (Hl _ Hin) as (Hk & Hv). rewrite quoted_scalar, Hk. cbn [forallb]. rewrite (IH _ Hin Hv). reflexivity.
Qed.
Lemma dtype_name_scalar d : forallb scalar (dtype_name d) = true.
Proof. destruct d; reflexivity. Qed.
Lemma dumps_cjs v : dumps (cjs v) = dumps (cj v).
Proof.
  induction v as [|b|n|b|b|s|l IH|l IH|l IH|p t|n] using value_ind2; try reflexivity.
  - cbn [cj cjs Json.dumps]. rewrite !map_map. do 3 f_equal. apply map_ext_in. rewrite Forall_forall in IH. exact IH.
  - cbn [cj cjs Json.dumps]. rewrite !map_map. do 3 f_equal. apply map_ext_in. rewrite Forall_forall in IH. exact IH.
  - rewrite cj_dict, cjs_dict. cbn [Json.dumps]. rewrite !map_map. cbn [fst snd].
    assert (E : map (fun x : ustr * value => (fst x, dumps (cjs (snd x)))) (sk l) = map (fun x => (fst x, dumps (cj (snd x)))) (sk l)).
    { apply map_ext_in. intros kv Hin. f_equal. revert kv Hin. apply Forall_forall.
      apply (sk_Forall (fun kv => dumps (cjs (snd kv)) = dumps (cj (snd kv)))). exact IH. }
    rewrite E. reflexivity.
Qed.
Lemma cjs_plain v : wf v -> supported v -> plain_json (cjs v).
Proof.
  induction v as [|b|n|b|b|s|l IH|l IH|l IH|p t|n] using value_ind2; intros W H; inversion W; inversion H; subst; cbn [cjs cj]; try (constructor; fail).
  - constructor; [|constructor; constructor]. constructor; [|constructor]. split; [reflexivity|]. constructor.
    apply hex_scalar. apply pack_double_ok. assumption.
  - constructor; [|constructor; constructor]. constructor; [|constructor]. split; [reflexivity|]. constructor.
    apply hex_scalar. assumption.
  - constructor. apply scalars_iff. assumption.
  - constructor. apply Forall_map. rewrite Forall_forall in *. auto.
  - constructor. apply Forall_map. rewrite Forall_forall in *. auto.
  - change (plain_json (cjs (VDict l))). rewrite cjs_dict.
    match goal with X : Forall (fun kv => exists s, _) l |- _ => rename X into Hk end.
    constructor.
    + apply Forall_map. cbn [fst snd]. apply (sk_Forall (fun kv : ustr * value => forallb scalar (fst kv) = true /\ plain_json (cjs (snd kv)))).
      rewrite Forall_forall in *. cbn [fst snd]. intros kv Hin. destruct (Hk _ Hin) as (s & E & Hs & _). rewrite E. cbn [key_text].
      split; [apply scalars_iff; exact Hs|]. auto.
    + apply increasing_map. apply sk_increasing; [apply str_keys_ok; exact Hk|assumption].
  - constructor; [|constructor; constructor]. constructor; [|constructor]. split; [reflexivity|]. cbn [snd].
    constructor.
    + repeat constructor; cbn [fst snd].
      * apply hex_scalar. assumption.
      * apply dtype_name_scalar.
      * apply Forall_map. apply Forall_forall. intros n _. constructor.
    + repeat constructor.
Qed.
(** encode fails unless the value is supported. *)
Lemma escaped_text s : forallb scalar (quoted s) = true -> Forall scalar_value s.
Proof. rewrite quoted_scalar. apply scalars_iff. Qed.
Lemma canonical_inv v : wf v -> forall j, canonical v = Ok j -> forallb scalar (dumps j) = true -> supported v.
Proof.
  induction v as [|b|n|b|b|s|l IH|l IH|l IH|p t|n] using value_ind2; intros W j Hj Ht; try (constructor; fail).
  - cbn in Hj. destruct (int64_ok n) eqn:E; [|discriminate]. constructor. unfold int64_ok in E. lia.
  - cbn in Hj. destruct (finite b) eqn:E; [|discriminate]. constructor. exact E.
  - cbn in Hj. injection Hj as <-. constructor. apply escaped_text. exact Ht.
  - inversion W as [| | | | | |? Wl| | | |]; subst. cbn [canonical] in Hj. destruct (all_ok (map canonical l)) as [js|e] eqn:E; [|discriminate].
    cbn in Hj. injection Hj as <-. constructor. apply all_ok_inv in E.
    cbn [Json.dumps forallb] in Ht. rewrite forallb_app, !andb_true_iff in Ht. destruct Ht as (_ & Ht & _). apply forallb_join in Ht.
    induction E as [|x y l js E1 E2 IHE]; [constructor|]. inversion IH; subst. inversion Wl; subst. inversion Ht; subst. constructor; eauto.
    apply IHE; auto. constructor. assumption.
  - inversion W as [| | | | | | |? Wl| | |]; subst. cbn [canonical] in Hj. destruct (all_ok (map canonical l)) as [js|e] eqn:E; [|discriminate].
    cbn in Hj. injection Hj as <-. constructor. apply all_ok_inv in E.
    cbn [Json.dumps forallb] in Ht. rewrite forallb_app, !andb_true_iff in Ht. destruct Ht as (_ & Ht & _). apply forallb_join in Ht.
    induction E as [|x y l js E1 E2 IHE]; [constructor|]. inversion IH; subst. inversion Wl; subst. inversion Ht; subst. constructor; eauto.
    apply IHE; auto. constructor. assumption.
  - inversion W as [| | | | | | | |? Wn Wl| |]; subst. cbn [canonical] in Hj.
    destruct (forallb is_str_key (map fst l)) eqn:Ek; [|discriminate].
    destruct (negb _) eqn:Er; [|discriminate]. rewrite (sort_keyed canonical) in Hj.
    match type of Hj with bind ?X _ = _ => destruct X as [js|e] eqn:E; [|discriminate] end. cbn [bind] in Hj. injection Hj as <-.
    apply all_ok_pairs_inv in E.
    assert (Sk : str_keys l).
    { unfold str_keys. rewrite forallb_forall in Ek. apply Forall_forall. intros kv Hin. apply Ek. apply in_map. exact Hin. }
    assert (Inc : increasing js).
    { pose proof (sk_increasing Sk Wn) as I0. revert I0 E. generalize (sk l). clear. intros l I0 E.
      revert I0. induction E as [|x y l js (E1 & _) E2 IHE]; intros I0; [constructor|]. inversion I0 as [|? ? I1 I2]; subst.
      constructor; [apply IHE; exact I1|]. clear - I2 E1 E2. induction E2 as [|x' y' l js (E3 & _) E4 IHE]; [constructor|].
      inversion I2; subst. constructor; [|apply IHE; assumption]. unfold key_lt in *. rewrite E1, E3. assumption. }
    rewrite (dumps_obj _ Inc) in Ht. cbn [forallb] in Ht. rewrite forallb_app, !andb_true_iff in Ht. destruct Ht as (_ & Ht & _).
    apply forallb_join in Ht. rewrite !Forall_map in Ht.
    assert (G : Forall (fun kv : ustr * value => Forall scalar_value (fst kv) /\ exists j, canonical (snd kv) = Ok j /\ forallb scalar (dumps j) = true) (sk l)).
    { revert E Ht. generalize (sk l). clear. intros l E. induction E as [|x y l js (E1 & E3) E2 IHE]; intros Ht; [constructor|].
      inversion Ht as [|? ? H1 H2]; subst. constructor; [|apply IHE; exact H2]. unfold entry, show in H1. cbn [fst snd] in H1.
      rewrite forallb_app in H1. cbn [forallb] in H1. rewrite !andb_true_iff in H1. destruct H1 as (H3 & _ & H4).
      rewrite E1 in H3. split; [apply escaped_text; exact H3|]. exists (snd y). split; assumption. }
    apply (sk_Forall (fun kv : ustr * value => Forall scalar_value (fst kv) /\ exists j, canonical (snd kv) = Ok j /\ forallb scalar (dumps j) = true)) in G.
    cbn [fst snd] in G. apply negb_true_iff in Er. rewrite Forall_forall in *. constructor; apply Forall_forall.
    + intros kv Hin. destruct (G _ Hin) as (G1 & _). unfold str_keys in Sk. rewrite Forall_forall in Sk. specialize (Sk _ Hin).
      destruct kv as [[s|m] v]; [|discriminate]. exists s. split; [reflexivity|]. split; [exact G1|]. intros R. apply reserved_iff in R.
      assert (X : existsb reserved (map (fun kv => key_text (fst kv)) l) = true).
      { apply existsb_exists. exists s. split; [|exact R]. apply (in_map (fun kv => key_text (fst kv))) in Hin. exact Hin. }
      congruence.
    + intros kv Hin. destruct (G _ Hin) as (_ & j & G2 & G3). apply (IH _ Hin (Wl _ Hin) j G2 G3).
  - cbn in Hj. destruct p; [|discriminate]. constructor.
  - discriminate.
Qed.
Lemma encode_ok v : wf v -> supported v ->
  canonical_pipeline_state_bytes float_text v = Ok (flat_map utf8_char (dumps (cjs v))).
Proof.
  intros W H. unfold canonical_pipeline_state_bytes. rewrite (canonical_supported H). cbn [bind]. unfold utf8_encode.
  rewrite <- dumps_cjs, (plain_text (cjs_plain W H)). reflexivity.
Qed.
Lemma encode_inv v b : wf v -> canonical_pipeline_state_bytes float_text v = Ok b -> supported v.
Proof.
  intros W H. unfold canonical_pipeline_state_bytes in H. destruct (canonical v) as [j|e] eqn:E; [|discriminate]. cbn [bind] in H.
  unfold utf8_encode in H. destruct (forallb scalar (dumps j)) eqn:E2; [|discriminate]. apply (canonical_inv W E E2).
Qed.
End Text.

(** ** Decoding *)
Lemma same_keys_one l tag : same_keys l [tag] = true -> In tag l.
Proof.
  unfold same_keys. rewrite andb_true_iff. intros [_ H]. cbn in H. rewrite andb_true_r in H. apply existsb_exists in H.
  destruct H as (x & Hx & E). apply ustr_eqb_eq in E. subst. exact Hx.
Qed.
Lemma dtype_named_name d : dtype_named (dtype_name d) = Some d.
Proof. destruct d; reflexivity. Qed.
Lemma itemsize_pos d : 0 < itemsize d.
Proof. destruct d; reflexivity. Qed.
Section Dec.
Variable int_of_other : json -> res Z.
Notation decode_value := (decode_value int_of_other).
Lemma decode_cjs v : wf v -> supported v -> decode_value (cjs v) = Ok (norm v).
Proof.
  induction v as [|b|n|b|b|s|l IH|l IH|l IH|p t|n] using value_ind2; intros W H; inversion W; inversion H; subst; try reflexivity.
  - cbn [cjs cj norm].
    match goal with X : 0 <= b < _ |- _ => destruct (pack_double_ok X) as (P1 & P2 & P3) end.
    cbn [StateCodec.decode_value map fst].
    change (same_keys [tag_f64] [tag_bytes]) with false. change (same_keys [tag_f64] [tag_f64]) with true. cbv iota.
    change (obj_get [(tag_f64, JStr (hex (pack_double b)))] tag_f64) with (Some (JStr (hex (pack_double b)))). cbv iota.
    rewrite hex_length, P2, (hex_lower P1). cbn [Z.mul Pos.mul Z.eqb Pos.eqb andb].
    rewrite (fromhex_hex P1). cbn [bind]. rewrite P3. cbn [bind].
    match goal with X : finite b = true |- _ => rewrite X end. reflexivity.
  - cbn [cjs cj norm].
    match goal with X : Forall is_byte b |- _ => rename X into P1 end.
    cbn [StateCodec.decode_value map fst]. change (same_keys [tag_bytes] [tag_bytes]) with true. cbv iota.
    change (obj_get [(tag_bytes, JStr (hex b))] tag_bytes) with (Some (JStr (hex b))). cbv iota.
    rewrite hex_length, (hex_lower P1), (fromhex_hex P1).
    replace (2 * zlen b mod 2) with 0 by (rewrite Z.mul_comm, Z.mod_mul; lia). reflexivity.
  - cbn [cjs norm StateCodec.decode_value]. rewrite map_map.
    rewrite (@all_ok_map _ _ (fun x => decode_value (cjs x)) norm); [reflexivity|]. rewrite Forall_forall in *. auto.
  - cbn [cjs norm StateCodec.decode_value]. rewrite map_map.
    rewrite (@all_ok_map _ _ (fun x => decode_value (cjs x)) norm); [reflexivity|]. rewrite Forall_forall in *. auto.
  - rewrite cjs_dict, norm_dict.
    match goal with X : Forall (fun kv => exists s, _) l |- _ => rename X into Hk end.
    assert (R : Forall (fun kv => ~ In (fst kv) [ulit "$bytes"; ulit "$f64"; ulit "$tensor"]) (sk l)).
    { apply (sk_Forall (fun kv => ~ In (fst kv) [ulit "$bytes"; ulit "$f64"; ulit "$tensor"])).
      eapply Forall_impl; [|exact Hk]. cbn [fst]. intros kv (s & -> & _ & X). exact X. }
    assert (R2 : forall x, In x (map fst (map (fun kv => (fst kv, cjs (snd kv))) (sk l))) -> reserved x = false).
    { intros x Hx. rewrite map_map in Hx. apply in_map_iff in Hx. destruct Hx as (kv & <- & Hin). cbn [fst].
      rewrite Forall_forall in R. specialize (R _ Hin). rewrite <- reserved_iff in R. destruct (reserved (fst kv)); congruence. }
    assert (R3 : forall tag, reserved tag = true -> same_keys (map fst (map (fun kv => (fst kv, cjs (snd kv))) (sk l))) [tag] = false).
    { intros tag Ht. destruct (same_keys _ _) eqn:E; [|reflexivity]. apply same_keys_one in E. apply R2 in E. congruence. }
    cbn [StateCodec.decode_value].
    rewrite !R3 by reflexivity.
    assert (E : existsb reserved (map fst (map (fun kv => (fst kv, cjs (snd kv))) (sk l))) = false).
    { destruct (existsb reserved _) eqn:E; [|reflexivity]. apply existsb_exists in E. destruct E as (x & Hx & E). rewrite (R2 x Hx) in E. discriminate. }
    rewrite E. cbn [negb]. rewrite map_map. cbn [fst snd].
    rewrite (@all_ok_pairs_map _ _ (fun x => decode_value (cjs x)) norm).
    + cbn [bind]. rewrite map_map. reflexivity.
    + apply (sk_Forall (fun kv => decode_value (cjs (snd kv)) = Ok (norm (snd kv)))). rewrite Forall_forall in *. cbn [snd]. auto.
  - cbn [cjs norm StateCodec.decode_value map fst].
    change (same_keys [tag_tensor] [tag_bytes]) with false. change (same_keys [tag_tensor] [tag_f64]) with false.
    change (same_keys [tag_tensor] [tag_tensor]) with true. cbv iota.
    set (st := JObj [(f_data, JStr (hex (t_data t))); (f_dtype, JStr (dtype_name (t_dtype t))); (f_shape, JList (map JInt (t_shape t)))]).
    change (obj_get [(tag_tensor, st)] tag_tensor) with (Some st). cbv iota. subst st. unfold decode_tensor. cbn [map fst].
    change (same_keys [f_data; f_dtype; f_shape] [f_dtype; f_shape; f_data]) with true. cbv iota.
    set (l := [(f_data, JStr (hex (t_data t))); (f_dtype, JStr (dtype_name (t_dtype t))); (f_shape, JList (map JInt (t_shape t)))]).
    change (obj_get l f_dtype) with (Some (JStr (dtype_name (t_dtype t)))). cbn [bind]. rewrite dtype_named_name. cbn [bind].
    change (obj_get l f_shape) with (Some (JList (map JInt (t_shape t)))). cbn [bind iter_json]. rewrite map_map.
    rewrite (@all_ok_map _ _ (fun x => to_int int_of_other (JInt x)) (fun x => x)) by (apply Forall_forall; reflexivity). rewrite map_id. cbn [bind].
    assert (E : existsb (fun n => n <? 0) (t_shape t) = false).
    { destruct (existsb _ _) eqn:E; [|reflexivity]. apply existsb_exists in E. destruct E as (x & Hx & E).
      match goal with X : Forall (fun n => 0 <= n) _ |- _ => rewrite Forall_forall in X; specialize (X x Hx) end. lia. }
    rewrite E. cbn [negb]. change (obj_get l f_data) with (Some (JStr (hex (t_data t)))). cbn [bind hex_text]. rewrite fromhex_hex by assumption. cbn [bind].
    pose proof (itemsize_pos (t_dtype t)).
    match goal with X : zlen (t_data t) = _ |- _ => rewrite X end. rewrite Z.mod_mul, Z.div_mul by lia. rewrite (Z.eqb_refl 0), Z.eqb_refl. cbv iota.
    destruct t; reflexivity.
Qed.
End Dec.

(** ** Normal forms *)
Lemma sk_keyed_id (A : Type) (l : list (ustr * A)) : increasing l -> sk (map (fun kv => (KStr (fst kv), snd kv)) l) = l.
Proof.
  intros H. unfold sk, keyed. rewrite map_map. cbn [fst snd key_text].
  rewrite map_ext with (g := fun kv => kv) by (intros []; reflexivity). rewrite map_id. apply sort_increasing. exact H.
Qed.
Lemma norm_dict' l : norm (VDict l) = VDict (map (fun kv => (KStr (fst kv), snd kv)) (map (fun kv => (fst kv, norm (snd kv))) (sk l))).
Proof. rewrite norm_dict, map_map. reflexivity. Qed.
Lemma cjs_norm v : wf v -> supported v -> cjs (norm v) = cjs v.
Proof.
  induction v as [|b|n|b|b|s|l IH|l IH|l IH|p t|n] using value_ind2; intros W H; inversion W; inversion H; subst; try reflexivity.
  - cbn [norm cjs]. rewrite map_map. f_equal. apply map_ext_in. rewrite Forall_forall in *. auto.
  - cbn [norm cjs]. rewrite map_map. f_equal. apply map_ext_in. rewrite Forall_forall in *. auto.
  - rewrite norm_dict', !cjs_dict.
    match goal with X : Forall (fun kv => exists s, _) l |- _ => rename X into Hk end.
    rewrite sk_keyed_id by (apply increasing_map, sk_increasing; [apply str_keys_ok; exact Hk|assumption]).
    rewrite map_map. cbn [fst snd]. f_equal. apply map_ext_in. intros kv Hin. f_equal. revert kv Hin. apply Forall_forall.
    apply (sk_Forall (fun kv => cjs (norm (snd kv)) = cjs (snd kv))). rewrite Forall_forall in *. cbn. auto.
Qed.
Lemma norm_supported v : supported v -> supported (norm v).
Proof.
  induction v as [|b|n|b|b|s|l IH|l IH|l IH|p t|n] using value_ind2; intros H; inversion H; subst; try exact H.
  - constructor. apply Forall_map. rewrite Forall_forall in *. auto.
  - constructor. apply Forall_map. rewrite Forall_forall in *. auto.
  - rewrite norm_dict. match goal with X : Forall (fun kv => exists s, _) l |- _ => rename X into Hk end.
    constructor; apply Forall_map; cbn [fst snd].
    + apply (sk_Forall (fun kv : ustr * value => exists s, KStr (fst kv) = KStr s /\ Forall scalar_value s /\ ~ In s [ulit "$bytes"; ulit "$f64"; ulit "$tensor"])).
      eapply Forall_impl; [|exact Hk]. cbn. intros kv (s & -> & X). exists s. split; [reflexivity|exact X].
    + apply (sk_Forall (fun kv : ustr * value => supported (norm (snd kv)))). rewrite Forall_forall in *. cbn. auto.
Qed.
Lemma norm_wf v : wf v -> supported v -> wf (norm v).
Proof.
  induction v as [|b|n|b|b|s|l IH|l IH|l IH|p t|n] using value_ind2; intros W H; inversion W; inversion H; subst; try exact W.
  - constructor. apply Forall_map. rewrite Forall_forall in *. auto.
  - constructor. apply Forall_map. rewrite Forall_forall in *. auto.
  - rewrite norm_dict. match goal with X : Forall (fun kv => exists s, _) l |- _ => rename X into Hk end.
    constructor.
    + rewrite map_map. cbn [fst]. assert (N : NoDup (map fst (sk l))) by (apply increasing_NoDup, sk_increasing; [apply str_keys_ok; exact Hk|assumption]).
      rewrite <- map_map with (g := KStr). apply FinFun.Injective_map_NoDup; [|exact N]. intros x y E. congruence.
    + apply Forall_map. cbn [snd]. apply (sk_Forall (fun kv : ustr * value => wf (norm (snd kv)))). rewrite Forall_forall in *. cbn. auto.
Qed.
Lemma norm_tuples v : supported v -> tuples_only (norm v).
Proof.
  induction v as [|b|n|b|b|s|l IH|l IH|l IH|p t|n] using value_ind2; intros H; inversion H; subst; try (constructor; fail).
  - constructor. apply Forall_map. rewrite Forall_forall in *. auto.
  - constructor. apply Forall_map. rewrite Forall_forall in *. auto.
  - rewrite norm_dict. constructor. apply Forall_map. cbn [snd]. apply (sk_Forall (fun kv : ustr * value => tuples_only (norm (snd kv)))).
    rewrite Forall_forall in *. cbn. auto.
Qed.
(** [same] is equality of normal forms. *)
Lemma map_eq_Forall2 (A B C : Type) (f : A -> C) (g : B -> C) l : forall m, map f l = map g m -> Forall2 (fun x y => f x = g y) l m.
Proof.
  induction l as [|x l IH]; intros [|y m] H; try discriminate; constructor; cbn in H; injection H as H1 H2; auto.
Qed.
Lemma Forall2_map_eq (A B C : Type) (f : A -> C) (g : B -> C) l m : Forall2 (fun x y => f x = g y) l m -> map f l = map g m.
Proof. induction 1; cbn; congruence. Qed.
Lemma Forall2_with_l (A B : Type) (R : A -> B -> Prop) (Q : A -> Prop) l m : Forall Q l -> Forall2 R l m -> Forall2 (fun x y => Q x /\ R x y) l m.
Proof. intros HQ H. induction H; constructor; inversion HQ; subst; auto. Qed.
Lemma Forall2_with_r (A B : Type) (R : A -> B -> Prop) (Q : B -> Prop) l m : Forall Q m -> Forall2 R l m -> Forall2 (fun x y => Q y /\ R x y) l m.
Proof. intros HQ H. induction H; constructor; inversion HQ; subst; auto. Qed.
Lemma key_text_inj (k k' : key) : is_str_key k = true -> is_str_key k' = true -> key_text k = key_text k' -> k = k'.
Proof. destruct k, k'; cbn; try discriminate. congruence. Qed.
Lemma norm_same v : supported v -> forall w, supported w -> norm v = norm w -> same v w.
Proof.
  induction v as [|b|n|b|b|s|l IH|l IH|l IH|p t|n] using value_ind2; intros Hv w Hw E.
  - destruct w; try discriminate; constructor.
  - destruct w; try discriminate. injection E as ->. constructor.
  - destruct w; try discriminate. injection E as ->. constructor.
  - destruct w; try discriminate. injection E as ->. constructor.
  - destruct w; try discriminate. injection E as ->. constructor.
  - destruct w; try discriminate. injection E as ->. constructor.
  - inversion Hv as [| | | | | |? Hl| | |]; subst.
    assert (G : forall m, Forall supported m -> map norm l = map norm m -> Forall2 same l m).
    { intros m Hm Em. apply map_eq_Forall2 in Em. apply (Forall2_with_l IH) in Em. apply (Forall2_with_l Hl) in Em. apply (Forall2_with_r Hm) in Em.
      eapply Forall2_weaken; [|exact Em]. cbn. intros x y (A1 & A2 & A3 & A4). auto. }
    destruct w; try discriminate; inversion Hw; subst; cbn [norm] in E; injection E as E; constructor; auto.
  - inversion Hv as [| | | | | | |? Hl| |]; subst.
    assert (G : forall m, Forall supported m -> map norm l = map norm m -> Forall2 same l m).
    { intros m Hm Em. apply map_eq_Forall2 in Em. apply (Forall2_with_l IH) in Em. apply (Forall2_with_l Hl) in Em. apply (Forall2_with_r Hm) in Em.
      eapply Forall2_weaken; [|exact Em]. cbn. intros x y (A1 & A2 & A3 & A4). auto. }
    destruct w; try discriminate; inversion Hw; subst; cbn [norm] in E; injection E as E; constructor; auto.
  - destruct w as [| | | | | | | |m| |]; try discriminate. inversion Hv as [| | | | | | | |? Hk Hl|]; subst. inversion Hw as [| | | | | | | |? Hk' Hl'|]; subst.
    rewrite !norm_dict in E. injection E as E.
    assert (P : Permutation (map (fun kv => (KStr (fst kv), norm (snd kv))) (keyed l)) (map (fun kv => (KStr (fst kv), norm (snd kv))) (keyed m))).
    { eapply Permutation_trans; [apply Permutation_map, Permutation_sym, sk_perm|]. rewrite E. apply Permutation_map, sk_perm. }
    unfold keyed in P. rewrite !map_map in P. cbn [fst snd] in P. apply Permutation_map_inv in P. destruct P as (m' & Em & Pm).
    apply Permutation_sym in Pm.
    assert (Hm' : Forall (fun kv => supported (snd kv) /\ is_str_key (fst kv) = true) m').
    { apply Forall_forall. intros kv Hin. apply (Permutation_in _ Pm) in Hin. rewrite Forall_forall in Hl', Hk'. split; [auto|].
      destruct (Hk' _ Hin) as (s & -> & _). reflexivity. }
    eapply sa_dict; [apply Permutation_sym; exact Pm|]. apply map_eq_Forall2 in Em.
    apply (Forall2_with_l IH) in Em. apply (Forall2_with_l Hl) in Em. apply (Forall2_with_l Hk) in Em. apply (Forall2_with_r Hm') in Em.
    eapply Forall2_weaken; [|exact Em]. cbn beta. intros x y ((A1 & A1') & (s & Ks & _) & A3 & A4 & A5). injection A5 as A5 A6. split; [|auto].
    apply key_text_inj; [rewrite Ks; reflexivity|exact A1'|exact A5].
  - inversion Hv; subst. destruct w; try discriminate. cbn in E. injection E as <-. constructor.
  - inversion Hv.
Qed.
Lemma same_norm v : wf v -> supported v -> forall w, wf w -> supported w -> same v w -> norm v = norm w.
Proof.
  induction v as [|b|n|b|b|s|l IH|l IH|l IH|p t|n] using value_ind2; intros Wv Hv w Ww Hw S.
  7,8: assert (G : forall m, Forall wf m -> Forall supported m -> Forall2 same l m -> map norm l = map norm m)
    by (intros m Wm Hm F; inversion Hv as [| | | | | |? Hl|? Hl| |]; subst; inversion Wv as [| | | | | |? Wl|? Wl| | |]; subst;
        apply Forall2_map_eq; apply (Forall2_with_l IH) in F; apply (Forall2_with_l Hl) in F; apply (Forall2_with_l Wl) in F;
        apply (Forall2_with_r Hm) in F; apply (Forall2_with_r Wm) in F;
        eapply Forall2_weaken; [|exact F]; cbn; intros x y (A1 & A2 & A3 & A4 & A5 & A6); auto);
    inversion S; subst; inversion Hw; subst; inversion Ww; subst; cbn [norm]; f_equal; auto.
  all: try (inversion S; subst; reflexivity).
  inversion S as [| | | | | | | | | |? m m' Pm F| |]; subst.
  inversion Hv as [| | | | | | | |? Hk Hl|]; subst. inversion Hw as [| | | | | | | |? Hk' Hl'|]; subst.
  inversion Wv as [| | | | | | | |? Nl Wl| |]; subst. inversion Ww as [| | | | | | | |? Nm Wm| |]; subst.
  assert (Hm' : Forall (fun kv => wf (snd kv) /\ supported (snd kv)) m').
  { apply Forall_forall. intros kv Hin. apply (Permutation_in _ (Permutation_sym Pm)) in Hin. rewrite Forall_forall in Hl', Wm. auto. }
  assert (E : map (fun kv => (key_text (fst kv), norm (snd kv))) l = map (fun kv => (key_text (fst kv), norm (snd kv))) m').
  { apply Forall2_map_eq. apply (Forall2_with_l IH) in F. apply (Forall2_with_l Hl) in F. apply (Forall2_with_l Wl) in F. apply (Forall2_with_r Hm') in F.
    eapply Forall2_weaken; [|exact F]. cbn beta. intros x y ((A1 & A1') & A2 & A3 & A4 & A5 & A6). f_equal; [rewrite A5; reflexivity|auto]. }
  cbn [norm]. do 2 f_equal. rewrite E. apply sort_unique.
  - rewrite map_map. cbn [fst]. assert (X : map (fun x : key * value => key_text (fst x)) m' = map fst (keyed m')) by (unfold keyed; rewrite map_map; reflexivity).
    rewrite X. apply keyed_nodup.
    + unfold str_keys. apply Forall_forall. intros kv Hin. apply (Permutation_in _ (Permutation_sym Pm)) in Hin.
      rewrite Forall_forall in Hk'. destruct (Hk' _ Hin) as (s & -> & _). reflexivity.
    + eapply Permutation_NoDup; [apply Permutation_map; exact Pm|exact Nm].
  - apply Permutation_map. apply Permutation_sym. exact Pm.
Qed.
