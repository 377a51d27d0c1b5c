(** Facts about Json.v: what json.dumps writes, json.loads reads back. *)
From Verif Require Import Base BaseFacts Checkpoint CheckpointFacts Json.
From Coq Require Import Sorting.Sorted.
Set Implicit Arguments. Unset Strict Implicit.

Section JsonInd.
Variable P : json -> Prop.
Hypothesis Hnull : P JNull.
Hypothesis Hbool : forall b, P (JBool b).
Hypothesis Hint : forall n, P (JInt n).
Hypothesis Hfloat : forall b, P (JFloat b).
Hypothesis Hstr : forall s, P (JStr s).
Hypothesis Hlist : forall l, Forall P l -> P (JList l).
Hypothesis Hobj : forall l, Forall (fun kv => P (snd kv)) l -> P (JObj l).
Fixpoint json_ind2 (j : json) : P j :=
  match j with
  | JNull => Hnull
  | JBool b => Hbool b
  | JInt n => Hint n
  | JFloat b => Hfloat b
  | JStr s => Hstr s
  | JList l => Hlist ((fix go (l : list json) : Forall P l :=
      match l with [] => Forall_nil _ | x :: r => Forall_cons _ (json_ind2 x) (go r) end) l)
  | JObj l => Hobj ((fix go (l : list (ustr * json)) : Forall (fun kv => P (snd kv)) l :=
      match l with
      | [] => Forall_nil _
      | kv :: r => Forall_cons kv (json_ind2 (snd kv) : (fun kv => P (snd kv)) kv) (go r)
      end) l)
  end.
End JsonInd.

(** ** Strings *)
Lemma ustr_eqb_eq a : forall b, ustr_eqb a b = true <-> a = b.
Proof.
  induction a as [|x a IH]; intros [|y b]; cbn; try (split; (discriminate || reflexivity)).
  rewrite andb_true_iff, Z.eqb_eq, IH. split; [intros [-> ->]; reflexivity|intros H; injection H as -> ->; split; reflexivity].
Qed.
Lemma ustr_eqb_refl a : ustr_eqb a a = true.
Proof. apply ustr_eqb_eq. reflexivity. Qed.
Lemma ustr_eqb_neq a b : ustr_eqb a b = false <-> a <> b.
Proof. rewrite <- (ustr_eqb_eq a b). destruct (ustr_eqb a b); split; congruence. Qed.
Lemma ustr_ltb_irrefl a : ustr_ltb a a = false.
Proof. induction a as [|x a IH]; [reflexivity|]. cbn. rewrite Z.ltb_irrefl. exact IH. Qed.
Lemma ustr_ltb_asym a : forall b, ustr_ltb a b = true -> ustr_ltb b a = false.
Proof.
  induction a as [|x a IH]; intros [|y b]; cbn; try discriminate; try reflexivity.
  destruct (x <? y) eqn:E1; destruct (y <? x) eqn:E2; try lia; try reflexivity; try discriminate; apply IH.
Qed.
Lemma ustr_ltb_trans a : forall b c, ustr_ltb b a = false -> ustr_ltb c b = false -> ustr_ltb c a = false.
Proof.
  induction a as [|x a IH]; intros [|y b] [|z c]; cbn; try discriminate; try reflexivity.
  destruct (y <? x) eqn:E1; [discriminate|]. destruct (z <? y) eqn:E3; [discriminate|].
  destruct (z <? x) eqn:E5; [lia|]. destruct (x <? z) eqn:E6; [reflexivity|].
  destruct (x <? y) eqn:E2; [lia|]. destruct (y <? z) eqn:E4; [lia|]. apply IH.
Qed.
Lemma ustr_ltb_total a : forall b, ustr_ltb a b = false -> ustr_ltb b a = false -> a = b.
Proof.
  induction a as [|x a IH]; intros [|y b]; cbn; try discriminate; try reflexivity.
  destruct (x <? y) eqn:E1; [discriminate|]. destruct (y <? x) eqn:E2; [discriminate|].
  intros H1 H2. rewrite (IH b H1 H2). f_equal. lia.
Qed.

(** ** Sorting by key *)
Section Keyed.
Variable A : Type.
Implicit Types l : list (ustr * A).
(** Strictly increasing keys. *)
Definition increasing l : Prop := StronglySorted (fun x y => key_lt x y = true) l.
Lemma sort_increasing l : increasing l -> sort_by (@key_lt A) l = l.
Proof.
  intros H. induction H as [|x l Hs IH Hf]; [reflexivity|]. change (sort_by (@key_lt A) (x :: l)) with (insert_by (@key_lt A) x (sort_by (@key_lt A) l)). rewrite IH.
  destruct l as [|y l]; [reflexivity|]. cbn. inversion Hf as [|? ? H1 H2]; subst.
  rewrite (ustr_ltb_asym H1 : key_lt y x = false). reflexivity.
Qed.
Lemma sort_by_increasing l : NoDup (map fst l) -> increasing (sort_by (@key_lt A) l).
Proof.
  intros Hn.
  assert (Hs : StronglySorted (fun x y => key_lt y x = false) (sort_by (@key_lt A) l)).
  { apply sort_sorted; [intros x y; apply ustr_ltb_asym|intros x y z; apply ustr_ltb_trans]. }
  assert (Hp : Permutation (sort_by (@key_lt A) l) l) by apply sort_perm.
  assert (Hn' : NoDup (map fst (sort_by (@key_lt A) l))).
  { eapply Permutation_NoDup; [|exact Hn]. apply Permutation_map. apply Permutation_sym. exact Hp. }
  revert Hs Hn'. generalize (sort_by (@key_lt A) l). clear. intros l Hs. unfold increasing.
  induction Hs as [|x l Hs IH Hf]; intros Hn; [constructor|]. cbn in Hn. inversion Hn as [|? ? H1 H2]; subst.
  constructor; [apply IH; exact H2|]. rewrite Forall_forall in *. intros y Hy. specialize (Hf y Hy). unfold key_lt in *.
  destruct (ustr_ltb (fst x) (fst y)) eqn:E; [reflexivity|]. exfalso. apply H1.
  rewrite (ustr_ltb_total E Hf). apply in_map. exact Hy.
Qed.
Lemma increasing_NoDup l : increasing l -> NoDup (map fst l).
Proof.
  intros H. induction H as [|x l Hs IH Hf]; cbn; [constructor|]. constructor; [|exact IH].
  intros Hin. apply in_map_iff in Hin. destruct Hin as (y & E & Hy). rewrite Forall_forall in Hf. specialize (Hf y Hy).
  unfold key_lt in Hf. rewrite E, ustr_ltb_irrefl in Hf. discriminate.
Qed.
Lemma increasing_unique l1 : forall l2, increasing l1 -> increasing l2 -> Permutation l1 l2 -> l1 = l2.
Proof.
  induction l1 as [|x l1 IH]; intros l2 H1 H2 Hp.
  - apply Permutation_nil in Hp. congruence.
  - destruct l2 as [|y l2]; [apply Permutation_sym, Permutation_nil in Hp; discriminate|].
    inversion H1 as [|? ? S1 F1]; subst. inversion H2 as [|? ? S2 F2]; subst. rewrite Forall_forall in F1, F2.
    assert (E : x = y).
    { assert (X : In x (y :: l2)) by (eapply Permutation_in; [exact Hp|left; reflexivity]).
      assert (Y : In y (x :: l1)) by (eapply Permutation_in; [apply Permutation_sym; exact Hp|left; reflexivity]).
      destruct X as [X|X]; [congruence|]. destruct Y as [Y|Y]; [congruence|].
      specialize (F1 y Y). specialize (F2 x X). apply ustr_ltb_asym in F1. unfold key_lt in *. congruence. }
    subst y. f_equal. apply IH; auto. apply Permutation_cons_inv in Hp. exact Hp.
Qed.
Lemma sort_unique l1 l2 : NoDup (map fst l1) -> Permutation l1 l2 -> sort_by (@key_lt A) l1 = sort_by (@key_lt A) l2.
Proof.
  intros Hn Hp. apply increasing_unique.
  - apply sort_by_increasing. exact Hn.
  - apply sort_by_increasing. eapply Permutation_NoDup; [apply Permutation_map; exact Hp|exact Hn].
  - eapply Permutation_trans; [apply sort_perm|]. eapply Permutation_trans; [exact Hp|]. apply Permutation_sym, sort_perm.
Qed.
Lemma obj_set_new l k v : ~ In k (map fst l) -> obj_set l k v = l ++ [(k, v)].
Proof.
  induction l as [|[k' v'] l IH]; intros H; [reflexivity|]. cbn in *.
  destruct (ustr_eqb k k') eqn:E; [apply ustr_eqb_eq in E; subst; tauto|]. rewrite IH; [reflexivity|tauto].
Qed.
Lemma from_pairs_nodup l : NoDup (map fst l) -> from_pairs l = l.
Proof.
  unfold from_pairs. intros H. change l with ([] ++ l) at 2.
  assert (G : forall acc, NoDup (map fst (acc ++ l)) -> fold_left (fun d kv => obj_set d (fst kv) (snd kv)) l acc = acc ++ l).
  { induction l as [|[k v] l IH]; intros acc Hn; [cbn; rewrite app_nil_r; reflexivity|].
    cbn. rewrite obj_set_new.
    - change (acc ++ (k, v) :: l) with (acc ++ ([(k, v)] ++ l)). rewrite app_assoc.
      apply IH.
      + rewrite map_app in Hn. cbn in Hn. cbn in H. inversion H; assumption.
      + rewrite <- app_assoc. exact Hn.
    - rewrite map_app in Hn. cbn in Hn. apply NoDup_remove_2 in Hn. rewrite in_app_iff in Hn. tauto. }
  apply G. exact H.
Qed.
End Keyed.
Lemma key_lt_map (A B : Type) (f : ustr * A -> B) (x y : ustr * A) :
  key_lt (fst x, f x) (fst y, f y) = key_lt x y.
Proof. reflexivity. Qed.
Lemma insert_map (A B : Type) (f : A -> B) (x : ustr * A) l :
  insert_by (@key_lt B) (fst x, f (snd x)) (map (fun kv => (fst kv, f (snd kv))) l) =
  map (fun kv => (fst kv, f (snd kv))) (insert_by (@key_lt A) x l).
Proof.
  induction l as [|y l IH]; [reflexivity|]. cbn [map insert_by].
  replace (key_lt (fst y, f (snd y)) (fst x, f (snd x))) with (key_lt y x) by reflexivity.
  destruct (key_lt y x); cbn [map]; [f_equal; exact IH|reflexivity].
Qed.
Lemma sort_map (A B : Type) (f : A -> B) (l : list (ustr * A)) :
  sort_by (@key_lt B) (map (fun kv => (fst kv, f (snd kv))) l) = map (fun kv => (fst kv, f (snd kv))) (sort_by (@key_lt A) l).
Proof.
  induction l as [|x l IH]; [reflexivity|]. unfold sort_by in *. cbn [map fold_right]. rewrite IH. apply insert_map.
Qed.

(** ** Numbers *)
Lemma digits_aux_ok fuel : forall n, 0 <= n -> n < 2 ^ Z.of_nat fuel ->
  digits_value (digits_aux fuel n) = n /\ forallb digit (digits_aux fuel n) = true /\
  (n = 0 -> (0 < fuel)%nat -> digits_aux fuel n = [48]) /\
  (0 < n -> exists c t, digits_aux fuel n = c :: t /\ 49 <= c <= 57).
Proof.
  induction fuel as [|f IH]; intros n Hn Hf.
  - cbn in Hf. assert (n = 0) by lia. subst. cbn. repeat split; intros; lia.
  - cbn [digits_aux]. destruct (n <? 10) eqn:E.
    + unfold digits_value. cbn. unfold digit. repeat split; try lia.
      * intros -> _. reflexivity.
      * intros H. exists (48 + n), []. split; [reflexivity|lia].
    + assert (Hd : 0 <= n / 10) by (apply Z.div_pos; lia).
      assert (Hf' : n / 10 < 2 ^ Z.of_nat f).
      { apply Z.div_lt_upper_bound; [lia|]. rewrite Nat2Z.inj_succ, Z.pow_succ_r in Hf by lia. lia. }
      destruct (IH (n / 10) Hd Hf') as (I1 & I2 & I3 & I4).
      assert (Hm : 0 <= n mod 10 < 10) by (apply Z.mod_pos_bound; lia).
      split; [|split; [|split]].
      * unfold digits_value in *. rewrite fold_left_app, I1. cbn.
        replace (48 + n mod 10 - 48) with (n mod 10) by lia. rewrite <- (Z.div_mod n 10); lia.
      * rewrite forallb_app, I2. cbn. unfold digit. lia.
      * intros ->. lia.
      * intros _. destruct I4 as (c & t & E4 & Hc).
        { apply Z.div_str_pos. lia. }
        exists c, (t ++ [48 + n mod 10]). rewrite E4. split; [reflexivity|exact Hc].
Qed.
Lemma digits_ok n : 0 <= n -> digits_value (digits n) = n /\ forallb digit (digits n) = true /\
  (n = 0 -> digits n = [48]) /\ (0 < n -> exists c t, digits n = c :: t /\ 49 <= c <= 57).
Proof.
  intros H. unfold digits. destruct (@digits_aux_ok (S (Z.to_nat (Z.log2 n))) n H) as (H1 & H2 & H3 & H4).
  - rewrite Nat2Z.inj_succ, Z2Nat.id by apply Z.log2_nonneg. destruct (Z.eq_dec n 0) as [->|]; [cbn; lia|].
    apply Z.log2_spec. lia.
  - repeat split; auto. intros E. apply H3; [exact E|lia].
Qed.
(** What may follow a number. *)
Definition stops (l : ustr) : Prop :=
  match l with [] => True | c :: _ => digit c = false /\ c <> 46 /\ c <> 101 /\ c <> 69 end.
Lemma take_digits_app d r : forallb digit d = true -> stops r -> take_digits (d ++ r) = (d, r).
Proof.
  intros Hd Hr. induction d as [|c d IH]; cbn in *.
  - destruct r as [|c r]; [reflexivity|]. cbn. destruct Hr as (-> & _). reflexivity.
  - apply andb_true_iff in Hd. destruct Hd as [-> Hd]. rewrite (IH Hd). reflexivity.
Qed.
Lemma scan_tail (float_of : ustr -> Z) ip r sign neg : stops r ->
  (let '(fp, l3) := match r with
                   | c :: r0 => if c =? 46 then match take_digits r0 with
                                               | ([], _) => ([], r)
                                               | (d, t) => (46 :: d, t)
                                               end
                               else ([], r)
                   | [] => ([], r)
                   end in
  let '(ep, l4) := match l3 with
                   | c :: r0 =>
                     if (c =? 101) || (c =? 69) then
                       let '(sg, r1) := match r0 with
                                        | s :: r' => if (s =? 43) || (s =? 45) then ([s], r') else ([], r0)
                                        | [] => ([], r0)
                                        end in
                       match take_digits r1 with
                       | ([], _) => ([], l3)
                       | (d, t) => (c :: sg ++ d, t)
                       end
                     else ([], l3)
                   | [] => ([], l3)
                   end in
  match fp, ep with
  | [], [] => Ok (JInt (if neg : bool then - digits_value ip else digits_value ip), l4)
  | _, _ => Ok (JFloat (float_of (sign ++ ip ++ fp ++ ep)), l4)
  end) = Ok (JInt (if neg then - digits_value ip else digits_value ip), r).
Proof.
  destruct r as [|c r]; [reflexivity|]. intros (H1 & H2 & H3 & H4).
  rewrite (proj2 (Z.eqb_neq c 46) H2). rewrite (proj2 (Z.eqb_neq c 101) H3), (proj2 (Z.eqb_neq c 69) H4). reflexivity.
Qed.
Lemma scan_nat (float_of : ustr -> Z) n r : 0 <= n -> stops r ->
  match digits n ++ r with
  | c :: t => if c =? 48 then Ok ([48], t) else if digit c then Ok (take_digits (digits n ++ r)) else Err ValueError
  | [] => Err ValueError
  end = Ok (digits n, r).
Proof.
  intros Hn Hr. destruct (digits_ok Hn) as (H1 & H2 & H3 & H4).
  destruct (Z.eq_dec n 0) as [->|Hne]; [rewrite (H3 eq_refl); reflexivity|].
  destruct H4 as (c & t & E & Hc); [lia|]. rewrite (take_digits_app H2 Hr). rewrite E. cbn [app].
  destruct (c =? 48) eqn:E1; [lia|]. replace (digit c) with true by (unfold digit; lia). reflexivity.
Qed.
Lemma scan_int (float_of : ustr -> Z) n r : stops r -> scan_number float_of (int_text n ++ r) = Ok (JInt n, r).
Proof.
  intros Hr. unfold scan_number, int_text. destruct (n <? 0) eqn:E.
  - cbn [app]. change (45 =? 45) with true. cbn iota beta.
    rewrite (@scan_nat float_of (- n) r) by (lia || assumption). cbn [bind].
    refine (eq_trans (@scan_tail float_of (digits (- n)) r [45] true Hr) _). destruct (@digits_ok (- n)) as (H1 & _); [lia|]. rewrite H1. repeat f_equal. lia.
  - assert (Hn : 0 <= n) by lia. destruct (digits_ok Hn) as (H1 & H2 & H3 & H4).
    assert (E0 : exists c t, digits n ++ r = c :: t /\ c <> 45).
    { destruct (Z.eq_dec n 0) as [->|Hne]; [rewrite (H3 eq_refl); eexists 48, _; split; [reflexivity|discriminate]|].
      destruct H4 as (c & t & E4 & Hc); [lia|]. rewrite E4. eexists c, _. split; [reflexivity|lia]. }
    pose proof (@scan_nat float_of n r Hn Hr) as S. destruct E0 as (c & t & E0 & Hc). rewrite E0 in *.
    rewrite (proj2 (Z.eqb_neq c 45) Hc). cbn iota beta. rewrite S. cbn [bind].
    refine (eq_trans (@scan_tail float_of (digits n) r [] false Hr) _). rewrite H1. reflexivity.
Qed.

(** ** Strings of scalar values *)
Lemma hex_value_digit d : 0 <= d < 16 -> hex_value (hex_digit d) = Some d.
Proof.
  intros H. unfold hex_value, hex_digit, digit.
  destruct (d <? 10) eqn:E.
  - replace ((48 <=? 48 + d) && (48 + d <=? 57)) with true by lia. f_equal. lia.
  - replace ((48 <=? 87 + d) && (87 + d <=? 57)) with false by lia.
    replace ((97 <=? 87 + d) && (87 + d <=? 102)) with true by lia. f_equal. lia.
Qed.
Lemma scan_escape c l : scalar c = true -> scan_units (escape c ++ l) = ('(s, t) <- scan_units l ;; Ok (c :: s, t)).
Proof.
  intros H. unfold escape.
  destruct (c =? 34) eqn:E1; [apply Z.eqb_eq in E1; subst; reflexivity|].
  destruct (c =? 92) eqn:E2; [apply Z.eqb_eq in E2; subst; reflexivity|].
  destruct (c =? 8) eqn:E3; [apply Z.eqb_eq in E3; subst; reflexivity|].
  destruct (c =? 12) eqn:E4; [apply Z.eqb_eq in E4; subst; reflexivity|].
  destruct (c =? 10) eqn:E5; [apply Z.eqb_eq in E5; subst; reflexivity|].
  destruct (c =? 13) eqn:E6; [apply Z.eqb_eq in E6; subst; reflexivity|].
  destruct (c =? 9) eqn:E7; [apply Z.eqb_eq in E7; subst; reflexivity|].
  destruct ((0 <=? c) && (c <? 32)) eqn:E8.
  - change (scan_units ([92; 117; 48; 48; hex_digit (c / 16); hex_digit (c mod 16)] ++ l)) with
      (match hex_value 48, hex_value 48, hex_value (hex_digit (c / 16)), hex_value (hex_digit (c mod 16)) with
            | Some a, Some b, Some c', Some d =>
                '(s, t) <- scan_units l ;; Ok (((a * 16 + b) * 16 + c') * 16 + d :: s, t)
            | _, _, _, _ => Err ValueError
            end).
    rewrite hex_value_digit by (split; [apply Z.div_pos; lia|apply Z.div_lt_upper_bound; lia]).
    rewrite hex_value_digit by (apply Z.mod_pos_bound; lia).
    change (hex_value 48) with (Some 0). cbv beta iota.
    replace (((0 * 16 + 0) * 16 + c / 16) * 16 + c mod 16) with c; [reflexivity|].
    pose proof (Z.div_mod c 16 ltac:(lia)). lia.
  - cbn [app scan_units]. rewrite E1, E2. destruct (c <? 32) eqn:E9; [|reflexivity].
    unfold scalar in H. lia.
Qed.
Lemma join_pairs_scalars s : forallb scalar s = true -> join_pairs s = s.
Proof.
  induction s as [|c s IH]; [reflexivity|]. cbn [forallb]. intros H. apply andb_true_iff in H. destruct H as [Hc Hs].
  change (join_pairs (c :: s)) with (match s with [] => [c] | d :: r' => if high_surrogate c && low_surrogate d
      then 65536 + (c - 55296) * 1024 + (d - 56320) :: join_pairs r' else c :: join_pairs s end).
  destruct s as [|d s]; [reflexivity|]. rewrite (IH Hs).
  replace (high_surrogate c) with false; [reflexivity|]. unfold high_surrogate, scalar in *. lia.
Qed.
Lemma scan_string_quoted s l : forallb scalar s = true -> scan_string (flat_map escape s ++ 34 :: l) = Ok (s, l).
Proof.
  intros H. unfold scan_string.
  assert (E : scan_units (flat_map escape s ++ 34 :: l) = Ok (s, l)).
  { induction s as [|c s IH]; [reflexivity|]. cbn [forallb] in H. apply andb_true_iff in H. destruct H as [Hc Hs].
    cbn [flat_map]. rewrite <- app_assoc, (scan_escape _ Hc), (IH Hs). reflexivity. }
  rewrite E. cbn. rewrite (join_pairs_scalars H). reflexivity.
Qed.

(** ** Values *)
(** No floats, only scalar values in strings, objects sorted by key. *)
Inductive plain_json : json -> Prop :=
| pj_null : plain_json JNull
| pj_bool b : plain_json (JBool b)
| pj_int n : plain_json (JInt n)
| pj_str s : forallb scalar s = true -> plain_json (JStr s)
| pj_list l : Forall plain_json l -> plain_json (JList l)
| pj_obj l : Forall (fun kv : ustr * json => forallb scalar (fst kv : ustr) = true /\ plain_json (snd kv)) l -> increasing l -> plain_json (JObj l).

Section Parse.
Variable float_text : Z -> ustr.
Variable float_of : ustr -> Z.
Notation dumps := (dumps float_text).
Notation parse_value := (parse_value float_of).
Notation parse_items := (parse_items float_of).
Notation parse_pairs := (parse_pairs float_of).

Lemma dumps_head j : plain_json j -> exists c t, dumps j = c :: t /\ is_ws c = false /\ c <> 93 /\ c <> 125.
Proof.
  intros H. inversion H as [|b|n|s Hs|l Hl|l Hl Hi]; subst.
  - exists 110, (ulit "ull"). repeat split; discriminate.
  - destruct b; [exists 116, (ulit "rue")|exists 102, (ulit "alse")]; repeat split; discriminate.
  - cbn [Json.dumps]. unfold int_text. destruct (n <? 0) eqn:E; [eexists 45, _; repeat split; discriminate|].
    assert (Hn : 0 <= n) by lia. destruct (digits_ok Hn) as (_ & _ & H3 & H4). destruct (Z.eq_dec n 0) as [->|].
    + rewrite (H3 eq_refl). exists 48, []. repeat split; discriminate.
    + destruct H4 as (c & t & -> & Hc); [lia|]. exists c, t. unfold is_ws. repeat split; lia.
  - eexists 34, _. repeat split; discriminate.
  - eexists 91, _. repeat split; discriminate.
  - eexists 123, _. repeat split; discriminate.
Qed.
Lemma skip_ws_head c t : is_ws c = false -> skip_ws (c :: t) = c :: t.
Proof. intros H. cbn. rewrite H. reflexivity. Qed.
Definition PV (j : json) : Prop := forall fuel rest, stops rest -> (2 * List.length (dumps j) + 1 <= fuel)%nat ->
  parse_value fuel (dumps j ++ rest) = Ok (j, rest).

Lemma join_cons_app sep (x : ustr) y l : join sep (x :: y :: l) = x ++ sep :: join sep (y :: l).
Proof. reflexivity. Qed.
Lemma parse_items_ok l : Forall plain_json l -> Forall PV l -> l <> [] -> forall fuel rest,
  (2 * List.length (join 44 (map dumps l)) + 2 <= fuel)%nat ->
  parse_items fuel (join 44 (map dumps l) ++ 93 :: rest) = Ok (l, rest).
Proof.
  induction l as [|x l IH]; intros Hp Hv Hne fuel rest Hf; [contradiction|].
  inversion Hp as [|? ? Hx Hp']; subst. inversion Hv as [|? ? Vx Vl]; subst.
  destruct fuel as [|f]; [lia|]. cbn [Json.parse_items]. destruct l as [|y l].
  - cbn [map join] in *. rewrite Vx; [|cbn; repeat split; discriminate|lia]. reflexivity.
  - change (map dumps (x :: y :: l)) with (dumps x :: dumps y :: map dumps l) in *. rewrite join_cons_app in *.
    rewrite app_length in Hf. cbn [List.length] in Hf.
    rewrite <- app_assoc. cbn [app]. rewrite Vx; [|cbn; repeat split; discriminate|lia]. cbn [bind].
    rewrite skip_ws_head by reflexivity. change (44 =? 93) with false. change (44 =? 44) with true. cbn iota.
    assert (E : skip_ws (join 44 (dumps y :: map dumps l) ++ 93 :: rest) = join 44 (map dumps (y :: l)) ++ 93 :: rest).
    { change (map dumps (y :: l)) with (dumps y :: map dumps l). inversion Hp' as [|? ? Hy _]; subst.
      destruct (dumps_head Hy) as (c & t & E & W & _). rewrite E. destruct (map dumps l) eqn:El; cbn [join app]; apply skip_ws_head; exact W. }
    rewrite E. rewrite IH; [reflexivity|exact Hp'|exact Vl|discriminate|].
    change (map dumps (y :: l)) with (dumps y :: map dumps l). lia.
Qed.
Definition entry (kt : ustr * ustr) : ustr := quoted (fst kt) ++ 58 :: snd kt.
Definition show (kv : ustr * json) : ustr * ustr := (fst kv, dumps (snd kv)).
Lemma parse_pairs_ok l : Forall (fun kv : ustr * json => forallb scalar (fst kv : ustr) = true /\ plain_json (snd kv)) l ->
  Forall (fun kv => PV (snd kv)) l -> l <> [] -> forall fuel rest,
  (2 * List.length (join 44 (map entry (map show l))) + 2 <= fuel)%nat ->
  parse_pairs fuel (join 44 (map entry (map show l)) ++ 125 :: rest) = Ok (l, rest).
Proof.
  induction l as [|[k v] l IH]; intros Hp Hv Hne fuel rest Hf; [contradiction|].
  inversion Hp as [|? ? [Hk Hx] Hp']; subst. inversion Hv as [|? ? Vx Vl]; subst. cbn [fst snd] in *.
  destruct fuel as [|f]; [lia|].
  assert (Step : forall tail, (2 * List.length (dumps v) + 1 <= f)%nat -> stops tail ->
     parse_pairs (S f) (entry (show (k, v)) ++ tail) =
     match skip_ws tail with
     | e :: t3 => if e =? 125 then Ok ([(k, v)], t3)
                  else if e =? 44 then '(ps, t4) <- parse_pairs f (skip_ws t3) ;; Ok ((k, v) :: ps, t4)
                  else Err ValueError
     | [] => Err ValueError
     end).
  { intros tail Hl Ht. unfold entry, show, quoted. cbn [fst snd].
    replace ((34 :: flat_map escape k ++ [34]) ++ 58 :: dumps v) with (34 :: (flat_map escape k ++ 34 :: 58 :: dumps v))
      by (cbn [app]; f_equal; rewrite <- app_assoc; reflexivity).
    cbn [app]. rewrite <- app_assoc. cbn [app Json.parse_pairs]. change (34 =? 34) with true. cbn iota.
    rewrite (scan_string_quoted _ Hk). cbn [bind]. rewrite skip_ws_head by reflexivity. change (58 =? 58) with true. cbn iota.
    destruct (dumps_head Hx) as (c & t & E & W & _).
    assert (E' : skip_ws (dumps v ++ tail) = dumps v ++ tail) by (rewrite E; cbn [app]; apply skip_ws_head; exact W).
    rewrite E'. rewrite Vx by assumption. reflexivity. }
  destruct l as [|[k2 v2] l].
  - cbn [map join] in *. rewrite Step; [reflexivity| |cbn; repeat split; discriminate].
    unfold entry, show, quoted in Hf. cbn [fst snd] in Hf. rewrite app_length in Hf. cbn [List.length] in Hf. lia.
  - change (map entry (map show ((k, v) :: (k2, v2) :: l))) with (entry (show (k, v)) :: entry (show (k2, v2)) :: map entry (map show l)) in *.
    rewrite join_cons_app in *. rewrite app_length in Hf. cbn [List.length] in Hf.
    rewrite <- app_assoc. cbn [app]. rewrite Step; [|unfold entry, show, quoted in Hf; cbn [fst snd] in Hf; rewrite app_length in Hf; cbn [List.length] in Hf; lia|cbn; repeat split; discriminate].
    rewrite skip_ws_head by reflexivity. change (44 =? 125) with false. change (44 =? 44) with true. cbn iota.
    assert (E : skip_ws (join 44 (entry (show (k2, v2)) :: map entry (map show l)) ++ 125 :: rest) = join 44 (map entry (map show ((k2, v2) :: l))) ++ 125 :: rest).
    { change (map entry (map show ((k2, v2) :: l))) with (entry (show (k2, v2)) :: map entry (map show l)).
      destruct (map entry (map show l)) eqn:El; cbn [join app entry quoted]; apply skip_ws_head; reflexivity. }
    rewrite E. rewrite IH; [reflexivity|exact Hp'|exact Vl|discriminate|].
    change (map entry (map show ((k2, v2) :: l))) with (entry (show (k2, v2)) :: map entry (map show l)). lia.
Qed.
Lemma dumps_obj l : increasing l -> dumps (JObj l) = 123 :: join 44 (map entry (map show l)) ++ [125].
Proof.
  intros H. cbn [Json.dumps]. f_equal. f_equal.
  rewrite (sort_map (fun v => dumps v) l), (sort_increasing H). reflexivity.
Qed.
Theorem parse_dumps j : plain_json j -> PV j.
Proof.
  induction j as [|b|n|b|s|l IH|l IH] using json_ind2; intros Hp fuel rest Hr Hf; inversion Hp as [|b'|n'|s' Hs|l' Hl|l' Hl Hi]; subst.
  - destruct fuel as [|f]; [lia|]. reflexivity.
  - destruct fuel as [|f]; [lia|]. destruct b; reflexivity.
  - destruct fuel as [|f]; [lia|]. cbn [Json.dumps].
    assert (X : exists c t, int_text n = c :: t /\ ((c = 45 /\ exists d t', t = d :: t' /\ digit d = true) \/ digit c = true)).
    { unfold int_text. destruct (n <? 0) eqn:E.
      - eexists 45, _. split; [reflexivity|]. left. split; [reflexivity|].
        destruct (@digits_ok (- n)) as (_ & _ & _ & H4); [lia|]. destruct H4 as (c & t & -> & Hc); [lia|]. exists c, t. split; [reflexivity|unfold digit; lia].
      - assert (Hn : 0 <= n) by lia. destruct (digits_ok Hn) as (_ & _ & H3 & H4). destruct (Z.eq_dec n 0) as [->|].
        + rewrite (H3 eq_refl). exists 48, []. split; [reflexivity|]. right. reflexivity.
        + destruct H4 as (c & t & -> & Hc); [lia|]. exists c, t. split; [reflexivity|]. right. unfold digit. lia. }
    pose proof (scan_int float_of n Hr) as Hs. destruct X as (c & t & E & X). rewrite E in *. cbn [app] in *.
    cbn [Json.parse_value].
    assert (Hc : c = 45 \/ 48 <= c <= 57) by (destruct X as [[-> _]|X]; [left; reflexivity|right; unfold digit in X; lia]).
    destruct (c =? 34) eqn:E1; [lia|]. destruct (c =? 123) eqn:E2; [lia|]. destruct (c =? 91) eqn:E3; [lia|].
    assert (N : forall w, match ulit w with x :: _ => x =? c | [] => true end = false -> starts (ulit w) (c :: t ++ rest) = None).
    { intros w. destruct (ulit w) as [|x u]; [discriminate|]. cbn. intros ->. reflexivity. }
    rewrite (N "null"%string), (N "true"%string), (N "false"%string), (N "NaN"%string), (N "Infinity"%string)
      by (cbn; apply Z.eqb_neq; lia).
    assert (N2 : starts (ulit "-Infinity") (c :: t ++ rest) = None).
    { change (ulit "-Infinity") with (45 :: 73 :: ulit "nfinity"). cbn [starts]. destruct X as [[-> (d & t' & -> & Hd)]|X].
      - cbn [app]. change (45 =? 45) with true. cbn iota. destruct (73 =? d) eqn:E4; [|reflexivity]. unfold digit in Hd. lia.
      - destruct (45 =? c) eqn:E4; [|reflexivity]. unfold digit in X. lia. }
    rewrite N2. exact Hs.
  - destruct fuel as [|f]; [lia|]. cbn [Json.dumps]. unfold quoted. cbn [app Json.parse_value]. change (34 =? 34) with true. cbn iota.
    rewrite <- app_assoc. cbn [app]. rewrite (scan_string_quoted _ Hs). reflexivity.
  - destruct fuel as [|f]; [lia|]. cbn [Json.dumps] in *. cbn [List.length] in Hf. rewrite app_length in Hf. cbn [List.length] in Hf.
    cbn [app Json.parse_value]. change (91 =? 34) with false. change (91 =? 123) with false. change (91 =? 91) with true. cbn iota.
    rewrite <- app_assoc. cbn [app]. destruct l as [|x l]; [reflexivity|].
    assert (V : Forall PV (x :: l)) by (rewrite Forall_forall in *; auto).
    assert (E : exists c t, join 44 (map dumps (x :: l)) = c :: t /\ is_ws c = false /\ c <> 93).
    { inversion Hl as [|? ? Hx _]; subst. destruct (dumps_head Hx) as (c & t & E & W & N1 & N2). cbn [map].
      rewrite E. destruct (map dumps l); cbn [join app]; eexists c, _; split; [reflexivity|auto|reflexivity|auto]. }
    pose proof (@parse_items_ok (x :: l) Hl V ltac:(discriminate) f rest ltac:(lia)) as P.
    destruct E as (c & t & E & W & N1). rewrite E in *. cbn [app] in *. rewrite (skip_ws_head _ W). cbv beta iota.
    rewrite (proj2 (Z.eqb_neq c 93) N1). cbv beta iota.
    match goal with |- bind ?X _ = _ => replace X with (Ok (x :: l, rest)) by (symmetry; exact P) end. reflexivity.
  - destruct fuel as [|f]; [lia|]. rewrite (dumps_obj Hi) in *. cbn [List.length] in Hf. rewrite app_length in Hf. cbn [List.length] in Hf.
    cbn [app Json.parse_value]. change (123 =? 34) with false. change (123 =? 123) with true. cbn iota.
    rewrite <- app_assoc. cbn [app]. destruct l as [|[k v] l]; [reflexivity|].
    assert (V : Forall (fun kv => PV (snd kv)) ((k, v) :: l)).
    { rewrite Forall_forall in *. intros kv Hin. apply IH; [exact Hin|]. apply Hl. exact Hin. }
    assert (E : exists t, join 44 (map entry (map show ((k, v) :: l))) = 34 :: t).
    { cbn [map]. destruct (map entry (map show l)); cbn [join entry show quoted app fst]; eexists; reflexivity. }
    pose proof (@parse_pairs_ok ((k, v) :: l) Hl V ltac:(discriminate) f rest ltac:(lia)) as P.
    destruct E as (t & E). rewrite E in *. cbn [app] in *. rewrite (skip_ws_head (c := 34)) by reflexivity.
    cbv beta iota. change (34 =? 125) with false. cbv beta iota.
    match goal with |- bind ?X _ = _ => replace X with (Ok ((k, v) :: l, rest)) by (symmetry; exact P) end. cbn [bind]. rewrite from_pairs_nodup; [reflexivity|].
    apply increasing_NoDup. exact Hi.
Qed.
Theorem loads_dumps j : plain_json j -> loads float_of (dumps j) = Ok j.
Proof.
  intros Hp. unfold loads. destruct (dumps_head Hp) as (c & t & E & W & _).
  assert (E' : skip_ws (dumps j) = dumps j) by (rewrite E; apply skip_ws_head; exact W).
  rewrite E'. rewrite <- (app_nil_r (dumps j)) at 2. rewrite (parse_dumps Hp); [reflexivity|exact I|lia].
Qed.
End Parse.

(** ** UTF-8 *)
Lemma utf8_decode_char c r : scalar c = true -> utf8_decode (utf8_char c ++ r) = (s <- utf8_decode r ;; Ok (c :: s)).
Proof.
  intros H. unfold scalar in H. unfold utf8_char.
  assert (M : forall x, 0 <= x mod 64 < 64) by (intros; apply Z.mod_pos_bound; lia).
  destruct (c <? 128) eqn:E1; [cbn [app utf8_decode]; rewrite E1; reflexivity|].
  pose proof (M c) as M0. pose proof (M (c / 64)) as M1. pose proof (M (c / 4096)) as M2.
  pose proof (Z.div_mod c 64 ltac:(lia)) as D0.
  assert (D1 : c / 64 = 64 * (c / 4096) + (c / 64) mod 64).
  { change 4096 with (64 * 64). rewrite <- Z.div_div by lia. apply Z.div_mod. lia. }
  assert (D2 : c / 4096 = 64 * (c / 262144) + (c / 4096) mod 64).
  { change 262144 with (4096 * 64). rewrite <- Z.div_div by lia. apply Z.div_mod. lia. }
  destruct (c <? 2048) eqn:E2.
  - cbn [app utf8_decode]. unfold cont.
    replace (192 + c / 64 <? 128) with false by lia.
    replace (negb ((128 <=? 128 + c mod 64) && (128 + c mod 64 <? 192))) with false by lia.
    replace (192 + c / 64 <? 224) with true by lia. cbv zeta.
    replace ((192 + c / 64 - 192) * 64 + (128 + c mod 64 - 128)) with c by lia.
    replace ((192 <=? 192 + c / 64) && (128 <=? c)) with true by lia. reflexivity.
  - destruct (c <? 65536) eqn:E3.
    + cbn [app utf8_decode]. unfold cont.
      replace (224 + c / 4096 <? 128) with false by lia.
      replace (negb ((128 <=? 128 + c / 64 mod 64) && (128 + c / 64 mod 64 <? 192))) with false by lia.
      replace (224 + c / 4096 <? 224) with false by lia.
      replace (negb ((128 <=? 128 + c mod 64) && (128 + c mod 64 <? 192))) with false by lia.
      replace (224 + c / 4096 <? 240) with true by lia. cbv zeta.
      replace (((224 + c / 4096 - 224) * 64 + (128 + c / 64 mod 64 - 128)) * 64 + (128 + c mod 64 - 128)) with c by lia.
      unfold scalar. replace ((2048 <=? c) && ((0 <=? c) && (c <? 55296) || (57344 <=? c) && (c <? 1114112))) with true by lia. reflexivity.
    + cbn [app utf8_decode]. unfold cont.
      replace (240 + c / 262144 <? 128) with false by lia.
      replace (negb ((128 <=? 128 + c / 4096 mod 64) && (128 + c / 4096 mod 64 <? 192))) with false by lia.
      replace (240 + c / 262144 <? 224) with false by lia.
      replace (negb ((128 <=? 128 + c / 64 mod 64) && (128 + c / 64 mod 64 <? 192))) with false by lia.
      replace (240 + c / 262144 <? 240) with false by lia. cbv zeta.
      replace ((((240 + c / 262144 - 240) * 64 + (128 + c / 4096 mod 64 - 128)) * 64 + (128 + c / 64 mod 64 - 128)) * 64 + (128 + c mod 64 - 128)) with c by lia.
      replace ((128 <=? 128 + c mod 64) && (128 + c mod 64 <? 192) && (65536 <=? c) && (c <? 1114112)) with true by lia. reflexivity.
Qed.
Theorem utf8_roundtrip s b : utf8_encode s = Ok b -> utf8_decode b = Ok s.
Proof.
  unfold utf8_encode. destruct (forallb scalar s) eqn:E; [|discriminate]. intros H. injection H as <-.
  induction s as [|c s IH]; [reflexivity|]. cbn [forallb] in E. apply andb_true_iff in E. destruct E as [Hc Hs].
  cbn [flat_map]. rewrite (utf8_decode_char _ Hc), (IH Hs). reflexivity.
Qed.
