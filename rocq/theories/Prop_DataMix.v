(** C53-C55: combined data sets, blend ratios, split files. *)
From Coq Require Import Permutation.
From Verif Require Import Base BaseFacts Json JsonFacts DecoderFacts MetricsFacts ComposerFacts DataMix DataMixFacts.
Set Implicit Arguments. Unset Strict Implicit.

(** ** C53: the map-style [multi] data set *)
Theorem C53_multi_is_the_concatenation (A : Type) (children : list (list A)) :
  multi_len children = zlen (List.concat children)
  /\ forall i, 0 <= i -> multi_get children i
       = match nth_error (List.concat children) (Z.to_nat i) with Some a => Ok a | None => Err IndexError end.
Proof.
  split; [apply multi_len_concat|]. intros i I. rewrite multi_get_concat by exact I. unfold child_get, py_get. replace (i <? 0) with false by lia.
  destruct ((0 <=? i) && (i <? zlen (List.concat children))) eqn:E; [reflexivity|]. rewrite (proj2 (nth_error_None _ _)); [reflexivity|]. unfold zlen in E. lia.
Qed.
(** Finding F30: counting from the end does not work; a negative index always lands in the first child. *)
Theorem C53_negative_indices_stay_in_the_first_child (A : Type) (child : list A) rest i : i < 0 -> multi_get (child :: rest) i = child_get child i.
Proof. intros I. cbn [multi_get]. pose proof (zlen_nonneg child). replace (i <? zlen child) with true by lia. reflexivity. Qed.
Example C53_the_last_sample_is_not_at_minus_one : multi_get [[1; 2]; [3; 4; 5]] (-1) = Ok 2 /\ multi_get [[1; 2]; [3; 4; 5]] 4 = Ok 5.
Proof. split; reflexivity. Qed.
(** The reference of a sample names the child and the place the sample comes from. *)
Fixpoint before (sizes : list Z) (k : nat) : Z := match k, sizes with O, _ => 0 | S k, n :: r => n + before r k | S _, [] => 0 end.
Lemma multi_ref_from_ok name original : forall children k0 i, Forall (fun c => 0 <= fst c) children -> 0 <= i < zsum (map fst children) ->
  exists k n child local, nth_error children k = Some (n, child) /\ 0 <= local < n /\ before (map fst children) k + local = i
    /\ multi_ref_from name original k0 children i
       = (r <- child local ;; Ok (mkRef (name ++ ulit ":" ++ int_text (k0 + Z.of_nat k) ++ ulit ":" ++ r_id r) original (ulit "map-child") (r_digest r) (r_name r) (k0 + Z.of_nat k :: r_path r))).
Proof.
  induction children as [|(n, child) rest IH]; intros k0 i P I; [cbn in I; lia|]. inversion P as [|? ? Pn P']; subst. cbn [fst] in Pn.
  cbn [map fst] in I. change (zsum (n :: map fst rest)) with (n + zsum (map fst rest)) in I. cbn [multi_ref_from]. destruct (i <? n) eqn:E.
  - exists 0%nat, n, child, i. split; [reflexivity|]. split; [lia|]. split; [cbn; lia|]. cbn [Z.of_nat]. rewrite Z.add_0_r. reflexivity.
  - destruct (IH (k0 + 1) (i - n) P') as (k & n' & child' & local & N & R & B & Q); [lia|]. exists (S k), n', child', local. split; [exact N|]. split; [exact R|].
    split; [cbn [map fst before]; lia|]. rewrite Q. replace (k0 + 1 + Z.of_nat k) with (k0 + Z.of_nat (S k)) by lia. reflexivity.
Qed.
Theorem C53_a_reference_names_its_sample name children i :
  Forall (fun c => 0 <= fst c) children -> 0 <= i < zsum (map fst children) ->
  exists k n child local, nth_error children k = Some (n, child) /\ 0 <= local < n /\ before (map fst children) k + local = i
    /\ (forall r, child local = Ok r -> exists r', multi_ref name children i = Ok r' /\ r_index r' = i
          /\ r_path r' = Z.of_nat k :: r_path r /\ r_digest r' = r_digest r /\ r_name r' = r_name r)
    /\ (forall e, child local = Err e -> multi_ref name children i = Err e).
Proof.
  intros P I. destruct (@multi_ref_from_ok name i children 0 i P I) as (k & n & child & local & N & R & B & E). exists k, n, child, local. split; [exact N|]. split; [exact R|]. split; [exact B|].
  unfold multi_ref. rewrite E. split; intros x X; rewrite X; cbn [bind]; [|reflexivity]. eexists. split; [reflexivity|]. cbn [r_index r_path r_digest r_name]. rewrite Z.add_0_l. auto.
Qed.
(** No two samples share a reference path, if no child repeats one. *)
Theorem C53_references_are_distinct name children i j r s :
  Forall (fun c => 0 <= fst c /\ forall a b ra rb, 0 <= a < fst c -> 0 <= b < fst c -> snd c a = Ok ra -> snd c b = Ok rb -> r_path ra = r_path rb -> a = b) children ->
  0 <= i < zsum (map fst children) -> 0 <= j < zsum (map fst children) ->
  multi_ref name children i = Ok r -> multi_ref name children j = Ok s -> r_path r = r_path s -> i = j.
Proof.
  intros P I J Ei Ej Q. assert (P' : Forall (fun c => 0 <= fst c) children) by (eapply Forall_impl; [|exact P]; cbn; intros ? (X & _); exact X).
  destruct (C53_a_reference_names_its_sample name P' I) as (k & n & child & local & N & R & B & Hr & He).
  destruct (C53_a_reference_names_its_sample name P' J) as (k' & n' & child' & local' & N' & R' & B' & Hr' & He').
  destruct (child local) as [ra|e] eqn:Ca; [|rewrite (He e eq_refl) in Ei; discriminate]. destruct (child' local') as [rb|e] eqn:Cb; [|rewrite (He' e eq_refl) in Ej; discriminate].
  destruct (Hr ra eq_refl) as (r1 & E1 & _ & P1 & _). destruct (Hr' rb eq_refl) as (r2 & E2 & _ & P2 & _).
  assert (r1 = r) by congruence. assert (r2 = s) by congruence. subst r1 r2. rewrite P1, P2 in Q.
  assert (Qk : Z.of_nat k = Z.of_nat k') by congruence. assert (Qp : r_path ra = r_path rb) by congruence. apply Nat2Z.inj in Qk. subst k'.
  rewrite N in N'. injection N' as <- <-. rewrite Forall_forall in P. apply nth_error_In in N. destruct (P _ N) as (_ & Inj). cbn [fst snd] in Inj.
  assert (local = local') by (apply (Inj local local' ra rb); assumption). lia.
Qed.
Theorem C53_references_end_with_the_samples name children i : Forall (fun c => 0 <= fst c) children -> zsum (map fst children) <= i -> multi_ref name children i = Err IndexError.
Proof.
  intros P. unfold multi_ref. generalize i at 2 as o. generalize 0 as k. revert i. induction children as [|(n, child) rest IH]; intros i k o H; [reflexivity|]. inversion P as [|? ? Pn P']; subst.
  cbn [map fst] in *. change (zsum (n :: map fst rest)) with (n + zsum (map fst rest)) in H.
  assert (0 <= zsum (map fst rest)) by (clear - P'; induction P' as [|c l X _ IHl]; [cbn; lia|]; cbn [map]; change (zsum (fst c :: map fst l)) with (fst c + zsum (map fst l)); lia).
  cbn [multi_ref_from]. replace (i <? n) with false by lia. apply IH; [exact P'|lia].
Qed.

(** ** C54: blend ratios *)
(** A ratio is usable if it is positive and a whole number of parts of at most a million. *)
Definition usable (r : ratio) : Prop :=
  match r with
  | NotFinite => False
  | Decimal m e => 0 < m /\ exists D z K, 1 <= D <= 1000000 /\ 0 <= K /\ 0 <= e + K /\ D * (m * 10 ^ (e + K)) = z * 10 ^ K
  end.
(** w : w' equals r : r' *)
Definition in_proportion (w : Z) (r : ratio) (w' : Z) (r' : ratio) : Prop :=
  match r, r' with
  | Decimal m e, Decimal m' e' => forall K, 0 <= K -> 0 <= e + K -> 0 <= e' + K -> w * (m' * 10 ^ (e' + K)) = w' * (m * 10 ^ (e + K))
  | _, _ => False
  end.
Definition checked (r : ratio) : res (Z * Z) :=
  match r with
  | NotFinite => Err ValueError
  | Decimal m e => guard negb (m <=? 0) else ValueError ;; let '(n, d) := fraction m e in guard negb (1000000 <? d) else ValueError ;; Ok (n, d)
  end.
Definition part (r : ratio) (nd : Z * Z) : Prop :=
  match r with NotFinite => False | Decimal m e =>
    0 < fst nd /\ 0 < snd nd /\ forall K, 0 <= K -> 0 <= e + K -> fst nd * 10 ^ K = m * 10 ^ (e + K) * snd nd end.
Lemma checked_ok r : (usable r -> exists nd, checked r = Ok nd /\ part r nd) /\ (~ usable r -> checked r = Err ValueError).
Proof.
  destruct r as [|m e]; cbn [checked usable part]; [split; [intros []|reflexivity]|]. destruct (Z_le_gt_dec m 0) as [M|M].
  - replace (m <=? 0) with true by lia. cbn [negb]. split; [lia|reflexivity].
  - replace (m <=? 0) with false by lia. cbn [negb]. destruct (fraction m e) as (n, d) eqn:E. destruct (@fraction_ok m e n d ltac:(lia) E) as (N & D & G & V).
    assert (U : (0 < m /\ exists D z K, 1 <= D <= 1000000 /\ 0 <= K /\ 0 <= e + K /\ D * (m * 10 ^ (e + K)) = z * 10 ^ K) <-> d <= 1000000).
    { split.
      - intros (_ & D0 & z & K & R & K0 & EK & Q). apply Z.le_trans with D0; [|lia]. apply Z.divide_pos_le; [lia|].
        apply Z.gauss with n; [|rewrite Z.gcd_comm; exact G]. exists z. specialize (V K K0 EK). pose proof (@pow10 K K0) as P.
        apply Z.mul_reg_r with (10 ^ K); [lia|]. replace (n * D0 * 10 ^ K) with (D0 * (n * 10 ^ K)) by ring. rewrite V. replace (z * d * 10 ^ K) with (z * 10 ^ K * d) by ring. rewrite <- Q. ring.
      - intros L. split; [lia|]. exists d, n, (Z.abs e). split; [lia|]. split; [lia|]. split; [lia|]. rewrite V by lia. ring. }
    destruct (Z_le_gt_dec d 1000000) as [L|L].
    + replace (1000000 <? d) with false by lia. cbn [negb]. split; [|intros H; exfalso; apply H; apply U; exact L]. intros _. exists (n, d). cbn [fst snd]. auto.
    + replace (1000000 <? d) with true by lia. cbn [negb]. split; [intros H; apply U in H; lia|reflexivity].
Qed.
Lemma usable_dec r : usable r \/ ~ usable r.
Proof.
  destruct (checked_ok r) as (A & B). destruct (checked r) as [nd|e] eqn:E; [left|right].
  - destruct r as [|m e]; [discriminate|]. cbn [checked] in E. destruct (m <=? 0) eqn:M; [discriminate|]. cbn [negb] in E. destruct (fraction m e) as (n, d) eqn:F. destruct (1000000 <? d) eqn:D; [discriminate|].
    destruct (@fraction_ok m e n d ltac:(lia) F) as (N & D0 & G & V). cbn [usable]. split; [lia|]. exists d, n, (Z.abs e). split; [lia|]. split; [lia|]. split; [lia|]. rewrite V by lia. ring.
  - intros U. destruct (A U) as (nd & Q & _). congruence.
Qed.
Lemma f2_len (A B : Type) (P : A -> B -> Prop) l m : Forall2 P l m -> List.length l = List.length m.
Proof. induction 1; cbn; congruence. Qed.
Lemma list_ext_eq (A : Type) (l : list A) : forall m, (forall i, nth_error l i = nth_error m i) -> l = m.
Proof.
  induction l as [|x l IH]; intros [|y m] H; [reflexivity|specialize (H 0%nat); discriminate|specialize (H 0%nat); discriminate|].
  pose proof (H 0%nat) as H0. injection H0 as ->. f_equal. apply IH. intros i. apply (H (S i)).
Qed.
(** Usable ratios become the smallest positive whole weights in exactly these proportions. *)
Theorem C54_weights_are_exact_and_smallest (ratios : list ratio) : ratios <> [] -> Forall usable ratios ->
  exists ws, integer_ratio_weights ratios = Ok ws /\ List.length ws = List.length ratios /\ Forall (fun w => 0 < w) ws
    /\ (forall i j wi wj ri rj, nth_error ws i = Some wi -> nth_error ratios i = Some ri -> nth_error ws j = Some wj -> nth_error ratios j = Some rj ->
          in_proportion wi ri wj rj)
    /\ forall us, List.length us = List.length ratios -> Forall (fun u => 0 < u) us ->
         (forall i j ui uj ri rj, nth_error us i = Some ui -> nth_error ratios i = Some ri -> nth_error us j = Some uj -> nth_error ratios j = Some rj ->
            in_proportion ui ri uj rj) ->
         exists c, 0 < c /\ us = map (fun w => c * w) ws.
Proof.
  intros NE U. assert (exists fs, mapM checked ratios = Ok fs /\ Forall2 part ratios fs) as (fs & Ef & Pf).
  { clear NE. induction U as [|r l Ur _ IH]; [exists []; split; [reflexivity|constructor]|]. destruct (proj1 (checked_ok r) Ur) as (nd & E & P). destruct IH as (fs & E' & P').
    exists (nd :: fs). split; [|constructor; assumption]. cbn [mapM]. rewrite E, E'. reflexivity. }
  unfold integer_ratio_weights. change (mapM _ ratios) with (mapM checked ratios). rewrite Ef. cbn [bind]. set (D := fold_left Z.lcm (map snd fs) 1).
  assert (Ps : Forall (fun nd => 0 < fst nd /\ 0 < snd nd) fs).
  { clear - Pf. induction Pf as [|r nd l fs P _ IH]; constructor; [|exact IH]. destruct r; cbn in P; [contradiction|]. tauto. }
  assert (Pd : Forall (fun d => 0 < d) (map snd fs)) by (clear - Ps; induction Ps as [|nd l (A & B) _ IH]; constructor; assumption).
  destruct (@fold_lcm (map snd fs) 1 ltac:(lia) Pd) as (D0 & _ & Dv). fold D in D0, Dv. clearbody D.
  set (W := map (fun '(n, d) => n * (D / d)) fs).
  assert (HW : Forall2 (fun nd w => 0 < w /\ w * snd nd = fst nd * D) fs W).
  { unfold W. clear - Ps Dv D0. induction Ps as [|(n, d) l (A & B) _ IH]; cbn [map] in *; constructor; [|apply IH; inversion Dv; assumption]. inversion Dv as [|? ? Dd _]; subst. cbn [fst snd] in *.
    destruct Dd as (q & Hq). rewrite Hq, Z.div_mul by lia. split; [|ring]. nia. }
  assert (exists w0 W', W = w0 :: W') as (w0 & W' & EW).
  { clear - NE Pf HW. clearbody W. destruct Pf as [|a b ra fs' _ _]; [congruence|]. inversion HW; subst. eexists. eexists. reflexivity. }
  clearbody W. assert (W0 : 0 < w0) by (subst W; inversion HW as [|? ? ? ? (A & _)]; exact A). destruct (@fold_gcd W' w0 W0) as (G & Dg & Fg & Ug). set (g := fold_left Z.gcd W' w0) in *.
  assert (Hg : Forall (fun w => (g | w)) W) by (subst W; constructor; assumption).
  assert (RG : reduce_gcd W = Ok g) by (subst W; reflexivity). rewrite RG. cbn [bind].
  eexists. split; [reflexivity|].
  assert (Len : List.length W = List.length ratios) by (rewrite <- (f2_len HW), <- (f2_len Pf); reflexivity).
  split; [rewrite map_length; exact Len|].
  assert (Val : forall i w r, nth_error W i = Some w -> nth_error ratios i = Some r -> exists nd, part r nd /\ 0 < w /\ w * snd nd = fst nd * D /\ w = g * (w / g)).
  { intros i w r N R. assert (exists nd, nth_error fs i = Some nd /\ part r nd) as (nd & Nn & Pn).
    { clear - Pf R. revert i R. induction Pf as [|a b l l' P _ IH]; intros [|i] R; cbn in R; try discriminate; [injection R as ->; exists b; auto|apply (IH i R)]. }
    exists nd. split; [exact Pn|]. assert (Q : 0 < w /\ w * snd nd = fst nd * D).
    { clear - HW N Nn. revert i N Nn. induction HW as [|a b l l' P _ IH]; intros [|i] N Nn; cbn in N, Nn; try discriminate; [congruence|apply (IH i N Nn)]. }
    split; [apply Q|]. split; [apply Q|]. apply nth_error_In in N. rewrite Forall_forall in Hg. destruct (Hg w N) as (q & ->). rewrite Z.div_mul by lia. ring. }
  split.
  { apply Forall_forall. intros v I. apply in_map_iff in I. destruct I as (w & <- & I). apply In_nth_error in I. destruct I as (i & N).
    assert (X : (i < List.length ratios)%nat) by (rewrite <- Len; apply nth_error_Some; congruence). destruct (nth_error ratios i) as [r|] eqn:R; [|apply nth_error_None in R; lia].
    destruct (Val _ _ _ N R) as (nd & _ & Pw & _ & Q). nia. }
  assert (Prop1 : forall i j wi wj ri rj, nth_error W i = Some wi -> nth_error ratios i = Some ri -> nth_error W j = Some wj -> nth_error ratios j = Some rj ->
    in_proportion (wi / g) ri (wj / g) rj).
  { intros i j wi wj ri rj Ni Ri Nj Rj. destruct (Val _ _ _ Ni Ri) as ((ni, di) & Pi & Wi & Qi & Gi). destruct (Val _ _ _ Nj Rj) as ((nj, dj) & Pj & Wj & Qj & Gj).
    destruct ri as [|mi ei], rj as [|mj ej]; cbn [part] in Pi, Pj; try contradiction. cbn [fst snd] in *. destruct Pi as (A1 & A2 & A3). destruct Pj as (B1 & B2 & B3).
    cbn [in_proportion]. intros K K0 E1 E2. specialize (A3 K K0 E1). specialize (B3 K K0 E2). set (p := mi * 10 ^ (ei + K)) in *. set (q := mj * 10 ^ (ej + K)) in *. pose proof (@pow10 K K0) as P10.
    set (a := wi / g) in *. set (b := wj / g) in *. apply Z.mul_reg_l with (g * di * dj * D); [nia|].
    replace (g * di * dj * D * (a * q)) with ((g * a) * di * D * (q * dj)) by ring. replace (g * di * dj * D * (b * p)) with ((g * b) * dj * D * (p * di)) by ring.
    rewrite <- Gi, <- Gj, <- A3, <- B3, Qi, Qj. ring. }
  split.
  { intros i j wi wj ri rj Ni Ri Nj Rj. rewrite nth_error_map in Ni, Nj. destruct (nth_error W i) as [vi|] eqn:Vi; [|discriminate]. destruct (nth_error W j) as [vj|] eqn:Vj; [|discriminate].
    cbn in Ni, Nj. assert (vi / g = wi) by congruence. assert (vj / g = wj) by congruence. subst wi wj. eapply Prop1; eassumption. }
  (* minimality *)
  intros us Lu Pu Hu. destruct us as [|u0 us']; [exfalso; destruct ratios; [congruence|discriminate]|]. set (us := u0 :: us') in *.
  assert (Nu : nth_error us 0 = Some u0) by reflexivity. assert (NW : nth_error W 0 = Some w0) by (rewrite EW; reflexivity).
  destruct ratios as [|r0 rs]; [congruence|]. assert (NR : nth_error (r0 :: rs) 0 = Some r0) by reflexivity.
  destruct (Val _ _ _ NW NR) as (nd0 & P0 & _ & _ & G0).
  assert (Cross : forall i ui wi, nth_error us i = Some ui -> nth_error W i = Some wi -> ui * w0 = u0 * wi /\ wi = g * (wi / g)).
  { intros i ui wi Ni Nw. assert (X : (i < List.length (r0 :: rs))%nat) by (rewrite <- Len; apply nth_error_Some; congruence). destruct (nth_error (r0 :: rs) i) as [ri|] eqn:R; [|apply nth_error_None in R; lia].
    destruct (Val _ _ _ Nw R) as (nd & Pi & Wi & _ & Gi). split; [|exact Gi]. pose proof (Hu i 0%nat ui u0 ri r0 Ni R Nu NR) as H1. pose proof (Prop1 i 0%nat wi w0 ri r0 Nw R NW NR) as H2.
    pose proof (Forall_inv U) as U0. assert (Ui : usable ri) by (rewrite Forall_forall in U; apply U; apply nth_error_In with i; exact R).
    destruct ri as [|mi ei], r0 as [|m0 e0]; cbn [part in_proportion usable] in *; try contradiction. destruct Ui as (M1 & _). destruct U0 as (M2 & _).
    set (K := Z.abs ei + Z.abs e0). specialize (H1 K ltac:(lia) ltac:(lia) ltac:(lia)). specialize (H2 K ltac:(lia) ltac:(lia) ltac:(lia)).
    set (p := mi * 10 ^ (ei + K)) in *. set (q := m0 * 10 ^ (e0 + K)) in *.
    assert (Pp : 0 < p) by (unfold p; pose proof (@pow10 (ei + K) ltac:(lia)); nia). assert (Pq : 0 < q) by (unfold q; pose proof (@pow10 (e0 + K) ltac:(lia)); nia).
    rewrite Gi, G0. set (a := wi / g) in *. set (b := w0 / g) in *. apply Z.mul_reg_l with (q * p); [nia|].
    replace (q * p * (ui * (g * b))) with ((ui * q) * g * (b * p)) by ring. rewrite H1, <- H2. ring. }
  assert (Pu0 : 0 < u0) by (apply (Forall_inv Pu)).
  assert (Lus : List.length us = List.length W) by congruence.
  assert (Div : (w0 | u0 * g)).
  { apply Ug; [lia|exists u0; ring|]. apply Forall_forall. intros w I. apply In_nth_error in I. destruct I as (i & N). assert (NW' : nth_error W (S i) = Some w) by (rewrite EW; exact N).
    assert (X : (S i < List.length us)%nat) by (rewrite Lus; apply nth_error_Some; congruence). destruct (nth_error us (S i)) as [u|] eqn:Nu'; [|apply nth_error_None in Nu'; lia].
    destruct (Cross _ _ _ Nu' NW') as (C1 & _). exists u. lia. }
  destruct Div as (c & Hc). assert (Hc' : u0 = c * (w0 / g)) by (apply Z.mul_reg_r with g; [lia|]; rewrite Hc; rewrite G0 at 1; ring).
  assert (Cp : 0 < c) by nia.
  exists c. split; [exact Cp|]. apply list_ext_eq. intros i. rewrite !nth_error_map. destruct (nth_error us i) as [u|] eqn:Ni.
  - assert (X : (i < List.length W)%nat) by (rewrite <- Lus; apply nth_error_Some; congruence). destruct (nth_error W i) as [w|] eqn:Nw; [|apply nth_error_None in Nw; lia].
    destruct (Cross _ _ _ Ni Nw) as (C1 & C2). cbn [option_map]. f_equal. apply Z.mul_reg_r with w0; [lia|]. rewrite C1, Hc'.
    transitivity (c * (w0 / g) * (g * (w / g))); [rewrite <- C2; reflexivity|]. transitivity (c * (w / g) * (g * (w0 / g))); [ring|rewrite <- G0; reflexivity].
  - apply nth_error_None in Ni. rewrite (proj2 (nth_error_None W i)) by lia. reflexivity.
Qed.

Theorem C54_unusable_ratios_are_refused (ratios : list ratio) : ~ Forall usable ratios -> integer_ratio_weights ratios = Err ValueError.
Proof.
  intros H. unfold integer_ratio_weights. change (mapM _ ratios) with (mapM checked ratios).
  assert (E : mapM checked ratios = Err ValueError).
  { induction ratios as [|r l IH]; [exfalso; apply H; constructor|]. cbn [mapM]. destruct (usable_dec r) as [U|U].
    - destruct (proj1 (checked_ok r) U) as (nd & E & _). rewrite E. cbn [bind]. rewrite IH; [reflexivity|]. intros F. apply H. constructor; assumption.
    - rewrite (proj2 (checked_ok r) U). reflexivity. }
  rewrite E. reflexivity.
Qed.
(** 0.3 : 0.45 : 3.0 *)
Example C54_some_weights : integer_ratio_weights [Decimal 3 (-1); Decimal 45 (-2); Decimal 30 (-1)] = Ok [2; 3; 20].
Proof. vm_compute. reflexivity. Qed.
Example C54_some_weights_are_usable : Forall usable [Decimal 3 (-1); Decimal 45 (-2); Decimal 30 (-1)].
Proof. repeat constructor; cbn; try lia; [exists 10, 3, 1|exists 20, 9, 2|exists 1, 3, 1]; cbn; lia. Qed.
Example C54_too_fine : integer_ratio_weights [Decimal 1 0; Decimal 1 (-7)] = Err ValueError.
Proof. vm_compute. reflexivity. Qed.

(** ** C55: splitting a file *)
Lemma mapM_err (A B : Type) (f : A -> res B) e l : (forall a, In a l -> (exists b, f a = Ok b) \/ f a = Err e) -> (exists a, In a l /\ f a = Err e) -> mapM f l = Err e.
Proof.
  induction l as [|a l IH]; intros H (x & I & E); [destruct I|]. cbn [mapM]. destruct (H a (or_introl eq_refl)) as [(b & Hb)|Hb]; rewrite Hb; [|reflexivity]. cbn [bind].
  rewrite IH; [reflexivity|intros y Y; apply H; right; exact Y|]. destruct I as [->|I]; [congruence|]. exists x. auto.
Qed.
Section Split.
Variable row : Type.
Implicit Types arrays : list (ustr * list row).
Definition kept arrays (exclude : list ustr) := filter (fun a => negb (existsb (ustr_eqb (fst a)) exclude)) arrays.
(** The j-th row of an array in the f-th file came from this row of the input. *)
Definition origin (splits : nat) (shuffle : option (list nat)) (f j : nat) : nat :=
  match shuffle with None => (f + j * splits)%nat | Some perm => nth (f + j * splits) perm 0%nat end.
(** What was asked for can be done: every array is at least as long as the number of files, and shuffling gets a
    permutation of the common length. *)
Definition can_split arrays (splits : nat) (shuffle : option (list nat)) : Prop :=
  Forall (fun a => (splits <= List.length (snd a))%nat) arrays
  /\ forall perm, shuffle = Some perm -> exists n, Permutation perm (seq 0 n) /\ Forall (fun a => List.length (snd a) = n) arrays.
Lemma take_rows_ok (l : list row) perm : Forall (fun i => (i < List.length l)%nat) perm ->
  exists out, take_rows l perm = Ok out /\ List.length out = List.length perm /\ forall j i, nth_error perm j = Some i -> nth_error out j = nth_error l i.
Proof.
  unfold take_rows. induction 1 as [|i perm I _ IH]; cbn [mapM].
  - exists []. split; [reflexivity|]. split; [reflexivity|]. intros [|j] i; discriminate.
  - destruct IH as (out & E & Ln & N). unfold py_get at 1. destruct (nth_error l i) as [x|] eqn:X; [|apply nth_error_None in X; lia]. cbn [bind]. rewrite E. cbn [bind].
    exists (x :: out). split; [reflexivity|]. split; [cbn; congruence|]. intros [|j] k H; cbn in H; [injection H as <-; symmetry; exact X|apply N; exact H].
Qed.
Definition shuffled (n : nat) (shuffle : option (list nat)) (l out : list row) : Prop :=
  List.length out = List.length l /\ Permutation out l
  /\ forall j, (j < List.length out)%nat -> nth_error out j = nth_error l (match shuffle with None => j | Some perm => nth j perm 0%nat end).
Lemma take_perm (l : list row) perm : Permutation perm (seq 0 (List.length l)) -> exists out, take_rows l perm = Ok out /\ shuffled (List.length l) (Some perm) l out.
Proof.
  intros P. assert (F : Forall (fun i => (i < List.length l)%nat) perm) by (apply Forall_forall; intros i I; apply (Permutation_in _ P) in I; apply in_seq in I; lia).
  destruct (take_rows_ok F) as (out & E & Ln & N). exists out. split; [exact E|]. assert (Lp : List.length perm = List.length l) by (rewrite (Permutation_length P), seq_length; reflexivity).
  split; [lia|]. split.
  - clear F. destruct l as [|d l']; [destruct out; [constructor|cbn in *; lia]|]. set (l := d :: l') in *.
    assert (Eo : out = map (fun i => nth i l d) perm).
    { apply list_ext_eq. intros j. rewrite nth_error_map. destruct (nth_error perm j) as [i|] eqn:J; cbn [option_map].
      - rewrite (N _ _ J). apply nth_error_nth'. apply nth_error_In in J. apply (Permutation_in _ P) in J. apply in_seq in J. lia.
      - apply nth_error_None. apply nth_error_None in J. lia. }
    rewrite Eo. apply Permutation_trans with (map (fun i => nth i l d) (seq 0 (List.length l))); [apply Permutation_map; exact P|]. rewrite <- as_map. apply Permutation_refl.
  - intros j J. destruct (nth_error perm j) as [i|] eqn:Q; [|apply nth_error_None in Q; lia]. rewrite (N _ _ Q). f_equal. symmetry. apply nth_error_nth. exact Q.
Qed.
Lemma shuffle_ok arrays splits shuffle : can_split arrays splits shuffle -> arrays <> [] ->
  exists out, (match shuffle, arrays with
          | Some perm, a :: rest =>
              guard forallb (fun b => List.length (snd b) =? List.length (snd a))%nat rest else AssertionError ;;
              mapM (fun b => l <- take_rows (snd b) perm ;; Ok (fst b, l)) arrays
          | _, _ => Ok arrays
          end) = Ok out
    /\ Forall2 (fun a b => fst a = fst b /\ shuffled (List.length (snd a)) shuffle (snd a) (snd b)) arrays out.
Proof.
  intros (_ & P) NE. destruct shuffle as [perm|].
  - destruct (P perm eq_refl) as (n & Pn & Ln). destruct arrays as [|a rest] eqn:EA; [congruence|]. rewrite <- EA in *.
    replace (forallb _ rest) with true.
    2:{ symmetry. apply forallb_forall. intros b I. rewrite Forall_forall in Ln. apply Nat.eqb_eq. rewrite (Ln a), (Ln b); [reflexivity| |]; rewrite EA; [right; exact I|left; reflexivity]. }
    cbn [negb]. clear EA NE P. induction Ln as [|b l Lb _ IH]; [exists []; split; [reflexivity|constructor]|]. destruct IH as (out & E & F). cbn [mapM].
    destruct (@take_perm (snd b) perm) as (lb & Eb & Sb); [rewrite Lb; exact Pn|]. rewrite Eb. cbn [bind]. rewrite E. cbn [bind]. eexists. split; [reflexivity|]. constructor; [|exact F]. split; [reflexivity|exact Sb].
  - exists arrays. split; [destruct arrays; reflexivity|]. clear. induction arrays as [|a l IH]; constructor; [|exact IH]. split; [reflexivity|]. split; [reflexivity|]. split; [apply Permutation_refl|]. reflexivity.
Qed.
(** Every kept array is dealt out to the files: each file gets the same arrays, one row in [splits]; the same row
    numbers of every array stay together; over all files each row occurs as often as in the input; the files are as even as possible. *)
Theorem C55_rows_are_dealt_out arrays exclude (splits : nat) shuffle :
  (0 < splits)%nat -> can_split (kept arrays exclude) splits shuffle ->
  exists files, npz_split arrays exclude (Z.of_nat splits) shuffle = Ok files /\ List.length files = splits
    /\ Forall (fun file => map fst file = map fst (kept arrays exclude)) files
    /\ forall k name rows, nth_error (kept arrays exclude) k = Some (name, rows) ->
         Permutation (flat_map (fun file => match nth_error file k with Some (_, chunk) => chunk | None => [] end) files) rows
         /\ forall f file, nth_error files f = Some file -> exists chunk, nth_error file k = Some (name, chunk)
              /\ (List.length rows / splits <= List.length chunk <= List.length rows / splits + 1)%nat
              /\ forall j, (j < List.length chunk)%nat -> nth_error chunk j = nth_error rows (origin splits shuffle f j).
Proof.
  intros P C. unfold npz_split. fold (kept arrays exclude). set (ks := kept arrays exclude) in *.
  assert (E1 : exists u, mapM (fun a : ustr * list row => guard Z.of_nat splits <=? zlen (snd a) else AssertionError ;; guard negb (Z.of_nat splits =? 0) else ValueError ;; Ok tt) ks = Ok u).
  { destruct C as (C & _). apply ComposerFacts.mapM_all_ok. intros a I. rewrite Forall_forall in C. specialize (C a I). exists tt. unfold zlen.
    replace (Z.of_nat splits <=? Z.of_nat (List.length (snd a))) with true by lia. replace (Z.of_nat splits =? 0) with false by lia. reflexivity. }
  destruct E1 as (u & E1). rewrite E1. cbn [bind].
  assert (E2 : exists out, (match shuffle, ks with
          | Some perm, a :: rest =>
              guard forallb (fun b => List.length (snd b) =? List.length (snd a))%nat rest else AssertionError ;;
              mapM (fun b => l <- take_rows (snd b) perm ;; Ok (fst b, l)) ks
          | _, _ => Ok ks
          end) = Ok out
    /\ Forall2 (fun a b => fst a = fst b /\ shuffled (List.length (snd a)) shuffle (snd a) (snd b)) ks out).
  { destruct ks as [|a rest]; [exists []; split; [destruct shuffle; reflexivity|constructor]|]. apply (@shuffle_ok (a :: rest) splits); [exact C|discriminate]. }
  destruct E2 as (out & E2 & F). rewrite E2. cbn [bind]. rewrite Nat2Z.id. eexists. split; [reflexivity|]. split; [rewrite map_length, seq_length; reflexivity|]. split.
  - apply Forall_forall. intros file I. apply in_map_iff in I. destruct I as (idx & <- & _). rewrite map_map. cbn [fst]. clear - F. induction F as [|a b l m (H & _) _ IH]; [reflexivity|]. cbn [map]. rewrite IH, H. reflexivity.
  - intros k name rows N. assert (exists out_k, nth_error out k = Some (name, out_k) /\ shuffled (List.length rows) shuffle rows out_k) as (ok & No & So).
    { clear - F N. revert k N. induction F as [|a b l m (H & Hs) _ IH]; intros [|k] N; cbn in N; try discriminate; [|apply (IH k N)]. injection N as ->. cbn [fst snd] in *. destruct b as (nb, lb). cbn [fst snd] in *. subst nb. exists lb. auto. }
    split.
    + assert (Q : forall s, flat_map (fun file : list (ustr * list row) => match nth_error file k with Some (_, chunk) => chunk | None => [] end)
          (map (fun idx => map (fun a => (fst a, strided (snd a) idx splits)) out) s) = flat_map (fun idx => strided ok idx splits) s).
      { induction s as [|x s IH]; [reflexivity|]. cbn [map flat_map]. rewrite IH, nth_error_map, No. reflexivity. }
      rewrite Q. eapply Permutation_trans; [apply strided_perm; exact P|]. apply So.
    + intros f file Nf. rewrite nth_error_map in Nf. destruct (nth_error (seq 0 splits) f) as [idx|] eqn:Nx; [|discriminate]. assert (X : (f < splits)%nat) by (rewrite <- (seq_length splits 0); apply nth_error_Some; congruence).
      apply nth_error_nth with (d := 0%nat) in Nx. rewrite seq_nth in Nx by exact X. cbn [Nat.add] in Nx. subst idx. cbn [option_map] in Nf. injection Nf as <-.
      exists (strided ok f splits). split; [rewrite nth_error_map, No; reflexivity|]. destruct So as (Ls & _ & Hs). split.
      * rewrite strided_length by lia. rewrite Ls. split; [apply Nat.div_le_mono; lia|]. replace (List.length rows / splits + 1)%nat with ((List.length rows + 1 * splits) / splits)%nat by (apply Nat.div_add; lia). apply Nat.div_le_mono; lia.
      * intros j J. apply nth_error_Some in J. rewrite strided_nth in * by exact P. apply nth_error_Some in J. rewrite (Hs _ J). unfold origin. destruct shuffle; reflexivity.
Qed.
(** Requests that cannot be met are refused before anything is written. *)
Theorem C55_short_arrays_are_refused arrays exclude splits shuffle :
  Exists (fun a => zlen (snd a) < splits) (kept arrays exclude) -> 0 < splits -> npz_split arrays exclude splits shuffle = Err AssertionError.
Proof.
  intros H P. unfold npz_split. fold (kept arrays exclude). match goal with |- bind ?m _ = _ => assert (E : m = Err AssertionError) end; [|rewrite E; reflexivity].
  apply mapM_err; [intros a _|].
  - replace (splits =? 0) with false by lia. destruct (splits <=? zlen (snd a)); [left; exists tt; reflexivity|right; reflexivity].
  - apply Exists_exists in H. destruct H as (a & I & L). exists a. split; [exact I|]. replace (splits <=? zlen (snd a)) with false by lia. reflexivity.
Qed.
(** Finding F31: a negative number of files is accepted, and nothing at all is written. *)
Theorem C55_negative_splits_lose_everything arrays exclude splits : splits < 0 -> npz_split arrays exclude splits None = Ok [].
Proof.
  intros P. unfold npz_split. fold (kept arrays exclude). match goal with |- bind ?m _ = _ => assert (E : exists u, m = Ok u) end.
  { apply ComposerFacts.mapM_all_ok. intros a _. exists tt. pose proof (zlen_nonneg (snd a)). replace (splits <=? zlen (snd a)) with true by lia. replace (splits =? 0) with false by lia. reflexivity. }
  destruct E as (u & E). rewrite E. cbn [bind]. assert (Z.to_nat splits = 0%nat) by lia. rewrite H. destruct (kept arrays exclude); reflexivity.
Qed.
End Split.
(** The files have different names, and none is the input. *)
Theorem C55_file_names_are_distinct name ext i j : make_filename name ext i = make_filename name ext j -> i = j.
Proof.
  unfold make_filename. intros E. apply app_inv_head in E. cbn [app] in E. change (ulit "_" ++ ?x) with (95 :: x) in E. injection E as E. rewrite !app_assoc in E. apply app_inv_tail in E.
  assert (V : forall n d, digits_value (repeat 48 n ++ d) = digits_value d).
  { intros n d. induction n as [|n IH]; [reflexivity|]. cbn [repeat app]. exact IH. }
  apply (f_equal digits_value) in E. rewrite !V in E. pose proof (proj1 (@digits_ok (Z.of_nat i) ltac:(lia))). pose proof (proj1 (@digits_ok (Z.of_nat j) ltac:(lia))). lia.
Qed.
Theorem C55_the_input_is_not_overwritten name ext i : make_filename name ext i <> name ++ ext.
Proof.
  unfold make_filename. intros E. apply app_inv_head in E. apply (f_equal (@List.length _)) in E. rewrite !app_length in E. cbn in E. lia.
Qed.
Example C55_two_files :
  npz_split [(ulit "a", [0; 1; 2; 3; 4]); (ulit "skip", [9]); (ulit "b", [10; 11; 12; 13; 14])] [ulit "skip"] 2 (Some [4; 0; 3; 1; 2]%nat)
  = Ok [[(ulit "a", [4; 3; 2]); (ulit "b", [14; 13; 12])]; [(ulit "a", [0; 1]); (ulit "b", [10; 11])]].
Proof. vm_compute. reflexivity. Qed.
Example C55_two_files_can_be_split : can_split (kept [(ulit "a", [0; 1; 2; 3; 4]); (ulit "skip", [9]); (ulit "b", [10; 11; 12; 13; 14])] [ulit "skip"]) 2 (Some [4; 0; 3; 1; 2]%nat).
Proof.
  split; [vm_compute; repeat constructor|]. intros perm [= <-]. exists 5%nat. split; [|vm_compute; repeat constructor].
  apply NoDup_Permutation; [repeat constructor; cbn; intuition lia|apply seq_NoDup|]. intros x. cbn. intuition lia.
Qed.
Example C55_a_name : make_filename (ulit "data") (ulit ".npz") 12 = ulit "data_0012.npz".
Proof. vm_compute. reflexivity. Qed.
