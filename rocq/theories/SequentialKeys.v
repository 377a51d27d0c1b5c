(** Record identities of the sequential source: keys, the identity check of
    materialisation, the digest encoding; and splitting a stream by file. *)
From Verif Require Import Base BaseFacts Rng RngFacts Source Composite NpzSpec NpzFacts.
From Verif Require Import Sequential SequentialSpec.
Set Implicit Arguments.
Unset Strict Implicit.

Lemma seq_key_inj s f f' cycle cycle' k k' sub sub' :
  seq_key s f cycle k sub = seq_key s f' cycle' k' sub' ->
  q_key f = q_key f' /\ cycle = cycle' /\ k = k' /\ (f_count (q_format s) <> None -> sub = sub').
Proof.
  unfold seq_key. destruct (f_count (q_format s));
    destruct (Z.eqb_spec cycle 0) as [E|E]; destruct (Z.eqb_spec cycle' 0) as [E'|E'];
    intros H; inversion H; conj; congruence.
Qed.

Lemma seq_identify_envelope s i f cycle a raw k code sub :
  nth_error (q_files s) i = Some f ->
  seq_identify s (seq_envelope s i f cycle a raw k code sub)
  = Ok (raw, a, match f_count (q_format s) with None => None | Some _ => Some sub end).
Proof.
  intros Hf. unfold seq_identify, seq_envelope. cbn [e_source_id e_key e_payload y_sub y_raw y_epoch].
  replace (0 <=? Z.of_nat i) with true by lia. rewrite Nat2Z.id, Hf. unfold seq_key at 1.
  destruct (f_count (q_format s)) as [cnt|] eqn:Ec; destruct (Z.eqb_spec cycle 0) as [E|E].
  - change (zlen [KInt k; KInt sub] =? 2) with true. cbn match. cbn [key_eqb hd_error].
    change (0 =? 0) with true. cbn match. cbn [Bool.eqb].
    cbn [hd_error tl]. unfold seq_key. rewrite Ec. replace (cycle =? 0) with true by lia. rewrite key_eqb_refl. reflexivity.
  - change (zlen [KInt cycle; KInt k; KInt sub] =? 2) with false. cbn match. cbn [key_eqb hd_error].
    replace (cycle =? 0) with false by lia. cbn [tl hd_error]. cbn [Bool.eqb].
    cbn [hd_error tl]. unfold seq_key. rewrite Ec. replace (cycle =? 0) with false by lia. rewrite key_eqb_refl. reflexivity.
  - change (zlen [KInt k] =? 1) with true. cbn match. cbn [key_eqb hd_error].
    change (0 =? 0) with true. cbn match. cbn [Bool.eqb].
    cbn [hd_error tl]. unfold seq_key. rewrite Ec. replace (cycle =? 0) with true by lia. rewrite key_eqb_refl. reflexivity.
  - change (zlen [KInt cycle; KInt k] =? 1) with false. cbn match. cbn [key_eqb hd_error].
    replace (cycle =? 0) with false by lia. cbn [tl hd_error]. cbn [Bool.eqb].
    cbn [hd_error tl]. unfold seq_key. rewrite Ec. replace (cycle =? 0) with false by lia. rewrite key_eqb_refl. reflexivity.
Qed.

(** What a record of a file looks like. *)
Lemma entries_records_in header hash64 s cycle a file f : forall es entry e,
  In e (entries_records header hash64 s cycle a file f entry es) ->
  exists k raw sub, nth_error es k = Some raw /\ 0 <= sub < entry_count s raw
    /\ e = seq_envelope s file f cycle a raw (entry + Z.of_nat k) (entry_code s raw) sub.
Proof.
  induction es as [|raw es IH]; intros entry e H; cbn in H; [contradiction|].
  apply in_app_or in H. destruct H as [H|H].
  - unfold entry_records in H. apply in_map_iff in H as (sub & <- & Hs). apply filter_In in Hs as [Hs _].
    apply zrows_In in Hs. exists 0%nat, raw, sub. conj; auto; try lia. f_equal. lia.
  - destruct (IH _ _ H) as (k & raw' & sub & H1 & H2 & H3). exists (S k), raw', sub. conj; auto; try lia.
    rewrite H3. f_equal. lia.
Qed.

(** *** Digest *)
Lemma pack_u64_Ok v b : pack_u64 v = Ok b -> 0 <= v < two64 /\ b = le_bytes 8 v.
Proof. unfold pack_u64. intros H. apply guard_Ok in H as [H1 H]. inversion H. split; [lia|reflexivity]. Qed.

Lemma le_bytes_inj_u64 a b : 0 <= a < two64 -> 0 <= b < two64 -> le_bytes 8 a = le_bytes 8 b -> a = b.
Proof.
  intros Ha Hb H. apply le_bytes_inj in H. unfold two64 in *.
  change (256 ^ Z.of_nat 8) with (2 ^ 64) in H. rewrite !Z.mod_small in H by lia. exact H.
Qed.

Lemma app_eq_length {A} (a b c d : list A) : List.length a = List.length b -> a ++ c = b ++ d -> a = b /\ c = d.
Proof.
  revert b; induction a as [|x a IH]; intros [|y b] Hl H; cbn in *; try discriminate; [auto|].
  inversion H; subst. destruct (IH b) as [-> ->]; auto.
Qed.

Definition pack_address (v : key) : res bytes :=
  match as_int v with Some z => pack_u64 z | None => Err ValueError end.

Lemma pack_address_inj : forall l1 l2 b1 b2 (r1 r2 : bytes),
  mapM pack_address l1 = Ok b1 -> mapM pack_address l2 = Ok b2 -> List.length l1 = List.length l2 ->
  List.concat b1 ++ r1 = List.concat b2 ++ r2 -> l1 = l2 /\ r1 = r2.
Proof.
  induction l1 as [|x l1 IH]; intros [|y l2] b1 b2 r1 r2 H1 H2 Hl E; cbn in *; try discriminate.
  - inversion H1; inversion H2; subst. auto.
  - inv_bind H1. inv_bind H1. inversion H1; subst. inv_bind H2. inv_bind H2. inversion H2; subst.
    unfold pack_address in Hm, Hm1.
    destruct x as [| |x| | |]; try discriminate. destruct y as [| |y| | |]; try discriminate.
    cbn in Hm, Hm1. apply pack_u64_Ok in Hm as [B1 ->]. apply pack_u64_Ok in Hm1 as [B2 ->].
    cbn [List.concat] in E. rewrite <- !app_assoc in E.
    apply app_eq_length in E as [E1 E2]; [|rewrite !le_bytes_length; reflexivity].
    apply le_bytes_inj_u64 in E1; auto. subst.
    destruct (IH l2 _ _ r1 r2 Hm0 Hm2) as [-> ->]; auto.
Qed.

Lemma seq_key_digest_Ok s k b : seq_key_digest s k = Ok b ->
  exists file_key address body idlen,
    k = KTuple [str "sequential"; KBytes file_key; KStr (f_id (q_format s)); KTuple address]
    /\ zlen file_key = 32 /\ 0 <= zlen address <= 3
    /\ pack_u32 (zlen (f_id (q_format s))) = Ok idlen
    /\ mapM pack_address address = Ok body
    /\ b = seq_key_magic ++ idlen ++ f_id (q_format s) ++ file_key
           ++ le_bytes 4 (zlen address) ++ List.concat body.
Proof.
  unfold seq_key_digest.
  destruct k as [| | | | |l]; try discriminate.
  destruct l as [|k0 [|k1 [|k2 [|k3 [|k4 l]]]]]; try discriminate;
    try (destruct k1; try discriminate); try (destruct k2; try discriminate);
    try (destruct k3; try discriminate).
  intros H. apply guard_Ok in H as [Hg H]. inv_bind H. inv_bind H. inversion H; subst.
  repeat (apply andb_true_iff in Hg as [Hg ?]).
  exists b0, l, v0, v. conj; auto.
  - destruct k0; try discriminate. cbn in Hg. apply zlist_eqb_eq in Hg. apply zlist_eqb_eq in H3.
    subst. reflexivity.
  - lia.
  - apply zlen_nonneg.
  - destruct (f_count (q_format s)); lia.
Qed.

(** The digest bytes are prefix-free: equal streams start with equal keys. *)
Lemma seq_key_digest_inj s k1 k2 b1 b2 (r1 r2 : bytes) :
  seq_key_digest s k1 = Ok b1 -> seq_key_digest s k2 = Ok b2 -> b1 ++ r1 = b2 ++ r2 ->
  k1 = k2 /\ r1 = r2.
Proof.
  intros H1 H2 E.
  apply seq_key_digest_Ok in H1 as (f1 & a1 & body1 & n1 & -> & L1 & A1 & P1 & M1 & ->).
  apply seq_key_digest_Ok in H2 as (f2 & a2 & body2 & n2 & -> & L2 & A2 & P2 & M2 & ->).
  rewrite P1 in P2. inversion P2; subst n2.
  rewrite <- !app_assoc in E. apply app_inv_head in E. apply app_inv_head in E. apply app_inv_head in E.
  apply app_eq_length in E as [E1 E]; [|unfold zlen in *; lia]. subst f2.
  apply app_eq_length in E as [E1 E]; [|rewrite !le_bytes_length; reflexivity].
  apply le_bytes_inj_u32 in E1; [|lia|lia].
  destruct (@pack_address_inj a1 a2 body1 body2 r1 r2 M1 M2) as [-> ->]; auto.
  unfold zlen in E1. lia.
Qed.

Lemma seq_key_digest_total s f cycle k sub :
  zlen (q_key f) = 32 -> zlen (f_id (q_format s)) < 2 ^ 32 ->
  0 <= cycle < 2 ^ 64 -> 0 <= k < 2 ^ 64 -> 0 <= sub < 2 ^ 64 ->
  exists b, seq_key_digest s (seq_key s f cycle k sub) = Ok b.
Proof.
  intros H1 H2 H3 H4 H5. unfold seq_key_digest, seq_key.
  rewrite key_eqb_refl. assert (Hr : zlist_eqb (f_id (q_format s)) (f_id (q_format s)) = true)
    by (apply zlist_eqb_eq; reflexivity). rewrite Hr, H1. change (32 =? 32) with true. cbn [andb].
  unfold pack_u32. pose proof (zlen_nonneg (f_id (q_format s))).
  replace ((0 <=? zlen (f_id (q_format s))) && (zlen (f_id (q_format s)) <? 2 ^ 32)) with true by lia.
  assert (Hp : forall v, 0 <= v < 2 ^ 64 -> pack_u64 v = Ok (le_bytes 8 v)).
  { intros v Hv. unfold pack_u64, two64. replace ((0 <=? v) && (v <? 2 ^ 64)) with true by lia. reflexivity. }
  destruct (f_count (q_format s)); destruct (Z.eqb_spec cycle 0) as [E|E];
    cbn [forallb as_int mapM]; rewrite !Hp by lia;
    repeat match goal with |- context [0 <=? ?x] => replace (0 <=? x) with true by lia end;
    cbn [andb bind]; eexists; reflexivity.
Qed.

(** *** A stream is the disjoint union of its per-file parts *)
Lemma split_by_file (order : list nat) : NoDup order -> forall l : list (envelope seq_payload),
  Forall (fun e => exists g, In g order /\ e_source_id e = Z.of_nat g) l ->
  Permutation l (flat_map (fun g => from_file g l) order).
Proof.
  intros Hnd. induction l as [|e l IH]; intros H.
  - assert (E : flat_map (fun g => from_file g []) order = []); [|rewrite E; constructor].
    clear. induction order; cbn; auto.
  - inversion H as [|x xs (g & Hg & Hs) Hl]; subst. specialize (IH Hl). rewrite IH at 1. clear IH H Hl.
    revert g Hg Hs. induction Hnd as [|h order Hh Hnd IH]; intros g Hg Hs; [destruct Hg|].
    cbn [flat_map]. unfold from_file at 3. cbn [filter]. rewrite Hs.
    destruct (Z.eqb_spec (Z.of_nat g) (Z.of_nat h)) as [E|E].
    + assert (g = h) by lia. subst h. cbn [app]. constructor. fold (from_file g l).
      apply Permutation_app_head.
      assert (E2 : flat_map (fun g0 => from_file g0 (e :: l)) order = flat_map (fun g0 => from_file g0 l) order).
      { rewrite !flat_map_concat_map. f_equal. apply map_ext_in. intros x Hx. unfold from_file. cbn [filter]. rewrite Hs.
        destruct (Z.eqb_spec (Z.of_nat g) (Z.of_nat x)) as [E2|]; [|reflexivity].
        exfalso. apply Hh. assert (g = x) by lia. congruence. }
      rewrite E2. reflexivity.
    + fold (from_file h l). destruct Hg as [->|Hg]; [lia|].
      rewrite <- (IH g Hg Hs). apply Permutation_middle.
Qed.
