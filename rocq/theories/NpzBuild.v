(** Construction of NPZ sources and record-id resolution. *)
From Verif Require Import Base BaseFacts Rng RngFacts Source Composite CompositeSim Npz NpzSpec NpzFacts NpzRead.
Set Implicit Arguments.

(** The files of a source tile [begin, total). *)
Fixpoint contiguous (begin : Z) (ds : list file_desc) (total : Z) : Prop :=
  match ds with
  | [] => total = begin
  | d :: rest => d_begin d = begin /\ 0 <= d_count d /\ contiguous (begin + d_count d) rest total
  end.

Lemma contiguous_le ds : forall begin total, contiguous begin ds total -> begin <= total.
Proof.
  induction ds as [|d ds IH]; intros begin total H; cbn in H; [lia|].
  destruct H as [H1 [H2 H3]]. apply IH in H3. lia.
Qed.

Lemma contiguous_nth ds : forall begin total i d,
  contiguous begin ds total -> nth_error ds i = Some d ->
  d_begin d = begin + zsum (map d_count (firstn i ds)) /\ 0 <= d_count d
  /\ begin <= d_begin d /\ d_begin d + d_count d <= total.
Proof.
  induction ds as [|x ds IH]; intros begin total i d H E; [destruct i; discriminate|].
  cbn in H. destruct H as [H1 [H2 H3]]. destruct i as [|i].
  - cbn in E. inversion E; subst. apply contiguous_le in H3. cbn. conj; lia.
  - cbn in E. destruct (IH _ _ _ _ H3 E) as [A [B [C D]]]. cbn [firstn map].
    rewrite zsum_cons. conj; lia.
Qed.

Arguments contiguous_nth {ds begin total i d} _ _.

Lemma contiguous_order ds begin total i j d e :
  contiguous begin ds total -> nth_error ds i = Some d -> nth_error ds j = Some e ->
  (i < j)%nat -> d_begin d + d_count d <= d_begin e.
Proof.
  revert begin i j. induction ds as [|x ds IH]; intros begin i j H Ei Ej Hij; [destruct i; discriminate|].
  cbn in H. destruct H as [H1 [H2 H3]]. destruct j as [|j]; [lia|]. destruct i as [|i].
  - cbn in Ei. inversion Ei; subst x. cbn in Ej.
    destruct (contiguous_nth H3 Ej) as [_ [_ [A _]]]. lia.
  - cbn in Ei, Ej. eapply IH; eauto. lia.
Qed.

(** bisect_right on a non-decreasing list. *)
Lemma bisect_loop_spec l x : 
  (forall i j a b, (i <= j)%nat -> nth_error l i = Some a -> nth_error l j = Some b -> a <= b) ->
  forall fuel lo hi, (hi - lo < fuel)%nat -> (lo <= hi <= List.length l)%nat ->
  (forall i a, (i < lo)%nat -> nth_error l i = Some a -> a <= x) ->
  (forall i a, (hi <= i)%nat -> nth_error l i = Some a -> x < a) ->
  exists r, bisect_loop fuel l x lo hi = Ok r /\ (r <= List.length l)%nat
    /\ (forall i a, (i < r)%nat -> nth_error l i = Some a -> a <= x)
    /\ (forall i a, (r <= i)%nat -> nth_error l i = Some a -> x < a).
Proof.
  intros Hs. induction fuel as [|fuel IH]; intros lo hi Hf Hb Hlo Hhi; [lia|].
  cbn [bisect_loop]. destruct (Nat.ltb_spec lo hi) as [Hlt|Hge].
  - assert (Hm : (lo <= (lo + hi) / 2 < hi)%nat).
    { split; [apply Nat.div_le_lower_bound; lia|apply Nat.div_lt_upper_bound; lia]. }
    set (mid := ((lo + hi) / 2)%nat) in *.
    destruct (nth_error l mid) as [v|] eqn:E; [|apply nth_error_None in E; lia].
    unfold py_get. rewrite E. cbn [bind]. destruct (Z.ltb_spec x v).
    + apply IH; [lia|lia|auto|]. intros i a Hi Ei. pose proof (Hs mid i v a Hi E Ei). lia.
    + apply IH; [lia|lia| |auto]. intros i a Hi Ei. pose proof (Hs i mid a v ltac:(lia) Ei E). lia.
  - assert (lo = hi) by lia. subst hi. exists lo. conj; auto. lia.
Qed.

Lemma bisect_right_spec l x :
  (forall i j a b, (i <= j)%nat -> nth_error l i = Some a -> nth_error l j = Some b -> a <= b) ->
  exists r, bisect_right l x = Ok r /\ (r <= List.length l)%nat
    /\ (forall i a, (i < r)%nat -> nth_error l i = Some a -> a <= x)
    /\ (forall i a, (r <= i)%nat -> nth_error l i = Some a -> x < a).
Proof.
  intros Hs. unfold bisect_right. apply bisect_loop_spec; auto; try lia.
  intros i a Hi E. assert (nth_error l i <> None) by congruence. apply nth_error_Some in H. lia.
Qed.

Section Resolve.
  Variable n : npz.
  Variable total : Z.
  Hypothesis Hc : contiguous 0 (n_files n) total.

  Lemma begins_sorted : forall i j a b, (i <= j)%nat ->
    nth_error (map d_begin (n_files n)) i = Some a -> nth_error (map d_begin (n_files n)) j = Some b -> a <= b.
  Proof.
    intros i j a b Hij Ha Hb. rewrite nth_error_map in Ha, Hb.
    destruct (nth_error (n_files n) i) as [d|] eqn:Ei; [|discriminate].
    destruct (nth_error (n_files n) j) as [e|] eqn:Ej; [|discriminate].
    cbn in Ha, Hb. inversion Ha; inversion Hb; subst.
    destruct (Nat.eq_dec i j) as [->|Hne]; [rewrite Ei in Ej; inversion Ej; subst; lia|].
    pose proof (@contiguous_order _ _ _ i j d e Hc Ei Ej ltac:(lia)).
    destruct (contiguous_nth Hc Ei) as [_ [? _]]. lia.
  Qed.

  Lemma find_file id i d : nth_error (n_files n) i = Some d -> 0 <= id - d_begin d < d_count d ->
    bisect_right (map d_begin (n_files n)) id = Ok (S i).
  Proof.
    intros Ei Hr. destruct (@bisect_right_spec (map d_begin (n_files n)) id begins_sorted) as [r [R1 [R2 [R3 R4]]]].
    rewrite R1. f_equal.
    assert (i < r)%nat.
    { destruct (Nat.lt_ge_cases i r); auto. assert (id < d_begin d) by (eapply R4; eauto; rewrite nth_error_map, Ei; reflexivity). lia. }
    destruct (Nat.eq_dec r (S i)) as [|Hne]; auto.
    rewrite map_length in R2.
    destruct (nth_error (n_files n) (S i)) as [e|] eqn:Ee; [|apply nth_error_None in Ee; lia].
    assert (d_begin e <= id) by (apply (R3 (S i)); [lia|rewrite nth_error_map, Ee; reflexivity]).
    pose proof (@contiguous_order _ _ _ i (S i) d e Hc Ei Ee ltac:(lia)). lia.
  Qed.

  Lemma resolve_in i d r : nth_error (n_files n) i = Some d -> 0 <= r < d_count d ->
    resolve n (d_begin d + r) = Ok (d, r).
  Proof.
    intros Ei Hr. unfold resolve. rewrite (@find_file _ i d Ei) by lia. cbn [bind].
    unfold py_get. rewrite Ei. cbn [bind].
    replace (d_begin d + r - d_begin d) with r by lia.
    replace ((0 <=? r) && (r <? d_count d)) with true by lia. reflexivity.
  Qed.

  Lemma bisect_out id : ~ (0 <= id < total) ->
    exists i, bisect_right (map d_begin (n_files n)) id = Ok i /\ (i <= List.length (n_files n))%nat
      /\ (i = 0%nat \/ exists j d, i = S j /\ nth_error (n_files n) j = Some d /\ d_count d <= id - d_begin d
                                   /\ 0 <= id).
  Proof.
    intros Hout. destruct (@bisect_right_spec (map d_begin (n_files n)) id begins_sorted) as [r [R1 [R2 [R3 R4]]]].
    rewrite map_length in R2. exists r. conj; auto.
    destruct r as [|j]; auto. right.
    destruct (nth_error (n_files n) j) as [d|] eqn:Ej; [|apply nth_error_None in Ej; lia].
    exists j, d. destruct (contiguous_nth Hc Ej) as [_ [A [B C]]].
    assert (d_begin d <= id) by (apply (R3 j); [lia|rewrite nth_error_map, Ej; reflexivity]).
    conj; auto; lia.
  Qed.

  Lemma resolve_out id : ~ (0 <= id < total) -> resolve n id = Err ValueError.
  Proof.
    intros Hout. unfold resolve. destruct (bisect_out Hout) as [i [-> [_ [->|[j [d [-> [Ej [Hd _]]]]]]]]]; cbn [bind]; auto.
    unfold py_get. rewrite Ej. cbn [bind].
    replace ((0 <=? id - d_begin d) && (id - d_begin d <? d_count d)) with false by lia. reflexivity.
  Qed.

  Lemma id_in_some_file id : 0 <= id < total ->
    exists i d, nth_error (n_files n) i = Some d /\ 0 <= id - d_begin d < d_count d.
  Proof.
    intros Hid. revert Hc. generalize (n_files n). intros ds.
    assert (G : forall begin, contiguous begin ds total -> begin <= id ->
      exists i d, nth_error ds i = Some d /\ 0 <= id - d_begin d < d_count d).
    { induction ds as [|d ds IH]; intros begin H Hb; cbn in H; [lia|].
      destruct H as [H1 [H2 H3]]. destruct (Z_lt_ge_dec id (begin + d_count d)).
      - exists 0%nat, d. cbn. split; auto. lia.
      - destruct (IH _ H3 ltac:(lia)) as [i [e He]]. exists (S i), e. exact He. }
    intros H. eapply G; eauto. lia.
  Qed.

  Lemma resolve_total id : 0 <= id < total ->
    exists i d, nth_error (n_files n) i = Some d /\ resolve n id = Ok (d, id - d_begin d)
      /\ 0 <= id - d_begin d < d_count d.
  Proof.
    intros Hid. destruct (id_in_some_file Hid) as [i [d [Ei Hr]]]. exists i, d. split; [exact Ei|]. split; [|exact Hr].
    rewrite <- (@resolve_in i d (id - d_begin d)) by auto. f_equal. lia.
  Qed.
End Resolve.

(** ** Dense construction *)
Lemma existsb_seen x l : existsb (Z.eqb x) l = false -> ~ In x l.
Proof.
  intros H Hin. assert (existsb (Z.eqb x) l = true); [|congruence].
  apply existsb_exists. exists x. split; auto. apply Z.eqb_refl.
Qed.

Definition describes (shapes : list shape) (c : dense_catalog) (d : file_desc) : Prop :=
  d_path d = dc_path c /\ d_ordinal d = dc_ordinal c /\ d_sha d = dc_sha c
  /\ d_count d = dc_count c /\ d_rows d = None
  /\ exists k, d_shape d = inl (Z.of_nat k) /\ nth_error shapes k = Some (dc_shape c).

Lemma dense_descriptors_spec shapes cats : forall begin seen ds total,
  0 <= begin ->
  dense_descriptors shapes begin seen cats = Ok (ds, total) ->
  contiguous begin ds total /\ Forall2 (describes shapes) cats ds /\ Forall file_ok ds
  /\ NoDup (map d_ordinal ds) /\ Forall (fun d => 0 <= d_ordinal d /\ zlen (d_sha d) = 32) ds
  /\ (forall o, In o (map d_ordinal ds) -> ~ In o seen).
Proof.
  induction cats as [|c cats IH]; intros begin seen ds total Hb H; cbn [dense_descriptors] in H.
  - inversion H; subst. cbn. conj; auto using NoDup_nil.
  - apply guard_Ok in H as [G1 H]. apply guard_Ok in H as [G2 H]. apply guard_Ok in H as [G3 H].
    inv_bind H. rename Hm into Hcode. inv_bind H. destruct v0 as [ds' total']. inversion H; subst.
    apply IH in Hm as [A [B [C [D [E F]]]]]; [|lia].
    assert (Hns : ~ In (dc_ordinal c) seen) by (apply existsb_seen; destruct (existsb _ seen); auto; lia).
    cbn [contiguous map d_begin d_count d_ordinal].
    assert (Hfo : forall code, file_ok {| d_path := dc_path c; d_ordinal := dc_ordinal c; d_sha := dc_sha c;
      d_count := dc_count c; d_begin := begin; d_rows := None; d_shape := inl code |}).
    { intros code. unfold file_ok; cbn. conj; try lia; intros; discriminate. }
    conj; auto; try lia.
    + constructor; auto. unfold describes; cbn. conj; auto.
      unfold shape_code in Hcode. destruct (index_of (dc_shape c) shapes) as [k|] eqn:K; [|discriminate].
      inversion Hcode; subst. exists k. split; auto. apply index_of_Some; auto.
    + constructor; auto. intros Hin. apply (F _ Hin). left; reflexivity.
    + constructor; auto. cbn. lia.
    + intros o [<-|Ho]; auto. intros Hin. apply (F _ Ho). right; auto.
Qed.

Lemma make_dense_spec cats seed shuffle num den n :
  make_dense cats seed shuffle num den = Ok n ->
  n_kind n = Dense /\ n_seed n = seed /\ n_shuffle n = shuffle /\ n_num n = num /\ n_den n = den
  /\ n_world n = 1 /\ n_rank n = 0 /\ n_sharded n = false
  /\ 0 < den /\ 0 <= num <= den /\ n_total n < two64
  /\ contiguous 0 (n_files n) (n_total n)
  /\ Forall2 (describes (n_shapes n)) cats (n_files n) /\ Forall file_ok (n_files n)
  /\ NoDup (map d_ordinal (n_files n))
  /\ Forall (fun d => 0 <= d_ordinal d /\ zlen (d_sha d) = 32) (n_files n).
Proof.
  unfold make_dense. intros H. apply guard_Ok in H as [G1 H]. apply guard_Ok in H as [G2 H].
  inv_bind H. destruct v as [ds total]. apply guard_Ok in H as [G3 H]. inversion H; subst; cbn.
  apply dense_descriptors_spec in Hm as [A [B [C [D [E F]]]]]; [|lia].
  conj; auto; lia.
Qed.

Lemma Forall2_count cats ds shapes : Forall2 (describes shapes) cats ds -> map d_count ds = map dc_count cats.
Proof.
  induction 1 as [|c d cats ds H _ IH]; cbn; auto. destruct H as [_ [_ [_ [H _]]]]. congruence.
Qed.

Lemma Forall2_nth {A B} (R : A -> B -> Prop) l m : Forall2 R l m -> forall i a, nth_error l i = Some a ->
  exists b, nth_error m i = Some b /\ R a b.
Proof.
  induction 1 as [|a b l m H _ IH]; intros i x E; [destruct i; discriminate|].
  destruct i as [|i]; cbn in *; [inversion E; subst; eauto|auto].
Qed.

Lemma Forall2_nth_r {A B} (R : A -> B -> Prop) l m : Forall2 R l m -> forall i b, nth_error m i = Some b ->
  exists a, nth_error l i = Some a /\ R a b.
Proof.
  induction 1 as [|a b l m H _ IH]; intros i x E; [destruct i; discriminate|].
  destruct i as [|i]; cbn in *; [inversion E; subst; eauto|auto].
Qed.

(** ** Indexed construction *)
Lemma strictly_increasing_gap l : strictly_increasing l = true ->
  forall i j a b, (i <= j)%nat -> nth_error l i = Some a -> nth_error l j = Some b ->
  a + (Z.of_nat j - Z.of_nat i) <= b.
Proof.
  induction l as [|x l IH]; intros H i j a b Hij Ha Hb; [destruct i; discriminate|].
  destruct i as [|i].
  - cbn in Ha. inversion Ha; subst. destruct j as [|j].
    + cbn in Hb. inversion Hb; subst. lia.
    + cbn in Hb. destruct l as [|y l]; [destruct j; discriminate|].
      cbn [strictly_increasing] in H. apply andb_true_iff in H as [H1 H2].
      specialize (IH H2 0%nat j y b ltac:(lia) eq_refl Hb). lia.
  - destruct j as [|j]; [lia|]. cbn in Ha, Hb.
    assert (strictly_increasing l = true).
    { destruct l as [|y l]; auto. cbn [strictly_increasing] in H. apply andb_true_iff in H as [_ H2]; auto. }
    specialize (IH H0 i j a b ltac:(lia) Ha Hb). lia.
Qed.

Lemma nth_error_last {A} (l : list A) d : l <> [] -> nth_error l (List.length l - 1) = Some (last l d).
Proof.
  induction l as [|x l IH]; [congruence|]. intros _. destruct l as [|y l]; [reflexivity|].
  cbn [List.length last] in *. replace (S (S (List.length l)) - 1)%nat with (S (S (List.length l) - 1)) by lia.
  cbn [nth_error]. apply IH. discriminate.
Qed.

(** What the physical row of a logical row must be. *)
Definition catalog_row (c : indexed_catalog) (r : Z) : option Z :=
  match ic_rows c with None => Some r | Some l => nth_error l (Z.to_nat r) end.
Definition catalog_shape (c : indexed_catalog) (r : Z) : option shape :=
  match ic_shapes c with inl s => Some s | inr l => nth_error l (Z.to_nat r) end.

Definition describes_indexed (shapes : list shape) (c : indexed_catalog) (d : file_desc) : Prop :=
  d_path d = ic_path c /\ d_ordinal d = ic_ordinal c /\ d_sha d = ic_sha c
  /\ catalog_count c = Ok (d_count d)
  /\ forall r, 0 <= r < d_count d ->
       (exists p, physical_row d r = Ok p /\ catalog_row c r = Some p /\ 0 <= p < ic_physical c)
       /\ (exists k s, row_shape d r = Ok (Z.of_nat k) /\ nth_error shapes k = Some s
                      /\ catalog_shape c r = Some s).

Lemma compact_indices_spec c count rows : catalog_count c = Ok count -> count <> 0 ->
  compact_indices c count = Ok rows ->
  (forall l, rows = Some l -> zlen l = count)
  /\ forall r, 0 <= r < count ->
     exists p, (match rows with None => Ok r | Some l => py_get l (Z.to_nat r) end) = Ok p
               /\ catalog_row c r = Some p /\ 0 <= p < ic_physical c.
Proof.
  unfold catalog_count, compact_indices, catalog_row. intros Hcnt Hnz H.
  apply guard_Ok in Hcnt as [G Hcnt].
  destruct (ic_rows c) as [l|] eqn:El.
  - apply guard_Ok in Hcnt as [G2 Hcnt]. assert (Hlen : zlen l = count) by (inversion Hcnt; lia). clear Hcnt G2.
    apply guard_Ok in H as [G3 H]. apply guard_Ok in H as [G4 H].
    apply andb_true_iff in G3 as [G3 G5]. rewrite forallb_forall in G3.
    assert (Hne : l <> []) by (intros ->; change (zlen (@nil Z)) with 0 in Hlen; lia).
    pose proof (nth_error_last 0 Hne) as Hlast. unfold zlen in Hlen.
    assert (Hb : forall r p, nth_error l (Z.to_nat r) = Some p -> 0 <= p < ic_physical c).
    { intros r p E. assert (nth_error l (Z.to_nat r) <> None) by congruence. apply nth_error_Some in H0.
      pose proof (@strictly_increasing_gap l G5 (Z.to_nat r) (List.length l - 1) p (last l 0) ltac:(lia) E Hlast).
      assert (0 <=? p = true) by (apply G3; eapply nth_error_In; eauto). lia. }
    split.
    { intros l' ->. destruct ((count =? ic_physical c) && (hd 0 l =? 0) && (last l 0 =? count - 1)); [discriminate|].
      injection H as <-. exact Hlen. }
    intros r Hr. destruct (nth_error l (Z.to_nat r)) as [p|] eqn:E; [|apply nth_error_None in E; lia].
    destruct ((count =? ic_physical c) && (hd 0 l =? 0) && (last l 0 =? count - 1)) eqn:Eid; inversion H; subst rows.
    + exists r. assert (Hp : p = r).
      { assert (E0 : nth_error l 0 = Some 0) by (destruct l as [|x l']; [congruence|]; cbn in Eid |- *; f_equal; lia).
        pose proof (@strictly_increasing_gap l G5 0 (Z.to_nat r) 0 p ltac:(lia) E0 E).
        pose proof (@strictly_increasing_gap l G5 (Z.to_nat r) (List.length l - 1) p (last l 0) ltac:(lia) E Hlast). lia. }
      subst p. conj; eauto; apply (Hb r r E).
    + exists p. unfold py_get. rewrite E. conj; auto; eapply Hb; eauto.
  - inversion H; subst rows. apply guard_Ok in Hcnt as [G2 Hcnt]. inversion Hcnt as [Hc]. split; [discriminate|].
    intros r Hr. exists r. conj; auto; lia.
Qed.

Lemma catalog_codes_spec shapes c count codes :
  (forall s, In s (catalog_shapes c) -> In s shapes) -> 0 < count ->
  catalog_codes shapes c count = Ok codes ->
  (forall l, codes = inr l -> zlen l = count)
  /\ forall r, 0 <= r < count ->
     exists k s, (match codes with inl x => Ok x | inr l => py_get l (Z.to_nat r) end) = Ok (Z.of_nat k)
               /\ nth_error shapes k = Some s /\ catalog_shape c r = Some s.
Proof.
  unfold catalog_codes, catalog_shapes, catalog_shape. intros Hin Hc H. destruct (ic_shapes c) as [s|l].
  - inv_bind H. inversion H; subst codes. unfold shape_code in Hm.
    destruct (index_of s shapes) as [k|] eqn:E; [|discriminate]. inversion Hm; subst v.
    split; [discriminate|]. intros r Hr. exists k, s. conj; auto. apply index_of_Some; auto.
  - apply guard_Ok in H as [G H]. inv_bind H. rename v into cs.
    pose proof (mapM_Ok_length _ _ Hm) as Hlen.
    assert (Hnth : forall r, 0 <= r < count -> exists k s, nth_error cs (Z.to_nat r) = Some (Z.of_nat k)
                 /\ nth_error shapes k = Some s /\ nth_error l (Z.to_nat r) = Some s).
    { intros r Hr. unfold zlen in G. apply mapM_Ok_Forall2 in Hm.
      destruct (nth_error l (Z.to_nat r)) as [s|] eqn:E; [|apply nth_error_None in E; lia].
      destruct (Forall2_nth Hm _ E) as [code [E2 Hcode]].
      unfold shape_code in Hcode. destruct (index_of s shapes) as [k|] eqn:K; [|discriminate].
      inversion Hcode; subst code. exists k, s. rewrite (index_of_Some _ _ K). auto. }
    destruct (forallb (Z.eqb (hd 0 cs)) cs) eqn:Eu; inversion H; subst codes.
    + split; [discriminate|]. intros r Hr. destruct (Hnth r Hr) as [k [s [K1 K2]]]. exists k, s.
      split; [|exact K2]. f_equal. rewrite forallb_forall in Eu.
      assert (hd 0 cs =? Z.of_nat k = true) by (apply Eu; eapply nth_error_In; eauto). lia.
    + split. { intros l' Hl'. inversion Hl'; subst. unfold zlen in *. lia. }
      intros r Hr. destruct (Hnth r Hr) as [k [s [K1 K2]]]. exists k, s. unfold py_get. rewrite K1. auto.
Qed.

(** The catalogs that contribute rows. *)
Definition nonempty_catalog (c : indexed_catalog) : bool :=
  match catalog_count c with Ok n => negb (n =? 0) | Err _ => true end.

Lemma catalog_count_nonneg c n : catalog_count c = Ok n -> 0 <= n.
Proof.
  unfold catalog_count. intros H. apply guard_Ok in H as [G H]. destruct (ic_rows c) as [l|].
  - apply guard_Ok in H as [G2 H]. inversion H. pose proof (zlen_nonneg l). lia.
  - apply guard_Ok in H as [G2 H]. inversion H. lia.
Qed.

Lemma indexed_descriptors_spec shapes cats : forall begin seen ds total,
  0 <= begin < two64 -> (forall c s, In c cats -> In s (catalog_shapes c) -> In s shapes) ->
  indexed_descriptors shapes begin seen cats = Ok (ds, total) ->
  contiguous begin ds total /\ total < two64
  /\ Forall2 (describes_indexed shapes) (filter nonempty_catalog cats) ds /\ Forall file_ok ds
  /\ NoDup (map d_ordinal ds) /\ Forall (fun d => 0 <= d_ordinal d /\ zlen (d_sha d) = 32) ds
  /\ (forall o, In o (map d_ordinal ds) -> ~ In o seen)
  /\ Forall (fun c => exists n, catalog_count c = Ok n) cats.
Proof.
  induction cats as [|c cats IH]; intros begin seen ds total Hb Hsh H; cbn [indexed_descriptors] in H.
  - inversion H; subst. cbn. conj; auto using NoDup_nil; lia.
  - inv_bind H. rename v into count. rename Hm into Hcount. apply guard_Ok in H as [G1 H].
    pose proof (catalog_count_nonneg _ Hcount) as Hc0.
    cbn [filter]. unfold nonempty_catalog at 1. rewrite Hcount.
    destruct (Z.eqb_spec count 0) as [->|Hnz]; cbn [negb].
    + apply IH in H as [A [B [C [D [E [F [G I]]]]]]]; [|lia|intros; eapply Hsh; [right|]; eauto].
      conj; auto. constructor; eauto.
    + inv_bind H. rename v into rows. rename Hm into Hrows. inv_bind H. rename v into codes. rename Hm into Hcodes.
      apply guard_Ok in H as [G2 H]. apply guard_Ok in H as [G3 H].
      inv_bind H. destruct v as [ds' total']. inversion H; subst.
      apply IH in Hm as [A [B [C [D [E [F [G I]]]]]]]; [|lia|intros; eapply Hsh; [right|]; eauto].
      destruct (compact_indices_spec _ Hcount Hnz Hrows) as [R1 R2].
      destruct (@catalog_codes_spec shapes c count codes) as [S1 S2]; auto; [intros s Hs; eapply Hsh; [left; reflexivity|auto]|lia|].
      assert (Hns : ~ In (ic_ordinal c) seen) by (apply existsb_seen; destruct (existsb _ seen); auto; lia).
      cbn [contiguous map d_begin d_count d_ordinal].
      conj; auto; try lia.
      * constructor; auto. unfold describes_indexed; cbn [d_path d_ordinal d_sha d_count]. conj; auto.
        intros r Hr. split; [apply R2; auto|apply S2; auto].
      * constructor; auto. unfold file_ok; cbn. conj; auto; lia.
      * constructor; auto. intros Hin. apply (G _ Hin). left; reflexivity.
      * constructor; auto. cbn. lia.
      * intros o [<-|Ho]; auto. intros Hin. apply (G _ Ho). right; auto.
      * constructor; eauto.
Qed.

Lemma make_indexed_spec cats seed shuffle num den n :
  make_indexed cats seed shuffle num den = Ok n ->
  n_kind n = Indexed /\ n_seed n = seed /\ n_shuffle n = shuffle /\ n_num n = num /\ n_den n = den
  /\ n_world n = 1 /\ n_rank n = 0 /\ n_sharded n = false
  /\ 0 < den /\ 0 <= num <= den /\ n_total n < two64
  /\ contiguous 0 (n_files n) (n_total n)
  /\ Forall2 (describes_indexed (n_shapes n)) (filter nonempty_catalog cats) (n_files n)
  /\ Forall file_ok (n_files n)
  /\ NoDup (map d_ordinal (n_files n))
  /\ Forall (fun d => 0 <= d_ordinal d /\ zlen (d_sha d) = 32) (n_files n)
  /\ Forall (fun c => exists k, catalog_count c = Ok k) cats.
Proof.
  unfold make_indexed. intros H. apply guard_Ok in H as [G1 H]. apply guard_Ok in H as [G2 H].
  apply guard_Ok in H as [G3 H]. apply guard_Ok in H as [G4 H]. apply guard_Ok in H as [G5 H].
  inv_bind H. destruct v as [ds total]. apply guard_Ok in H as [G6 H]. inversion H; subst; cbn.
  apply indexed_descriptors_spec in Hm as [A [B [C [D [E [F [G I]]]]]]].
  - conj; auto; lia.
  - unfold two64; lia.
  - intros c s Hc Hs. apply sorted_shapes_in. apply in_concat. exists (catalog_shapes c).
    split; auto. apply in_map; auto.
Qed.
