(** Whole cycles: which record ids each rank reads; envelope identity; cursors. *)
From Verif Require Import Base BaseFacts Rng RngFacts Source Composite CompositeSim Npz NpzSpec NpzFacts NpzRead NpzBuild NpzGlue.
Set Implicit Arguments.

Definition file_rows (files : list file_desc) (keep : file_desc -> Z -> bool) (i : nat) : list (file_desc * Z) :=
  match nth_error files i with
  | Some d => map (pair d) (filter (keep d) (zrows 0 (d_count d)))
  | None => []
  end.

Lemma rows_at_flat files keep order : rows_at files keep order 0 = flat_map (file_rows files keep) order.
Proof.
  induction order as [|i rest IH]; cbn [rows_at flat_map]; auto. rewrite IH. reflexivity.
Qed.

Lemma flat_map_seq {A B} (f : A -> list B) (l : list A) : forall pre,
  flat_map (fun i => match nth_error (pre ++ l) i with Some d => f d | None => [] end) (seq (List.length pre) (List.length l))
  = flat_map f l.
Proof.
  induction l as [|a l IH]; intros pre; [reflexivity|]. cbn [List.length seq flat_map].
  rewrite nth_error_app2, Nat.sub_diag by lia. cbn [nth_error]. f_equal.
  specialize (IH (pre ++ [a])). rewrite app_length in IH. cbn [List.length] in IH.
  rewrite <- app_assoc in IH. cbn [app] in IH. replace (List.length pre + 1)%nat with (S (List.length pre)) in IH by lia.
  exact IH.
Qed.

Lemma flat_map_perm {A B} (f : A -> list B) l m : Permutation l m -> Permutation (flat_map f l) (flat_map f m).
Proof.
  induction 1; cbn; auto.
  - apply Permutation_app_head; auto.
  - rewrite !app_assoc. apply Permutation_app_tail. apply Permutation_app_comm.
  - eapply Permutation_trans; eauto.
Qed.

Lemma ids_of_files (keep : file_desc -> Z -> bool) (K : Z -> bool) ds : forall begin total,
  contiguous begin ds total ->
  (forall d r, In d ds -> 0 <= r < d_count d -> keep d r = K (d_begin d + r)) ->
  map row_id (flat_map (fun d => map (pair d) (filter (keep d) (zrows 0 (d_count d)))) ds)
  = filter K (zrows begin total).
Proof.
  induction ds as [|d ds IH]; intros begin total Hc HK; cbn in Hc.
  - subst. rewrite zrows_nil by lia. reflexivity.
  - destruct Hc as [H1 [H2 H3]]. cbn [flat_map]. rewrite map_app.
    pose proof (contiguous_le _ _ _ H3) as Hle.
    rewrite (@zrows_app begin (begin + d_count d) total) by lia. rewrite filter_app. f_equal.
    + rewrite map_map. unfold row_id; cbn [fst snd].
      replace (zrows begin (begin + d_count d)) with (map (Z.add (d_begin d)) (zrows 0 (d_count d)))
        by (rewrite zrows_shift; f_equal; lia).
      assert (G : forall l, (forall r, In r l -> 0 <= r < d_count d) ->
        map (fun x => d_begin d + x) (filter (keep d) l) = filter K (map (Z.add (d_begin d)) l)).
      { induction l as [|r l IHl]; intros Hl; [reflexivity|]. cbn [filter map].
        rewrite <- HK by (auto using in_eq). destruct (keep d r); cbn [map]; rewrite IHl; auto using in_cons. }
      apply G. intros r Hr. apply zrows_In in Hr. lia.
    + apply IH; auto. intros; apply HK; auto using in_cons.
Qed.

Lemma zrows_NoDup a b : NoDup (zrows a b).
Proof.
  unfold zrows. apply FinFun.Injective_map_NoDup; [|apply seq_NoDup]. intros x y H. lia.
Qed.

(** Splitting a list by a key with values in a duplicate-free list. *)
Lemma flat_map_insert {A} (x : A) (r0 : Z) (G : Z -> list A) ranks : NoDup ranks -> In r0 ranks ->
  Permutation (flat_map (fun r => (if r0 =? r then [x] else []) ++ G r) ranks) (x :: flat_map G ranks).
Proof.
  induction ranks as [|r ranks IH]; intros Hnd Hin; [destruct Hin|]. inversion Hnd; subst.
  cbn [flat_map]. destruct (Z.eqb_spec r0 r) as [->|Hne].
  - cbn [app]. constructor. apply Permutation_app_head.
    assert (E : flat_map (fun r' => (if r =? r' then [x] else []) ++ G r') ranks = flat_map G ranks).
    { clear IH Hnd Hin. induction ranks as [|q ranks IHr]; [reflexivity|]. cbn [flat_map].
      inversion H2; subst. assert (r <> q) by (intros ->; apply H1; left; reflexivity).
      replace (r =? q) with false by lia. cbn [app]. f_equal. apply IHr; auto.
      intros Hq; apply H1; right; auto. }
    rewrite E. reflexivity.
  - destruct Hin as [->|Hin]; [congruence|]. cbn [app].
    eapply Permutation_trans; [apply Permutation_app_head; apply IH; auto|].
    apply Permutation_sym, Permutation_middle.
Qed.

Lemma split_by_rank (w : Z) (f : Z -> bool) l : 0 < w ->
  Permutation (flat_map (fun r => filter (fun x => (x mod w =? r) && f x) l) (zrows 0 w)) (filter f l).
Proof.
  intros Hw. induction l as [|x l IH].
  - cbn [filter]. induction (zrows 0 w); auto.
  - cbn [filter]. destruct (f x).
    + eapply Permutation_trans; [|apply perm_skip; exact IH].
      eapply Permutation_trans; [|apply (@flat_map_insert Z x (x mod w)); [apply zrows_NoDup|apply zrows_In; apply Z.mod_pos_bound; lia]].
      erewrite flat_map_ext; [reflexivity|]. intros r. cbn beta. rewrite andb_true_r.
      destruct (x mod w =? r); reflexivity.
    + erewrite flat_map_ext; [exact IH|]. intros r. cbn beta. rewrite andb_false_r. reflexivity.
Qed.

Section Cycles.
  Variable header : bytes.
  Variable hash64 : bytes -> Z.
  Variable sha256 : bytes -> bytes.

  Lemma row_envelopes_payload cycle l envs : row_envelopes cycle l = Ok envs -> map (@e_payload Z) envs = map row_id l.
  Proof.
    unfold row_envelopes. revert envs. induction l as [|p l IH]; intros envs H; cbn [mapM] in H.
    - inversion H; reflexivity.
    - inv_bind H. inv_bind H. inversion H; subst. cbn [map]. f_equal; auto.
      unfold row_envelope in Hm. inv_bind Hm. inv_bind Hm. inversion Hm; subst. reflexivity.
  Qed.

  Definition shard_test (n : npz) (rank : Z) (id : Z) : bool :=
    if n_sharded n then id mod n_world n =? rank else true.

  (** The ids still to come at the start of a cycle, in file order. *)
  Lemma start_ids n epoch cycle rank cur : good n ->
    start_cycle header hash64 sha256 n epoch cycle rank = Ok cur ->
    Permutation (map row_id (remaining header hash64 n cur))
      (filter (fun id => shard_test n (nc_rank cur) id && id_admitted header hash64 n epoch cycle id) (zrows 0 (n_total n)))
    /\ (n_shuffle n = false -> map row_id (remaining header hash64 n cur)
       = filter (fun id => shard_test n (nc_rank cur) id && id_admitted header hash64 n epoch cycle id) (zrows 0 (n_total n))).
  Proof.
    intros G H. apply start_cycle_spec in H as [A [B [C [D [E [F [I [J [K L]]]]]]]]].
    unfold remaining. rewrite C, D, A, B. cbn [skipn]. rewrite rows_at_flat.
    set (keep := wanted header hash64 n epoch cycle (nc_rank cur)).
    set (KK := fun id => shard_test n (nc_rank cur) id && id_admitted header hash64 n epoch cycle id).
    assert (Heq : map row_id (flat_map (file_rows (n_files n) keep) (seq 0 (List.length (n_files n)))) = filter KK (zrows 0 (n_total n))).
    { unfold file_rows.
      pose proof (flat_map_seq (fun d => map (pair d) (filter (keep d) (zrows 0 (d_count d)))) (n_files n) []) as Q.
      cbn [app List.length] in Q. rewrite Q. apply ids_of_files; [apply (g_tile G)|].
      intros d r Hd Hr. unfold keep, KK, wanted, shard_test, id_admitted.
      apply In_nth_error in Hd as [i Ei]. rewrite (@resolve_in n (n_total n) (g_tile G) i d r Ei Hr). reflexivity. }
    split.
    - rewrite <- Heq. apply Permutation_map. apply flat_map_perm. exact K.
    - intros Hs. rewrite (L Hs). exact Heq.
  Qed.

  Lemma firstn_all_ge {A} (l : list A) k : (List.length l <= k)%nat -> firstn k l = l.
  Proof. intros; apply firstn_all2; auto. Qed.

  (** Everything one rank delivers in a cycle. *)
  Lemma whole_cycle n epoch cycle rank cur qs : good n -> sampling_ok n epoch cycle ->
    start_cycle header hash64 sha256 n epoch cycle rank = Ok cur -> Forall request_ok qs ->
    exists out cur', serve_source (npz_source header hash64 n) cur qs = Ok (out, cur')
      /\ map (@e_payload Z) out = firstn (total_requested qs) (map row_id (remaining header hash64 n cur)).
  Proof.
    intros G HS H Hq.
    assert (Hst : exists l, npz_serves header hash64 n cur cur l /\ row_envelopes cycle (remaining header hash64 n cur) = Ok l)
      by (eapply start_serves; eauto).
    destruct Hst as [l [HR Hl]].
    destruct (start_cycle_spec _ _ _ _ _ _ _ H) as [A [B _]].
    destruct (@npz_serve_spec header hash64 sha256 n cur qs G) with (cur := cur) (l := l) as [cur' [S1 S2]]; auto.
    { rewrite A, B; auto. }
    eexists _, _. split; [exact S1|]. rewrite <- firstn_map. f_equal. eapply row_envelopes_payload; eauto.
  Qed.

  Lemma remaining_length_le n epoch cycle rank cur : good n ->
    start_cycle header hash64 sha256 n epoch cycle rank = Ok cur ->
    (List.length (map row_id (remaining header hash64 n cur)) <= Z.to_nat (n_total n))%nat.
  Proof.
    intros G H. assert (HP := proj1 (@start_ids n epoch cycle rank cur G H)).
    rewrite (Permutation_length HP). etransitivity; [apply filter_len_le|]. rewrite zrows_length. lia.
  Qed.

  (** ** Cursor restore *)
  Definition restorable (n : npz) (cur : npz_cursor) : Prop :=
    (nc_file cur = List.length (nc_order cur) /\ nc_row cur = 0)
    \/ (nc_file cur < List.length (nc_order cur))%nat /\ exists d, file_at n (nc_order cur) (nc_file cur) = Ok d /\ 0 <= nc_row cur <= d_count d.

  Lemma normal_restorable n cur : normal n cur -> restorable n cur.
  Proof.
    intros [H|[d [H1 H2]]]; [left; auto|]. right. split; [|exists d; split; auto; lia].
    unfold file_at, py_get in H1. destruct (nth_error (nc_order cur) (nc_file cur)) eqn:E; [|discriminate].
    apply nth_error_Some; congruence.
  Qed.

  Lemma map_of_nat_inj a : forall b, map Z.of_nat a = map Z.of_nat b -> a = b.
  Proof.
    induction a as [|x a IH]; intros [|y b] H; cbn in H; try discriminate; auto.
    inversion H as [[H1 H2]]. f_equal; [lia|auto].
  Qed.

  Lemma restore_save n epoch cycle rank cur0 cur :
    start_cycle header hash64 sha256 n epoch cycle rank = Ok cur0 ->
    nc_epoch cur = epoch -> nc_cycle cur = cycle -> nc_rank cur = nc_rank cur0 -> nc_order cur = nc_order cur0 ->
    restorable n cur ->
    restore_cursor header hash64 sha256 n (save_cursor n cur) = Ok cur.
  Proof.
    intros H He Hc Hr Ho Hp. pose proof (start_cycle_spec _ _ _ _ _ _ _ H) as [A [B [C [D [E [F [I [J [K L]]]]]]]]].
    unfold restore_cursor, save_cursor; cbn [ns_schema ns_cycle ns_rank ns_epoch ns_order ns_file ns_row].
    rewrite String.eqb_refl. subst rank. rewrite He, Hc. rewrite Hr, E at 1.
    rewrite Z.eqb_refl. rewrite H. cbn [bind].
    rewrite Ho. rewrite (proj2 (zlist_eqb_eq _ _) eq_refl).
    unfold zlen. rewrite map_length.
    destruct Hp as [[P1 P2]|[P1 [d [P2 P3]]]].
    - rewrite P1, P2, Ho, Z.eqb_refl.
      replace ((0 <=? Z.of_nat (List.length (nc_order cur0))) && (Z.of_nat (List.length (nc_order cur0)) <=? Z.of_nat (List.length (nc_order cur0)))) with true by lia.
      change (0 =? 0) with true. cbn [bind]. f_equal. destruct cur; cbn in *. subst. f_equal. lia.
    - rewrite Ho in P1, P2.
      replace ((0 <=? Z.of_nat (nc_file cur)) && (Z.of_nat (nc_file cur) <=? Z.of_nat (List.length (nc_order cur0)))) with true by lia.
      replace (Z.of_nat (nc_file cur) =? Z.of_nat (List.length (nc_order cur0))) with false by lia.
      rewrite Nat2Z.id, P2. cbn [bind].
      replace ((0 <=? nc_row cur) && (nc_row cur <=? d_count d)) with true by lia. cbn [bind].
      f_equal. destruct cur; cbn in *. subst. reflexivity.
  Qed.

  Lemma restore_valid n s cur : restore_cursor header hash64 sha256 n s = Ok cur ->
    ns_schema s = npz_schema (n_kind n)
    /\ exists cur0, start_cycle header hash64 sha256 n (ns_epoch s) (match ns_cycle s with Some c => c | None => 0 end) (n_rank n) = Ok cur0
       /\ nc_epoch cur = nc_epoch cur0 /\ nc_cycle cur = nc_cycle cur0 /\ nc_rank cur = nc_rank cur0
       /\ nc_order cur = nc_order cur0 /\ ns_order s = map Z.of_nat (nc_order cur0) /\ restorable n cur.
  Proof.
    unfold restore_cursor. intros H. apply guard_Ok in H as [G1 H]. apply guard_Ok in H as [G2 H].
    inv_bind H. rename v into cur0. apply guard_Ok in H as [G3 H]. apply guard_Ok in H as [G4 H].
    inv_bind H. inversion H; subst cur. clear H. split; [apply String.eqb_eq; exact G1|].
    exists cur0. pose proof (start_cycle_spec _ _ _ _ _ _ _ Hm) as [A [B [C [D [E [F [I [J [K L]]]]]]]]].
    apply zlist_eqb_eq in G3.
    assert (Hz : zlen (ns_order s) = Z.of_nat (List.length (nc_order cur0))).
    { rewrite G3. unfold zlen. rewrite map_length. reflexivity. }
    cbn [nc_epoch nc_cycle nc_rank nc_order]. conj; auto.
    - rewrite E. destruct (n_sharded n); lia.
    - unfold restorable; cbn [nc_file nc_order nc_row].
      destruct (Z.eqb_spec (ns_file s) (zlen (ns_order s))) as [He|He].
      + apply guard_Ok in Hm0 as [G5 _]. left. lia.
      + inv_bind Hm0. apply guard_Ok in Hm0 as [G5 _]. right. split; [lia|]. exists v0. split; [auto|lia].
  Qed.

  Lemma rows_at_suffix files keep order row fp : 0 <= row -> (fp <= List.length order)%nat ->
    (forall i d, nth_error order fp = Some i -> nth_error files i = Some d -> row <= d_count d) ->
    (fp = List.length order -> row = 0) ->
    exists pre, rows_at files keep order 0 = pre ++ rows_at files keep (skipn fp order) row.
  Proof.
    revert fp. induction order as [|i rest IH]; intros fp Hr Hfp Hd He.
    - cbn in Hfp. destruct fp; [|lia]. exists []. reflexivity.
    - destruct fp as [|fp].
      + cbn [skipn rows_at]. destruct (nth_error files i) as [d|] eqn:E.
        * specialize (Hd i d eq_refl E). rewrite (@zrows_app 0 row (d_count d)) by lia.
          rewrite filter_app, map_app, <- app_assoc. eauto.
        * exists []. reflexivity.
      + cbn [skipn rows_at]. destruct (IH fp) as [pre Hpre]; auto; [cbn in Hfp; lia|intros; apply He; cbn; lia|].
        rewrite Hpre, app_assoc. eauto.
  Qed.

  Lemma restored_is_position n s cur : good n -> restore_cursor header hash64 sha256 n s = Ok cur ->
    exists cur0 pre, start_cycle header hash64 sha256 n (nc_epoch cur) (nc_cycle cur) (n_rank n) = Ok cur0
      /\ remaining header hash64 n cur0 = pre ++ remaining header hash64 n cur
      /\ cur_ok n (nc_epoch cur) (nc_cycle cur) cur /\ pos_ok cur
      /\ nc_rank cur = nc_rank cur0 /\ nc_order cur = nc_order cur0.
  Proof.
    intros G H. apply restore_valid in H as [_ [cur0 [H1 [H2 [H3 [H4 [H5 [H6 H7]]]]]]]].
    destruct (start_cursor_ok header hash64 sha256 _ _ _ G H1) as [O1 O2].
    pose proof (start_cycle_spec _ _ _ _ _ _ _ H1) as [A [B [C [D _]]]].
    assert (Hpos : pos_ok cur).
    { unfold pos_ok. destruct H7 as [[P1 P2]|[P1 [d [P2 P3]]]]; lia. }
    assert (Hsuf : exists pre, remaining header hash64 n cur0 = pre ++ remaining header hash64 n cur).
    { unfold remaining. rewrite C, D. cbn [skipn]. rewrite H2, H3, H4, H5. apply rows_at_suffix.
      - apply Hpos. 
      - rewrite <- H5. apply Hpos.
      - intros i d Ei Ed. destruct H7 as [[P1 P2]|[P1 [d' [P2 P3]]]].
        + rewrite <- H5 in Ei. assert (nth_error (nc_order cur) (nc_file cur) <> None) by congruence.
          apply nth_error_Some in H. lia.
        + unfold file_at, py_get in P2. rewrite H5, Ei in P2. cbn in P2. rewrite Ed in P2. inversion P2; subst. lia.
      - intros He. rewrite <- H5 in He. destruct H7 as [[P1 P2]|[P1 _]]; auto. lia. }
    destruct Hsuf as [pre Hsuf]. exists cur0, pre. rewrite H2, H3, A, B. conj; auto.
    destruct O1 as [_ [_ [O3 O4]]]. unfold cur_ok. rewrite H2, H3, A, B, H4, H5. conj; auto; apply O3; auto.
  Qed.
End Cycles.

(** ** Envelope identity *)
Lemma key_eqb_record_key sha p cycle : key_eqb (record_key sha p cycle) (record_key sha p cycle) = true.
Proof. apply key_eqb_refl. Qed.

Lemma record_cycle_key sha p cycle : record_cycle (record_key sha p cycle) = Ok cycle.
Proof.
  unfold record_key. destruct (Z.eqb_spec cycle 0) as [->|H]; reflexivity.
Qed.

Lemma decode_row_envelope n cycle d row e i : good n -> nth_error (n_files n) i = Some d -> 0 <= row < d_count d ->
  row_envelope cycle d row = Ok e ->
  exists phys sh, decode_ref n e = Ok (d_path d, phys, sh, e_key e) /\ physical_row d row = Ok phys
    /\ e_key e = record_key (d_sha d) phys cycle
    /\ exists k, row_shape d row = Ok (Z.of_nat k) /\ nth_error (n_shapes n) k = Some sh.
Proof.
  intros G Ei Hr He. unfold row_envelope in He. inv_bind He. inv_bind He. inversion He; subst e. clear He.
  rename v into phys, v0 into code, Hm into Hp, Hm0 into Hc.
  destruct (@g_shape n G d row code) as [k [sh [-> Hk]]]; auto; [eapply nth_error_In; eauto|].
  exists phys, sh. unfold decode_ref; cbn [e_payload e_key e_source_id e_shape].
  rewrite (@resolve_in n (n_total n) (g_tile G) i d row Ei Hr). cbn [bind]. rewrite Hp, Hc. cbn [bind].
  rewrite record_cycle_key. cbn [bind]. rewrite !Z.eqb_refl, key_eqb_record_key. cbn [andb].
  rewrite Nat2Z.id. unfold py_get. rewrite Hk. cbn [bind]. conj; eauto.
Qed.

(** ** Catalog offsets *)
Definition logical_rows (c : indexed_catalog) : Z :=
  match catalog_count c with Ok k => k | Err _ => 0 end.

Lemma indexed_offset shapes cats : forall ds begin total i c,
  contiguous begin ds total ->
  Forall2 (describes_indexed shapes) (filter nonempty_catalog cats) ds ->
  Forall (fun c => exists k, catalog_count c = Ok k) cats ->
  nth_error cats i = Some c -> 0 < logical_rows c ->
  exists j d, nth_error ds j = Some d /\ describes_indexed shapes c d
    /\ d_begin d = begin + zsum (map logical_rows (firstn i cats)).
Proof.
  induction cats as [|x cats IH]; intros ds begin total i c Hc HF Hcat Ei Hpos; [destruct i; discriminate|].
  inversion Hcat as [|? ? [k Hk] Hcat']; subst. cbn [filter] in HF.
  assert (Hx : nonempty_catalog x = negb (k =? 0)) by (unfold nonempty_catalog; rewrite Hk; reflexivity).
  assert (Hlx : logical_rows x = k) by (unfold logical_rows; rewrite Hk; reflexivity).
  rewrite Hx in HF. destruct (Z.eqb_spec k 0) as [Hk0|Hnz]; cbn [negb] in HF.
  - destruct i as [|i]; [cbn in Ei; inversion Ei; subst; lia|]. cbn in Ei.
    destruct (IH ds begin total i c Hc HF Hcat' Ei Hpos) as [j [d [A [B C]]]].
    exists j, d. conj; auto. cbn [firstn map]. rewrite zsum_cons. lia.
  - inversion HF as [|? d ? ds' Hd HF']; subst. cbn in Hc. destruct Hc as [C1 [C2 C3]].
    assert (d_count d = logical_rows x).
    { destruct Hd as [_ [_ [_ [Hd _]]]]. rewrite Hk in Hd. inversion Hd. lia. }
    destruct i as [|i].
    + cbn in Ei. inversion Ei; subst. exists O, d. conj; auto. cbn. lia.
    + cbn in Ei. destruct (IH ds' _ total i c C3 HF' Hcat' Ei Hpos) as [j [e [A [B C]]]].
      exists (S j), e. conj; auto. cbn [firstn map]. rewrite zsum_cons. lia.
Qed.

Lemma indexed_total shapes cats : forall ds begin total,
  contiguous begin ds total ->
  Forall2 (describes_indexed shapes) (filter nonempty_catalog cats) ds ->
  Forall (fun c => exists k, catalog_count c = Ok k) cats ->
  total = begin + zsum (map logical_rows cats).
Proof.
  induction cats as [|x cats IH]; intros ds begin total Hc HF Hcat.
  - cbn in HF. inversion HF; subst. cbn in Hc |- *. lia.
  - inversion Hcat as [|? ? [k Hk] Hcat']; subst. cbn [filter] in HF. cbn [map]. rewrite zsum_cons.
    assert (Hx : nonempty_catalog x = negb (k =? 0)) by (unfold nonempty_catalog; rewrite Hk; reflexivity).
    assert (Hlx : logical_rows x = k) by (unfold logical_rows; rewrite Hk; reflexivity).
    rewrite Hx in HF. destruct (Z.eqb_spec k 0) as [Hk0|Hnz]; cbn [negb] in HF.
    + rewrite (IH ds begin total); auto. lia.
    + inversion HF as [|? d ? ds' Hd HF']; subst. cbn in Hc. destruct Hc as [C1 [C2 C3]].
      assert (d_count d = logical_rows x).
      { destruct Hd as [_ [_ [_ [Hd _]]]]. rewrite Hk in Hd. inversion Hd. lia. }
      rewrite (IH ds' _ total C3 HF' Hcat'). lia.
Qed.

(** ** Packed batches *)
Lemma packed_decode_spec n ids : good n -> Forall (fun id => 0 <= id < n_total n) ids ->
  exists ps, packed_decode n ids = Ok ps
    /\ Forall2 (fun id p => exists d, nth_error (n_files n) (fst p) = Some d /\ resolve n id = Ok (d, snd p)) ids ps.
Proof.
  intros G H. unfold packed_decode. induction H as [|id ids Hid _ [ps [IH1 IH2]]].
  - exists []. split; constructor.
  - destruct (@id_in_some_file n (n_total n) (g_tile G) id Hid) as [i [d [Ei Hr]]].
    exists ((i, id - d_begin d) :: ps). cbn [mapM].
    rewrite (@find_file n (n_total n) (g_tile G) id i d Ei Hr). cbn [bind]. unfold py_get. rewrite Ei. cbn [bind].
    replace (id - d_begin d <? d_count d) with true by lia. cbn [bind]. unfold py_get in IH1. rewrite IH1. cbn [bind].
    split; auto. constructor; auto. exists d. split; auto. cbn [snd].
    rewrite <- (@resolve_in n (n_total n) (g_tile G) i d (id - d_begin d) Ei Hr). f_equal. lia.
Qed.

Fixpoint serve_packed (header : bytes) (hash64 : bytes -> Z) (n : npz) (cur : npz_cursor) (limits : list nat)
  : res (list Z * npz_cursor) :=
  match limits with
  | [] => Ok ([], cur)
  | k :: rest =>
      '(ids, c1) <- next_packed_records header hash64 n cur k ;;
      '(more, c2) <- serve_packed header hash64 n c1 rest ;;
      Ok (ids ++ more, c2)
  end.

Lemma serve_packed_spec header hash64 n epoch cycle limits : good n -> n_sharded n = false -> sampling_ok n epoch cycle ->
  Forall (fun k => 0 < k)%nat limits -> forall cur, cur_ok n epoch cycle cur -> pos_ok cur ->
  exists cur', serve_packed header hash64 n cur limits
     = Ok (firstn (list_sum limits) (map row_id (remaining header hash64 n cur)), cur').
Proof.
  intros G Hs HS Hl. induction limits as [|k limits IH]; intros cur Hc Hp; cbn [serve_packed list_sum fold_right].
  - cbn [firstn]. eauto.
  - inversion Hl; subst.
    destruct (@next_packed_spec header hash64 n epoch cycle (g_files G) Hs (g_rate G) (@admitted_total header hash64 (fun x => x) n epoch cycle G HS) cur Hc k)
      as [c1 [N1 [N2 [N3 [N4 _]]]]]; auto.
    rewrite N1. cbn [bind]. destruct (IH H2 c1 N3 N4) as [c2 E]. rewrite E. cbn [bind]. exists c2.
    rewrite N2. f_equal. f_equal. rewrite !firstn_map, <- map_app. f_equal.
    fold (list_sum limits).
    rewrite <- (firstn_skipn k (firstn (k + list_sum limits) (remaining header hash64 n cur))).
    rewrite firstn_firstn, Nat.min_l by lia. f_equal. rewrite skipn_firstn_comm. f_equal. lia.
Qed.

Lemma contiguous_total ds : forall begin total, contiguous begin ds total -> total = begin + zsum (map d_count ds).
Proof.
  induction ds as [|d ds IH]; intros b t H; cbn in H; [cbn; lia|]. destruct H as [_ [_ H]]. cbn [map].
  rewrite zsum_cons. rewrite (IH _ _ H). lia.
Qed.
