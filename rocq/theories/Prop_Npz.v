(** C11 record ids, C12 cycle coverage and rank partition, C13 cursors of the NPZ sources. *)
From Verif Require Import Base BaseFacts Rng RngFacts Source Composite CompositeSim
  Npz NpzSpec NpzFacts NpzRead NpzBuild NpzGlue NpzParts.

(** C11: ids enumerate the concatenation of the catalogs; each resolves to its file and row. *)
Theorem C11_dense_ids_resolve :
  forall cats seed shuffle num den n,
    make_dense cats seed shuffle num den = Ok n ->
    n_total n = zsum (map dc_count cats)
    /\ (forall i c r, nth_error cats i = Some c -> 0 <= r < dc_count c ->
          exists d, resolve n (zsum (map dc_count (firstn i cats)) + r) = Ok (d, r)
            /\ d_path d = dc_path c /\ d_sha d = dc_sha c /\ d_ordinal d = dc_ordinal c)
    /\ (forall id, ~ (0 <= id < n_total n) -> resolve n id = Err ValueError).
Proof.
  intros cats seed shuffle num den n H. apply make_dense_spec in H.
  destruct H as [_ [_ [_ [_ [_ [_ [_ [_ [_ [_ [_ [HT [HF _]]]]]]]]]]]]].
  split; [|split].
  - rewrite <- (Forall2_count HF). rewrite (contiguous_total _ _ _ HT). lia.
  - intros i c r Ei Hr. destruct (Forall2_nth HF _ Ei) as [d [Ed [D1 [D2 [D3 [D4 _]]]]]].
    exists d. split; auto. destruct (contiguous_nth HT Ed) as [B _].
    rewrite <- (@resolve_in n (n_total n) HT i d r Ed) by lia. rewrite B. f_equal.
    rewrite <- !firstn_map, (Forall2_count HF). lia.
  - intros id Hid. apply (@resolve_out n (n_total n) HT id Hid).
Qed.
Print Assumptions C11_dense_ids_resolve.

(** C11: the same for indexed catalogs, including the physical row and the board
    shape; catalogs without rows do not shift the ids. *)
Theorem C11_indexed_ids_resolve :
  forall cats seed shuffle num den n,
    make_indexed cats seed shuffle num den = Ok n ->
    n_total n = zsum (map logical_rows cats)
    /\ (forall i c r, nth_error cats i = Some c -> 0 <= r < logical_rows c ->
          exists d phys code s,
            resolve n (zsum (map logical_rows (firstn i cats)) + r) = Ok (d, r)
            /\ d_path d = ic_path c /\ d_sha d = ic_sha c /\ d_ordinal d = ic_ordinal c
            /\ physical_row d r = Ok phys /\ catalog_row c r = Some phys
            /\ row_shape d r = Ok (Z.of_nat code) /\ nth_error (n_shapes n) code = Some s
            /\ catalog_shape c r = Some s)
    /\ (forall id, ~ (0 <= id < n_total n) -> resolve n id = Err ValueError).
Proof.
  intros cats seed shuffle num den n H. apply make_indexed_spec in H.
  destruct H as [_ [_ [_ [_ [_ [_ [_ [_ [_ [_ [_ [HT [HF [_ [_ [_ HC]]]]]]]]]]]]]]]].
  split; [|split].
  - assert (Ht := indexed_total _ _ HT HF HC). lia.
  - intros i c r Ei Hr.
    assert (Ho : exists j d, nth_error (n_files n) j = Some d /\ describes_indexed (n_shapes n) c d
      /\ d_begin d = 0 + zsum (map logical_rows (firstn i cats))) by (eapply indexed_offset; eauto; lia).
    destruct Ho as [j [d [Ed [[D1 [D2 [D3 [D4 D5]]]] B]]]].
    assert (Hcd : logical_rows c = d_count d) by (unfold logical_rows; rewrite D4; reflexivity).
    destruct (D5 r ltac:(lia)) as [[p [P1 [P2 _]]] [k [s [S1 [S2 S3]]]]].
    exists d, p, k, s. conj; auto.
    rewrite <- (@resolve_in n (n_total n) HT j d r Ed) by lia. f_equal. lia.
  - intros id Hid. apply (@resolve_out n (n_total n) HT id Hid).
Qed.
Print Assumptions C11_indexed_ids_resolve.

(** C11: every delivered record passes the identity check at decode time and
    decodes to the path and physical row it was listed under. *)
Theorem C11_delivered_records_decode_to_their_row :
  forall header hash64 sha256 n epoch cycle rank cur qs out cur',
    built n -> sampling_ok n epoch cycle ->
    start_cycle header hash64 sha256 n epoch cycle rank = Ok cur ->
    Forall request_ok qs ->
    serve_source (npz_source header hash64 n) cur qs = Ok (out, cur') ->
    forall e, In e out ->
      exists i d row phys sh,
        nth_error (n_files n) i = Some d /\ 0 <= row < d_count d
        /\ e_payload e = d_begin d + row /\ physical_row d row = Ok phys
        /\ e_key e = record_key (d_sha d) phys cycle
        /\ decode_ref n e = Ok (d_path d, phys, sh, e_key e).
Proof.
  intros header hash64 sha256 n epoch cycle rank cur qs out cur' HB HS Hst Hq Hrun e He.
  apply built_good in HB as G.
  assert (Hl : exists l, npz_serves header hash64 n cur cur l /\ row_envelopes cycle (remaining header hash64 n cur) = Ok l)
    by (eapply start_serves; eauto).
  destruct Hl as [l [HR Hl]].
  pose proof (start_cycle_spec _ _ _ _ _ _ _ Hst) as [A [B _]].
  destruct (@npz_serve_spec header hash64 sha256 n cur qs G) with (cur := cur) (l := l) as [c2 [S1 S2]]; auto.
  { rewrite A, B; auto. }
  rewrite Hrun in S1. inversion S1; subst out.
  assert (Hin : In e l) by (eapply in_firstn; eauto).
  apply mapM_Ok_Forall2 in Hl. apply In_nth_error in Hin as [k Ek].
  destruct (Forall2_nth_r Hl _ Ek) as [p [Ep Hrow]].
  destruct (start_cursor_ok header hash64 sha256 _ _ _ G Hst) as [O1 O2].
  destruct (@remaining_valid header hash64 sha256 n epoch cycle cur p G O1 O2 (nth_error_In _ _ Ep)) as [V1 V2].
  apply In_nth_error in V1 as [i Ei].
  destruct (@decode_row_envelope n cycle (fst p) (snd p) e i G Ei V2 Hrow) as [phys [sh [D1 [D2 [D3 _]]]]].
  exists i, (fst p), (snd p), phys, sh.
  split; auto. split; auto. split; auto.
  unfold row_envelope in Hrow. inv_bind Hrow. inv_bind Hrow. inversion Hrow. reflexivity.
Qed.
Print Assumptions C11_delivered_records_decode_to_their_row.

(** C11: the vectorised decode of a packed batch finds the same file and row, and
    the same keys, as record-by-record resolution. *)
Theorem C11_packed_decode_agrees :
  forall cats seed shuffle num den n ids,
    make_dense cats seed shuffle num den = Ok n ->
    Forall (fun id => 0 <= id < n_total n) ids ->
    exists ps envs,
      packed_decode n ids = Ok ps
      /\ Forall2 (fun id p => exists d, nth_error (n_files n) (fst p) = Some d
                                        /\ resolve n id = Ok (d, snd p)) ids ps
      /\ envelopes_from_record_ids n ids = Ok envs
      /\ map (@e_payload Z) envs = ids
      /\ mapM (packed_key n) ps = Ok (map (@e_key Z) envs).
Proof.
  intros cats seed shuffle num den n ids H Hids.
  assert (G : good n) by (apply built_good; eapply built_dense; eauto).
  assert (Hrows : forall d, In d (n_files n) -> d_rows d = None).
  { intros d Hd. apply make_dense_spec in H.
    destruct H as [_ [_ [_ [_ [_ [_ [_ [_ [_ [_ [_ [_ [HF _]]]]]]]]]]]]].
    apply In_nth_error in Hd as [i Ei]. destruct (Forall2_nth_r HF _ Ei) as [c [_ [_ [_ [_ [_ [Hr _]]]]]]]. exact Hr. }
  destruct (packed_decode_spec G Hids) as [ps [P1 P2]]. exists ps. rewrite P1.
  assert (E : exists envs, envelopes_from_record_ids n ids = Ok envs /\ map (@e_payload Z) envs = ids
              /\ mapM (packed_key n) ps = Ok (map (@e_key Z) envs)).
  { clear P1 Hids. induction P2 as [|id p ids ps [d [Hd Hr]] _ [envs [I1 [I2 I3]]]].
    - exists []. conj; reflexivity.
    - assert (Hb : 0 <= snd p < d_count d /\ id = d_begin d + snd p).
      { unfold resolve in Hr. inv_bind Hr. destruct v; [discriminate|]. inv_bind Hr. apply guard_Ok in Hr as [Hg Hr].
        inversion Hr; subst v0. lia. }
      pose proof (nth_error_In _ _ Hd) as Hin.
      assert (GF := g_files G). rewrite Forall_forall in GF.
      destruct (@row_envelope_ok 0 d (snd p) (GF d Hin) (proj1 Hb)) as [e He].
      exists (e :: envs). unfold envelopes_from_record_ids in *. cbn [mapM map]. rewrite Hr. cbn [bind].
      rewrite He. cbn [bind]. rewrite I1. cbn [bind].
      rewrite I3. unfold packed_key, py_get. rewrite Hd. cbn [bind].
      unfold row_envelope in He. inv_bind He. inv_bind He. inversion He; subst e; cbn [e_payload e_key].
      unfold physical_row in Hm. rewrite (Hrows d Hin) in Hm. inversion Hm; subst v.
      split; [reflexivity|]. split; [f_equal; [lia|exact I2]|reflexivity]. }
  destruct E as [envs [E1 [E2 E3]]]. exists envs. conj; auto.
Qed.
Print Assumptions C11_packed_decode_agrees.

(** C12: an NPZ source started on any cycle is a source in the sense of the
    contract the composite source and the planner rely on. *)
Theorem C12_npz_is_a_source :
  forall header hash64 sha256 n epoch cycle rank cur,
    built n -> sampling_ok n epoch cycle ->
    start_cycle header hash64 sha256 n epoch cycle rank = Ok cur ->
    serves (npz_source header hash64 n) (npz_serves header hash64 n cur)
    /\ exists l, npz_serves header hash64 n cur cur l.
Proof.
  intros header hash64 sha256 n epoch cycle rank cur HB HS H. apply built_good in HB.
  pose proof (start_cycle_spec _ _ _ _ _ _ _ H) as [A [B _]]. split.
  - apply npz_source_serves; auto. rewrite A, B. exact HS.
  - assert (Hl : exists l, npz_serves header hash64 n cur cur l /\ row_envelopes cycle (remaining header hash64 n cur) = Ok l)
      by (eapply start_serves; eauto). destruct Hl as [l [Hl _]]. eauto.
Qed.
Print Assumptions C12_npz_is_a_source.

(** C12: unsharded, a cycle delivers every admitted record exactly once (all
    records when sample_rate is 1), for every way of asking; without shuffling in
    id order; and never fails. *)
Theorem C12_unsharded_cycle_is_everything_once :
  forall header hash64 sha256 n epoch cycle rank cur qs,
    built n -> n_sharded n = false -> sampling_ok n epoch cycle ->
    start_cycle header hash64 sha256 n epoch cycle rank = Ok cur ->
    Forall request_ok qs ->
    exists out cur' stream,
      serve_source (npz_source header hash64 n) cur qs = Ok (out, cur')
      /\ map (@e_payload Z) out = firstn (total_requested qs) stream
      /\ Permutation stream (filter (id_admitted header hash64 n epoch cycle) (zrows 0 (n_total n)))
      /\ (n_shuffle n = false ->
          stream = filter (id_admitted header hash64 n epoch cycle) (zrows 0 (n_total n))).
Proof.
  intros header hash64 sha256 n epoch cycle rank cur qs HB Hs HS H Hq. apply built_good in HB.
  assert (W : exists out cur', serve_source (npz_source header hash64 n) cur qs = Ok (out, cur')
      /\ map (@e_payload Z) out = firstn (total_requested qs) (map row_id (remaining header hash64 n cur)))
    by (eapply whole_cycle; eauto).
  destruct W as [out [cur' [W1 W2]]]. exists out, cur', (map row_id (remaining header hash64 n cur)).
  assert (SI := @start_ids header hash64 sha256 n epoch cycle rank cur HB H). unfold shard_test in SI. rewrite Hs in SI.
  cbn [andb] in SI. destruct SI. conj; auto.
Qed.
Print Assumptions C12_unsharded_cycle_is_everything_once.

Theorem C12_full_rate_admits_every_row :
  forall header hash64 n epoch cycle,
    built n -> n_num n = n_den n ->
    filter (id_admitted header hash64 n epoch cycle) (zrows 0 (n_total n)) = zrows 0 (n_total n).
Proof.
  intros header hash64 n epoch cycle HB Hr. apply built_good in HB as G. apply filter_true.
  intros id Hid. apply zrows_In in Hid. unfold id_admitted.
  destruct (@resolve_total n (n_total n) (g_tile G) id Hid) as [i [d [Ei [-> Hrow]]]].
  unfold is_admitted. pose proof (nth_error_In _ _ Ei) as Hin.
  destruct (@admitted_total header hash64 (fun x => x) n epoch cycle G (or_introl Hr) d (id - d_begin d) Hin Hrow) as [b Hb].
  rewrite Hb. unfold admitted in Hb. inv_bind Hb. unfold sample_is_admitted in Hb. apply guard_Ok in Hb as [_ Hb].
  destruct (g_rate G). replace (n_num n <=? 0) with false in Hb by lia.
  replace (n_den n <=? n_num n) with true in Hb by lia. congruence.
Qed.
Print Assumptions C12_full_rate_admits_every_row.

(** C12: with rank sharding, the ranks' deliveries of one cycle, each rank asking
    in its own way, together are every admitted record exactly once. *)
Theorem C12_ranks_partition_the_rows :
  forall header hash64 sha256 n w epoch cycle (outs : Z -> list (envelope Z)),
    built n -> sampling_ok n epoch cycle -> 0 < w ->
    (forall r, 0 <= r < w ->
       exists nr cur qs cur',
         configure_distributed n w r true = Ok nr
         /\ start_cycle header hash64 sha256 nr epoch cycle r = Ok cur
         /\ Forall request_ok qs /\ n_total n <= Z.of_nat (total_requested qs)
         /\ serve_source (npz_source header hash64 nr) cur qs = Ok (outs r, cur')) ->
    Permutation (map (@e_payload Z) (flat_map outs (zrows 0 w)))
                (filter (id_admitted header hash64 n epoch cycle) (zrows 0 (n_total n))).
Proof.
  intros header hash64 sha256 n w epoch cycle outs HB HS Hw Hall.
  assert (Hone : forall r, 0 <= r < w ->
    Permutation (map (@e_payload Z) (outs r))
      (filter (fun id => (id mod w =? r) && id_admitted header hash64 n epoch cycle id) (zrows 0 (n_total n)))).
  { intros r Hr. destruct (Hall r Hr) as [nr [cur [qs [cur' [C1 [C2 [C3 [C4 C5]]]]]]]].
    assert (HBr : built nr) by (eapply built_configured; eauto). apply built_good in HBr as G.
    unfold configure_distributed in C1. apply guard_Ok in C1 as [_ C1]. injection C1 as C1.
    assert (HSr : sampling_ok nr epoch cycle) by (subst nr; exact HS).
    assert (Htot : n_total nr = n_total n) by (subst nr; reflexivity).
    assert (W : exists out c', serve_source (npz_source header hash64 nr) cur qs = Ok (out, c')
      /\ map (@e_payload Z) out = firstn (total_requested qs) (map row_id (remaining header hash64 nr cur)))
      by (eapply (@whole_cycle header hash64 sha256); eauto).
    destruct W as [out [c' [W1 W2]]]. rewrite C5 in W1. inversion W1; subst out.
    assert (HL := @remaining_length_le header hash64 sha256 _ epoch cycle r cur G C2). 
    rewrite W2, firstn_all2 by lia.
    assert (SI := proj1 (@start_ids header hash64 sha256 _ epoch cycle r cur G C2)).
    pose proof (start_cycle_spec _ _ _ _ _ _ _ C2) as [_ [_ [_ [_ [Hrk _]]]]]. subst nr. cbn [n_sharded] in Hrk.
    rewrite Hrk in SI. unfold shard_test in SI. cbn [n_sharded n_world n_total] in SI. exact SI. }
  eapply Permutation_trans; [|apply split_by_rank; exact Hw].
  assert (Hall2 : forall l, (forall r, In r l -> 0 <= r < w) ->
    Permutation (map (@e_payload Z) (flat_map outs l))
      (flat_map (fun r => filter (fun x => (x mod w =? r) && id_admitted header hash64 n epoch cycle x) (zrows 0 (n_total n))) l)).
  { induction l as [|r l IH]; intros Hl; [reflexivity|]. cbn [flat_map]. rewrite map_app.
    apply Permutation_app; [apply Hone; apply Hl; left; reflexivity|apply IH; intros; apply Hl; right; auto]. }
  apply Hall2. intros r Hr. apply zrows_In in Hr. exact Hr.
Qed.
Print Assumptions C12_ranks_partition_the_rows.

(** C12: the packed path reads the same records in the same order, for every
    sequence of chunk limits. *)
Theorem C12_packed_reading_agrees :
  forall header hash64 sha256 n epoch cycle rank cur qs limits,
    built n -> n_sharded n = false -> sampling_ok n epoch cycle ->
    start_cycle header hash64 sha256 n epoch cycle rank = Ok cur ->
    Forall request_ok qs -> Forall (fun k => 0 < k)%nat limits ->
    total_requested qs = list_sum limits ->
    exists out c1 c2,
      serve_source (npz_source header hash64 n) cur qs = Ok (out, c1)
      /\ serve_packed header hash64 n cur limits = Ok (map (@e_payload Z) out, c2).
Proof.
  intros header hash64 sha256 n epoch cycle rank cur qs limits HB Hs HS H Hq Hl Heq. apply built_good in HB as G.
  assert (W : exists out cur', serve_source (npz_source header hash64 n) cur qs = Ok (out, cur')
      /\ map (@e_payload Z) out = firstn (total_requested qs) (map row_id (remaining header hash64 n cur)))
    by (eapply whole_cycle; eauto).
  destruct W as [out [c1 [W1 W2]]].
  destruct (start_cursor_ok header hash64 sha256 _ _ _ G H) as [O1 O2].
  destruct (@serve_packed_spec header hash64 n epoch cycle limits G Hs HS Hl cur O1 O2) as [c2 P].
  exists out, c1, c2. split; auto. rewrite P, W2, Heq. reflexivity.
Qed.
Print Assumptions C12_packed_reading_agrees.

(** C13: after any reads, saving the cursor and restoring it gives back the same cursor. *)
Theorem C13_npz_cursor_restores_exactly :
  forall header hash64 sha256 n epoch cycle rank cur0 qs out cur,
    built n -> sampling_ok n epoch cycle ->
    start_cycle header hash64 sha256 n epoch cycle rank = Ok cur0 ->
    Forall request_ok qs ->
    serve_source (npz_source header hash64 n) cur0 qs = Ok (out, cur) ->
    restore_cursor header hash64 sha256 n (save_cursor n cur) = Ok cur.
Proof.
  intros header hash64 sha256 n epoch cycle rank cur0 qs out cur HB HS H Hq Hrun. apply built_good in HB as G.
  assert (Hl : exists l, npz_serves header hash64 n cur0 cur0 l /\ row_envelopes cycle (remaining header hash64 n cur0) = Ok l)
    by (eapply start_serves; eauto).
  destruct Hl as [l [HR Hl]]. pose proof (start_cycle_spec _ _ _ _ _ _ _ H) as [A [B [C [D _]]]].
  destruct (@npz_serve_spec header hash64 sha256 n cur0 qs G) with (cur := cur0) (l := l) as [c2 [S1 S2]]; auto.
  { rewrite A, B; auto. }
  rewrite Hrun in S1. inversion S1; subst c2. destruct S2 as [[T1 [T2 _]] [T3 [T4 [T5 [_ T6]]]]].
  eapply restore_save; eauto; [congruence|congruence|].
  destruct T6 as [->|T6]; [|eapply normal_restorable; eauto].
  unfold restorable. rewrite C, D. destruct (start_cursor_ok header hash64 sha256 _ _ _ G H) as [O1 _].
  destruct (nc_order cur0) as [|i rest] eqn:Eo; [left; auto|]. right. split; [cbn; lia|].
  destruct O1 as [_ [_ [_ O1]]]. rewrite Eo in O1. inversion O1 as [|? ? Hi _]; subst.
  destruct (nth_error (n_files n) i) as [d|] eqn:Ed; [|apply nth_error_None in Ed; lia].
  exists d. unfold file_at, py_get. cbn. rewrite Ed. split; auto.
  pose proof (g_files G) as GF. rewrite Forall_forall in GF. destruct (GF d (nth_error_In _ _ Ed)) as [Hc _]. lia.
Qed.
Print Assumptions C13_npz_cursor_restores_exactly.

(** C13: any state that restore accepts is a position of the cycle it names: what
    it goes on to deliver is exactly the rest of that cycle's stream after some
    number of already delivered records. *)
Theorem C13_accepted_cursor_is_a_position :
  forall header hash64 sha256 n s cur qs,
    built n -> restore_cursor header hash64 sha256 n s = Ok cur ->
    sampling_ok n (nc_epoch cur) (nc_cycle cur) -> Forall request_ok qs ->
    exists start delivered out cur',
      start_cycle header hash64 sha256 n (nc_epoch cur) (nc_cycle cur) (n_rank n) = Ok start
      /\ ns_schema s = npz_schema (n_kind n)
      /\ ns_order s = map Z.of_nat (nc_order start)
      /\ serve_source (npz_source header hash64 n) cur qs = Ok (out, cur')
      /\ map (@e_payload Z) out
         = firstn (total_requested qs) (skipn delivered (map row_id (remaining header hash64 n start))).
Proof.
  intros header hash64 sha256 n s cur qs HB H HS Hq. apply built_good in HB as G.
  assert (Hv := H). apply restore_valid in Hv as [V1 [st [V2 [V3 [V4 [V5 [V6 [V7 V8]]]]]]]].
  destruct (@restored_is_position header hash64 sha256 n s cur G H) as [start [pre [P1 [P2 [P3 [P4 [P5 P6]]]]]]].
  assert (st = start).
  { pose proof (start_cycle_spec _ _ _ _ _ _ _ V2) as [A [B _]]. rewrite V3, V4, A, B, V2 in P1. congruence. }
  subst st. exists start, (List.length pre).
  destruct (@row_envelopes_total header hash64 sha256 n (nc_epoch cur) (nc_cycle cur) cur G P3 P4) as [l Hl].
  assert (HR : npz_serves header hash64 n cur cur l).
  { unfold npz_serves. conj; auto. }
  destruct (@npz_serve_spec header hash64 sha256 n cur qs G) with (cur := cur) (l := l) as [cur' [S1 S2]]; auto.
  exists (firstn (total_requested qs) l), cur'. conj; auto.
  rewrite <- firstn_map, (row_envelopes_payload _ _ Hl). f_equal.
  rewrite P2, map_app, skipn_app, map_length, skipn_all2, Nat.sub_diag by (rewrite map_length; lia).
  reflexivity.
Qed.
Print Assumptions C13_accepted_cursor_is_a_position.

(** C35: a record key names one cycle, one file content and one physical row. *)
Theorem C35_record_keys_identify_rows :
  forall sha row cycle sha' row' cycle',
    record_key sha row cycle = record_key sha' row' cycle' ->
    sha = sha' /\ row = row' /\ cycle = cycle'.
Proof.
  unfold record_key. intros sha row cycle sha' row' cycle' H.
  destruct (Z.eqb_spec cycle 0), (Z.eqb_spec cycle' 0); inversion H; subst; auto.
Qed.
Print Assumptions C35_record_keys_identify_rows.

(** C35: within one cycle, records of a source whose files have pairwise different
    contents never share a key. *)
Theorem C35_distinct_contents_give_distinct_keys :
  forall header hash64 sha256 n epoch cycle rank cur qs out cur',
    built n -> sampling_ok n epoch cycle -> NoDup (map d_sha (n_files n)) ->
    start_cycle header hash64 sha256 n epoch cycle rank = Ok cur ->
    Forall request_ok qs ->
    serve_source (npz_source header hash64 n) cur qs = Ok (out, cur') ->
    (forall d r r' p, In d (n_files n) -> 0 <= r < d_count d -> 0 <= r' < d_count d ->
        physical_row d r = Ok p -> physical_row d r' = Ok p -> r = r') ->
    forall e e', In e out -> In e' out -> e_key e = e_key e' -> e_payload e = e_payload e'.
Proof.
  intros header hash64 sha256 n epoch cycle rank cur qs out cur' HB HS Hnd Hst Hq Hrun Hinj e e' He He' Hk.
  destruct (C11_delivered_records_decode_to_their_row _ _ _ _ _ _ _ _ _ _ _ HB HS Hst Hq Hrun e He)
    as [i [d [r [p [sh [A1 [A2 [A3 [A4 [A5 _]]]]]]]]]].
  destruct (C11_delivered_records_decode_to_their_row _ _ _ _ _ _ _ _ _ _ _ HB HS Hst Hq Hrun e' He')
    as [i' [d' [r' [p' [sh' [B1 [B2 [B3 [B4 [B5 _]]]]]]]]]].
  rewrite A5, B5 in Hk. apply C35_record_keys_identify_rows in Hk as [K1 [K2 _]].
  assert (i = i').
  { rewrite NoDup_nth_error in Hnd. apply Hnd.
    - rewrite map_length. apply nth_error_Some. congruence.
    - rewrite !nth_error_map, A1, B1. cbn. congruence. }
  subst i' p'. rewrite A1 in B1. inversion B1; subst d'.
  assert (r = r') by (eapply Hinj; eauto; eapply nth_error_In; eauto). lia.
Qed.
Print Assumptions C35_distinct_contents_give_distinct_keys.

(** Non-vacuity: three dense files (one empty), two ranks, shuffled order. *)
Definition ex_sha (b : Z) : bytes := repeat b 32.
Definition ex_cats : list dense_catalog :=
  [ {| dc_path := [97]; dc_ordinal := 0; dc_sha := ex_sha 1; dc_count := 3; dc_shape := [15; 15] |};
    {| dc_path := [98]; dc_ordinal := 1; dc_sha := ex_sha 2; dc_count := 0; dc_shape := [15; 15] |};
    {| dc_path := [99]; dc_ordinal := 2; dc_sha := ex_sha 3; dc_count := 4; dc_shape := [9; 9] |} ].
Definition ex_hash (b : bytes) : Z := (fold_left (fun a x => a * 31 + x) b 7) mod two64.
Example C12_example :
  exists n n1 cur cur1 out out1 c c1,
    make_dense ex_cats 5 true 1 1 = Ok n
    /\ configure_distributed n 2 1 true = Ok n1
    /\ start_cycle [] ex_hash (fun b => b) n 3 1 0 = Ok cur
    /\ start_cycle [] ex_hash (fun b => b) n1 3 1 1 = Ok cur1
    /\ serve_source (npz_source [] ex_hash n) cur [NextOne; NextMany 3; NextMany 9] = Ok (out, c)
    /\ serve_source (npz_source [] ex_hash n1) cur1 [NextOne; NextMany 3; NextMany 9] = Ok (out1, c1)
    /\ map (@e_payload Z) out = [3; 4; 5; 6; 0; 1; 2]
    /\ map (@e_payload Z) out1 = [3; 5; 1]
    /\ sampling_ok n 3 1.
Proof.
  eexists _, _, _, _, _, _, _, _.
  split; [vm_compute; reflexivity|]. split; [vm_compute; reflexivity|].
  split; [vm_compute; reflexivity|]. split; [vm_compute; reflexivity|].
  split; [vm_compute; reflexivity|]. split; [vm_compute; reflexivity|].
  split; [vm_compute; reflexivity|]. split; [vm_compute; reflexivity|]. left; reflexivity.
Qed.

(** Non-vacuity: an indexed source with a filtered file, an empty one, mixed shapes
    and a sampling rate of 1/2. *)
Definition ex_icats : list indexed_catalog :=
  [ {| ic_path := [97]; ic_ordinal := 0; ic_sha := ex_sha 1; ic_physical := 10; ic_logical := None;
       ic_rows := Some [1; 4; 7; 9]; ic_shapes := inr [[9; 9]; [15; 15]; [9; 9]; [9; 9]] |};
    {| ic_path := [98]; ic_ordinal := 0; ic_sha := []; ic_physical := 4; ic_logical := None;
       ic_rows := Some []; ic_shapes := inl [9; 9] |};
    {| ic_path := [99]; ic_ordinal := 2; ic_sha := ex_sha 3; ic_physical := 2; ic_logical := Some 2;
       ic_rows := Some [0; 1]; ic_shapes := inl [15; 15] |} ].
Example C11_example :
  exists n cur out c,
    make_indexed ex_icats 5 false 1 2 = Ok n
    /\ map logical_rows ex_icats = [4; 0; 2]
    /\ start_cycle [] ex_hash (fun b => b) n 0 0 0 = Ok cur
    /\ serve_source (npz_source [] ex_hash n) cur [NextMany 2; NextOne; NextMany 3] = Ok (out, c)
    /\ map (@e_payload Z) out = [0; 1; 2; 4]
    /\ map (fun e => match decode_ref n e with Ok (_, p, s, _) => (p, s) | Err _ => (0, []) end) out
       = [(1, [9; 9]); (4, [15; 15]); (7, [9; 9]); (0, [15; 15])]
    /\ sampling_ok n 0 0.
Proof.
  eexists _, _, _, _.
  split; [vm_compute; reflexivity|]. split; [vm_compute; reflexivity|].
  split; [vm_compute; reflexivity|]. split; [vm_compute; reflexivity|].
  split; [vm_compute; reflexivity|]. split; [vm_compute; reflexivity|]. right. cbn. unfold int64.
  conj; try lia.
  - intros d row p [<-|[<-|[]]] Hr Hp; unfold physical_row in Hp; cbn in Hp, Hr.
    + apply py_get_Ok in Hp. apply nth_error_In in Hp. cbn in Hp. lia.
    + inversion Hp. lia.
Qed.
