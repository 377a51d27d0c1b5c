(** From the constructors to whole reads of a cycle. *)
From Verif Require Import Base BaseFacts Rng RngFacts Source Composite CompositeSim Npz NpzSpec NpzFacts NpzRead NpzBuild.
Set Implicit Arguments.

Record good (n : npz) : Prop := {
  g_files : Forall file_ok (n_files n);
  g_world : 0 < n_world n /\ 0 <= n_rank n < n_world n;
  g_rate : 0 < n_den n /\ 0 <= n_num n <= n_den n;
  g_tile : contiguous 0 (n_files n) (n_total n);
  g_sha : Forall (fun d => zlen (d_sha d) = 32) (n_files n);
  g_shape : forall d r code, In d (n_files n) -> 0 <= r < d_count d -> row_shape d r = Ok code ->
            exists k s, code = Z.of_nat k /\ nth_error (n_shapes n) k = Some s
}.

Lemma built_good n : built n -> good n.
Proof.
  induction 1 as [cats seed shuffle num den n H|cats seed shuffle num den n H|n w r s n' _ IH H].
  - apply make_dense_spec in H.
    destruct H as [A1 [A2 [A3 [A4 [A5 [A6 [A7 [A8 [A9 [A10 [A11 [A12 [A13 [A14 [A15 A16]]]]]]]]]]]]]]].
    constructor; auto; try (rewrite ?A6, ?A7, ?A4, ?A5; lia).
    + eapply Forall_impl; [|exact A16]. cbn; intros; tauto.
    + intros d r code Hin Hr Hs. apply In_nth_error in Hin as [i Ei].
      destruct (Forall2_nth_r A13 _ Ei) as [c [Ec [_ [_ [_ [_ [_ [k [K1 K2]]]]]]]]].
      unfold row_shape in Hs. rewrite K1 in Hs. inversion Hs. eauto.
  - apply make_indexed_spec in H.
    destruct H as [A1 [A2 [A3 [A4 [A5 [A6 [A7 [A8 [A9 [A10 [A11 [A12 [A13 [A14 [A15 [A16 A17]]]]]]]]]]]]]]]].
    constructor; auto; try (rewrite ?A6, ?A7, ?A4, ?A5; lia).
    + eapply Forall_impl; [|exact A16]. cbn; intros; tauto.
    + intros d r code Hin Hr Hs. apply In_nth_error in Hin as [i Ei].
      destruct (Forall2_nth_r A13 _ Ei) as [c [Ec [_ [_ [_ [_ D]]]]]].
      destruct (D r Hr) as [[p [P1 [P2 P3]]] [k [sh [K1 [K2 _]]]]]. rewrite K1 in Hs. inversion Hs. eauto.
  - unfold configure_distributed in H. apply guard_Ok in H as [G H]. inversion H; subst. destruct IH.
    constructor; auto; cbn; lia.
Qed.

Section Hashed.
  Variable header : bytes.
  Variable hash64 : bytes -> Z.
  Variable sha256 : bytes -> bytes.

  Lemma tlv_int z : int64 z -> tlv (KInt z) = Ok (2 :: le_bytes 8 z).
  Proof.
    unfold int64. intros H. cbn [tlv]. unfold two63.
    replace ((- 2 ^ 63 <=? z) && (z <? 2 ^ 63)) with true by lia. reflexivity.
  Qed.

  Lemma record_key_tlv sha p cycle : zlen sha = 32 -> int64 p -> int64 cycle ->
    exists b, tlv (record_key sha p cycle) = Ok b.
  Proof.
    intros Hs Hp Hc. unfold record_key. rewrite tlv_tuple.
    change (pack_u32 (zlen _)) with (Ok (le_bytes 4 4)). cbn [bind tlv_join].
    assert (H1 : exists b, tlv (str "root") = Ok b) by (eexists; reflexivity).
    assert (H2 : exists b, tlv (KBytes sha) = Ok b).
    { cbn [tlv]. rewrite Hs. eexists. reflexivity. }
    assert (H3 : exists b, tlv (str "npz-row") = Ok b) by (eexists; reflexivity).
    assert (H4 : exists b, tlv (if cycle =? 0 then KTuple [KInt p] else KTuple [KInt cycle; KInt p]) = Ok b).
    { destruct (cycle =? 0); rewrite tlv_tuple; cbn [tlv_join].
      - change (pack_u32 (zlen _)) with (Ok (le_bytes 4 1)). rewrite tlv_int by auto. eexists; reflexivity.
      - change (pack_u32 (zlen _)) with (Ok (le_bytes 4 2)). rewrite !tlv_int by auto. eexists; reflexivity. }
    destruct H1 as [b1 ->], H2 as [b2 ->], H3 as [b3 ->], H4 as [b4 ->]. eexists. reflexivity.
  Qed.

  Lemma admitted_total n epoch cycle : good n -> sampling_ok n epoch cycle ->
    forall d row, In d (n_files n) -> 0 <= row < d_count d ->
    exists b, admitted header hash64 n epoch cycle d row = Ok b.
  Proof.
    intros G HS d row Hin Hr. destruct G as [GF _ GR _ GS _].
    rewrite Forall_forall in GF, GS. unfold admitted.
    destruct (@physical_row_ok d row (GF d Hin) Hr) as [p Hp]. rewrite Hp. cbn [bind].
    unfold sample_is_admitted. replace ((0 <=? n_num n) && (n_num n <=? n_den n)) with true by lia.
    destruct (Z.leb_spec (n_num n) 0); [eauto|]. destruct (Z.leb_spec (n_den n) (n_num n)); [eauto|].
    destruct HS as [HS|[H1 [H2 [H3 H4]]]]; [lia|].
    unfold rng_u64. change ((0 <=? 0) && (0 <? two63)) with true. cbn match.
    destruct (@record_key_tlv (d_sha d) p cycle (GS d Hin) (H4 d row p Hin Hr Hp) H3) as [bk Hbk].
    rewrite tlv_tuple. change (pack_u32 (zlen _)) with (Ok (le_bytes 4 4)). cbn [bind tlv_join].
    assert (E1 : exists b, tlv (str "sample") = Ok b) by (eexists; reflexivity). destruct E1 as [b1 ->].
    rewrite (tlv_int H1). rewrite (tlv_tuple [KInt epoch; record_key (d_sha d) p cycle]).
    change (pack_u32 (zlen _)) with (Ok (le_bytes 4 2)). cbn [bind tlv_join]. rewrite (tlv_int H2), Hbk.
    cbn [bind]. rewrite tlv_int by (unfold int64; lia). cbn [bind]. eauto.
  Qed.

  (** The order of a cycle names every file once. *)
  Lemma start_cycle_spec n epoch cycle rank cur : start_cycle header hash64 sha256 n epoch cycle rank = Ok cur ->
    nc_epoch cur = epoch /\ nc_cycle cur = cycle /\ nc_file cur = O /\ nc_row cur = 0
    /\ nc_rank cur = (if n_sharded n then rank else 0) /\ rank = n_rank n /\ 0 <= epoch /\ 0 <= cycle
    /\ Permutation (nc_order cur) (seq 0 (List.length (n_files n)))
    /\ (n_shuffle n = false -> nc_order cur = seq 0 (List.length (n_files n))).
  Proof.
    unfold start_cycle. intros H. apply guard_Ok in H as [G1 H]. apply guard_Ok in H as [G2 H].
    inv_bind H. inversion H; subst; cbn. conj; auto; try lia.
    - destruct (n_shuffle n).
      + apply Permutation_sym. eapply deterministic_permutation_perm; eauto.
      + inversion Hm; subst. reflexivity.
    - intros Hs. rewrite Hs in Hm. inversion Hm. reflexivity.
  Qed.

  Lemma start_cursor_ok n epoch cycle rank cur : good n ->
    start_cycle header hash64 sha256 n epoch cycle rank = Ok cur ->
    cur_ok n epoch cycle cur /\ pos_ok cur.
  Proof.
    intros G H. apply start_cycle_spec in H as [A [B [C [D [E [F [I [J [K L]]]]]]]]].
    unfold cur_ok, pos_ok. destruct (g_world G). conj; auto; try lia.
    apply Forall_forall. intros i Hi. eapply Permutation_in in Hi; [|exact K]. apply in_seq in Hi. lia.
  Qed.

  (** The contract relation of an NPZ source. *)
  Definition npz_serves (n : npz) (cur0 : npz_cursor) (cur : npz_cursor) (l : list (envelope Z)) : Prop :=
    cur_ok n (nc_epoch cur0) (nc_cycle cur0) cur /\ pos_ok cur
    /\ nc_rank cur = nc_rank cur0 /\ nc_order cur = nc_order cur0
    /\ row_envelopes (nc_cycle cur0) (remaining header hash64 n cur) = Ok l
    /\ ((cur = cur0) \/ normal n cur).

  Lemma row_envelopes_app cycle a b l : row_envelopes cycle (a ++ b) = Ok l ->
    exists x y, row_envelopes cycle a = Ok x /\ row_envelopes cycle b = Ok y /\ l = x ++ y.
  Proof.
    unfold row_envelopes. rewrite mapM_app. intros H. inv_bind H. inv_bind H. inversion H; eauto 6.
  Qed.

  Lemma remaining_valid n epoch cycle cur p : good n -> cur_ok n epoch cycle cur -> pos_ok cur ->
    In p (remaining header hash64 n cur) -> In (fst p) (n_files n) /\ 0 <= snd p < d_count (fst p).
  Proof.
    intros G Hc [_ Hr] Hin. unfold remaining in Hin.
    revert Hin. generalize (skipn (nc_file cur) (nc_order cur)) as order. generalize (nc_row cur) Hr.
    intros row Hrow order. revert row Hrow. induction order as [|i rest IH]; intros row Hrow Hin; cbn [rows_at] in Hin; [destruct Hin|].
    apply in_app_or in Hin as [Hin|Hin].
    - destruct (nth_error (n_files n) i) as [d|] eqn:E; [|destruct Hin].
      apply in_map_iff in Hin as [r [<- Hin]]. apply filter_In in Hin as [Hin _]. apply zrows_In in Hin.
      cbn. split; [eapply nth_error_In; eauto|lia].
    - apply (IH 0 ltac:(lia) Hin).
  Qed.

  Lemma row_envelopes_total n epoch cycle cur : good n -> cur_ok n epoch cycle cur -> pos_ok cur ->
    exists l, row_envelopes cycle (remaining header hash64 n cur) = Ok l.
  Proof.
    intros G Hc Hp. assert (H : forall p, In p (remaining header hash64 n cur) ->
        In (fst p) (n_files n) /\ 0 <= snd p < d_count (fst p)) by (intros; eapply remaining_valid; eauto).
    revert H. generalize (remaining header hash64 n cur). intros l H. induction l as [|p l IH]; [exists []; reflexivity|].
    destruct IH as [y Hy]; [intros; apply H; right; auto|].
    destruct (H p (or_introl eq_refl)) as [H1 H2]. pose proof (g_files G) as GF. rewrite Forall_forall in GF.
    destruct (@row_envelope_ok cycle (fst p) (snd p) (GF _ H1) H2) as [e He].
    exists (e :: y). unfold row_envelopes in *. cbn [mapM]. rewrite He, Hy. reflexivity.
  Qed.

  Lemma npz_next_spec n cur0 cur l limit : good n -> sampling_ok n (nc_epoch cur0) (nc_cycle cur0) ->
    npz_serves n cur0 cur l -> (0 < limit)%nat ->
    exists cur', next_envelopes header hash64 n cur limit = Ok (firstn limit l, cur')
      /\ npz_serves n cur0 cur' (skipn limit l).
  Proof.
    intros G HS [H1 [H2 [H3 [H4 [H5 H6]]]]] Hl.
    destruct (@next_envelopes_spec header hash64 n (nc_epoch cur0) (nc_cycle cur0)) with (cur := cur) (limit := limit)
      as [envs [cur' [N1 [N2 [N3 [N4 [N5 [N6 [N7 N8]]]]]]]]]; auto.
    { apply (g_files G). } { intros; apply (g_world G). } { apply admitted_total; auto. }
    exists cur'. rewrite <- (firstn_skipn limit (remaining header hash64 n cur)) in H5.
    apply row_envelopes_app in H5 as [x [y [X [Y ->]]]].
    rewrite N2 in X. inversion X; subst x.
    assert (Hlen : List.length envs = List.length (firstn limit (remaining header hash64 n cur)))
      by (eapply mapM_Ok_length; exact N2).
    assert (Hy : y = skipn limit (envs ++ y) /\ envs = firstn limit (envs ++ y)).
    { rewrite firstn_length in Hlen. destruct (Nat.le_gt_cases limit (List.length (remaining header hash64 n cur))).
      - rewrite Nat.min_l in Hlen by lia. rewrite firstn_app, skipn_app, Hlen, Nat.sub_diag.
        rewrite firstn_all2, skipn_all2 by lia. cbn. rewrite app_nil_r. auto.
      - rewrite skipn_all2 in Y by lia. inversion Y; subst y. rewrite app_nil_r.
        rewrite firstn_all2, skipn_all2 by lia. auto. }
    destruct Hy as [Hy1 Hy2]. rewrite <- Hy1, <- Hy2. split; auto.
    unfold npz_serves. conj; auto; try congruence.
  Qed.

  (** The NPZ sources meet the source contract. *)
  Lemma npz_source_serves n cur0 : good n -> sampling_ok n (nc_epoch cur0) (nc_cycle cur0) ->
    serves (npz_source header hash64 n) (npz_serves n cur0).
  Proof.
    intros G HS. constructor; cbn.
    - intros c l HR. unfold next_envelope.
      destruct (npz_next_spec G HS HR (limit := 1)) as [c' [E HR']]; [lia|]. rewrite E. cbn [bind].
      exists c'. destruct l; auto.
    - intros f c l limit Hf HR Hl. inversion Hf; subst f.
      destruct (npz_next_spec G HS HR Hl) as [c' [E HR']].
      exists (firstn limit l), (skipn limit l), c'. conj; auto.
      + symmetry; apply firstn_skipn.
      + rewrite firstn_length; lia.
      + destruct l; auto. destruct limit; [lia|discriminate].
  Qed.

  Lemma npz_serve_spec n cur0 qs : good n -> sampling_ok n (nc_epoch cur0) (nc_cycle cur0) ->
    Forall request_ok qs -> forall cur l, npz_serves n cur0 cur l ->
    exists cur', serve_source (npz_source header hash64 n) cur qs = Ok (firstn (total_requested qs) l, cur')
      /\ npz_serves n cur0 cur' (skipn (total_requested qs) l).
  Proof.
    intros G HS Hq. induction qs as [|q qs IH]; intros cur l HR; cbn [serve_source total_requested fold_right].
    - exists cur. auto.
    - fold (total_requested qs). inversion Hq as [|? ? H1 H2]; subst.
      assert (Hone : exists cur1, match q with
          | NextOne => '(e, c) <- s_next (npz_source header hash64 n) cur ;;
                       Ok (match e with None => [] | Some x => [x] end, c)
          | NextMany k => match s_many (npz_source header hash64 n) with Some f => f cur k | None => Err TypeError end
          end = Ok (firstn (request_size q) l, cur1) /\ npz_serves n cur0 cur1 (skipn (request_size q) l)).
      { destruct q as [|k]; cbn [request_size npz_source s_next s_many].
        - unfold next_envelope. destruct (npz_next_spec G HS HR (limit := 1)) as [c' [E HR']]; [lia|].
          rewrite E. cbn [bind]. exists c'. destruct l; auto.
        - apply npz_next_spec; auto. }
      destruct Hone as [cur1 [E1 R1]]. rewrite E1. cbn [bind].
      destruct (IH H2 _ _ R1) as [cur2 [E2 R2]]. rewrite E2. cbn [bind]. exists cur2.
      rewrite skipn_skipn in R2.
      replace (total_requested qs + request_size q)%nat with (request_size q + total_requested qs)%nat in R2 by lia.
      split; auto. f_equal. f_equal.
      rewrite <- (firstn_skipn (request_size q) (firstn (request_size q + total_requested qs) l)).
      rewrite firstn_firstn, Nat.min_l by lia. f_equal. rewrite skipn_firstn_comm. f_equal. lia.
  Qed.

  Lemma start_serves n epoch cycle rank cur : good n -> sampling_ok n epoch cycle ->
    start_cycle header hash64 sha256 n epoch cycle rank = Ok cur ->
    exists l, npz_serves n cur cur l /\ row_envelopes cycle (remaining header hash64 n cur) = Ok l.
  Proof.
    intros G HS H. destruct (@start_cursor_ok n epoch cycle rank cur G H) as [H1 H2].
    destruct (@row_envelopes_total n epoch cycle cur G H1 H2) as [l Hl]. exists l. split; auto.
    destruct H1 as [A [B [C D]]]. unfold npz_serves, cur_ok. rewrite A, B. conj; auto; try (apply C; assumption); try apply H2.
  Qed.
End Hashed.
