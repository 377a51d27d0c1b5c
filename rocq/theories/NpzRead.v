(** Reading an NPZ source: packed reading, the source contract, construction,
    rank partition, record-id resolution, cursor save/restore. *)
From Verif Require Import Base BaseFacts Rng RngFacts Source Composite CompositeSim Npz NpzSpec NpzFacts.
Set Implicit Arguments.

Lemma zrows_shift d a b : map (Z.add d) (zrows a b) = zrows (d + a) (d + b).
Proof.
  unfold zrows. rewrite map_map. replace (d + b - (d + a)) with (b - a) by lia.
  apply map_ext; intros; lia.
Qed.

Lemma filter_true {A} (f : A -> bool) l : (forall x, In x l -> f x = true) -> filter f l = l.
Proof.
  induction l as [|a l IH]; intros H; [reflexivity|]. cbn. rewrite H by (left; reflexivity).
  f_equal. apply IH. intros; apply H; right; assumption.
Qed.
Lemma filter_len_le {A} (f : A -> bool) l : (List.length (filter f l) <= List.length l)%nat.
Proof. induction l as [|a l IH]; cbn; [lia|]. destruct (f a); cbn; lia. Qed.

Section Packed.
  Variable header : bytes.
  Variable hash64 : bytes -> Z.
  Variable n : npz.
  Variables epoch cycle : Z.
  Hypothesis Hfiles : Forall file_ok (n_files n).
  Hypothesis Hshard : n_sharded n = false.
  Hypothesis Hrate : 0 < n_den n /\ 0 <= n_num n <= n_den n.
  Hypothesis Hadm : forall d row, In d (n_files n) -> 0 <= row < d_count d ->
    exists b, admitted header hash64 n epoch cycle d row = Ok b.
  Variable cur : npz_cursor.
  Hypothesis Hcur : cur_ok n epoch cycle cur.
  Local Notation keep := (wanted header hash64 n (nc_epoch cur) (nc_cycle cur) (nc_rank cur)).
  Local Notation order := (nc_order cur).

  Lemma keep_admitted d row b : admitted header hash64 n epoch cycle d row = Ok b -> keep d row = b.
  Proof.
    intros H. destruct Hcur as [He [Hc _]]. unfold wanted, is_admitted. rewrite Hshard, He, Hc, H. reflexivity.
  Qed.

  Lemma full_rate_admits d row : n_num n = n_den n -> In d (n_files n) -> 0 <= row < d_count d ->
    admitted header hash64 n epoch cycle d row = Ok true.
  Proof.
    intros Hr Hin Hrow. destruct (Hadm d Hin Hrow) as [b Hb]. rewrite Hb. f_equal.
    unfold admitted in Hb. inv_bind Hb. unfold sample_is_admitted in Hb. apply guard_Ok in Hb as [_ Hb].
    replace (n_num n <=? 0) with false in Hb by lia. replace (n_den n <=? n_num n) with true in Hb by lia.
    congruence.
  Qed.

  Lemma admit_rows_spec d take : forall row, In d (n_files n) -> 0 <= row -> row + Z.of_nat take <= d_count d ->
    admit_rows header hash64 n cur d row take
    = Ok (map (Z.add (d_begin d)) (filter (keep d) (zrows row (row + Z.of_nat take)))).
  Proof.
    induction take as [|t IH]; intros row Hin H0 Hle; cbn [admit_rows].
    - rewrite zrows_nil by lia. reflexivity.
    - destruct (Hadm d Hin (row := row) ltac:(lia)) as [b Hb]. destruct Hcur as [He [Hc _]].
      rewrite He, Hc, Hb. cbn [bind]. rewrite IH by (auto; lia). cbn [bind].
      rewrite (@zrows_cons row) by lia. cbn [filter].
      replace (row + 1 + Z.of_nat t) with (row + Z.of_nat (S t)) by lia.
      pose proof (keep_admitted _ _ Hb) as K. rewrite He, Hc in K. rewrite K.
      rewrite He, Hc. destruct b; reflexivity.
  Qed.

  Lemma packed_loop_spec limit fuel : forall fp row out,
    (work n (skipn fp order) row < fuel)%nat -> 0 <= row -> (fp <= List.length order)%nat ->
    let rem := rows_at (n_files n) keep (skipn fp order) row in
    let k := (limit - List.length out)%nat in
    exists fp' row',
      packed_loop header hash64 fuel n cur limit fp row out = Ok (out ++ map row_id (firstn k rem), fp', row')
      /\ rows_at (n_files n) keep (skipn fp' order) row' = skipn k rem
      /\ 0 <= row' /\ (fp' <= List.length order)%nat.
  Proof.
    induction fuel as [|fuel IH]; intros fp row out Hw Hr Hfp rem k; [lia|].
    cbn [packed_loop].
    destruct (Nat.ltb_spec (List.length out) limit) as [Hlt|Hge]; cbn [andb].
    2:{ exists fp, row. assert (k = 0)%nat by (unfold k; lia). rewrite H. cbn [firstn map]. rewrite app_nil_r.
        conj; auto. }
    destruct (Nat.ltb_spec fp (List.length order)) as [Hlt2|Hge2]; cbn [andb].
    2:{ exists fp, row. unfold rem. rewrite (@skipn_all2 _ fp order) by lia.
        cbn [rows_at]. rewrite firstn_nil, skipn_nil. cbn [map]. rewrite app_nil_r. conj; auto. }
    destruct (@file_at_ok header hash64 n epoch cycle Hfiles ltac:(congruence) Hadm cur Hcur fp Hlt2) as [i [d [E1 [E2 [E3 [Hd [Hin E4]]]]]]].
    rewrite E3. cbn [bind]. unfold rem. rewrite E4 in *. cbn [rows_at work] in *. rewrite E2 in *.
    destruct (Z.leb_spec (d_count d) row) as [Hend|Hgo].
    - rewrite (@zrows_nil row) by lia. cbn [filter map app].
      destruct (IH (S fp) 0 out) as [fp' [row' [I1 [I3 [I4 I5]]]]]; [lia|lia|lia|].
      exists fp', row'. conj; auto.
    - set (take := Nat.min (limit - List.length out) (Z.to_nat (d_count d - row))).
      assert (Ht : row + Z.of_nat take <= d_count d) by (unfold take; lia).
      assert (Ht1 : (0 < take)%nat) by (unfold take; lia).
      set (ids := map (Z.add (d_begin d)) (filter (keep d) (zrows row (row + Z.of_nat take)))).
      assert (Hids : (if n_num n =? n_den n then Ok (id_range (d_begin d + row) take)
                      else admit_rows header hash64 n cur d row take) = Ok ids).
      { destruct (Z.eqb_spec (n_num n) (n_den n)) as [Hfull|Hpart].
        - f_equal. unfold ids. rewrite filter_true.
          + rewrite zrows_shift. unfold id_range, zrows. replace (Z.to_nat _) with take by lia. reflexivity.
          + intros x Hx. apply zrows_In in Hx.
            apply keep_admitted. apply full_rate_admits; auto. lia.
        - apply admit_rows_spec; auto; lia. }
      rewrite Hids. cbn [bind].
      assert (Hw2 : (work n (skipn fp order) (row + Z.of_nat take) < fuel)%nat).
      { rewrite E4. cbn [work]. rewrite E2. lia. }
      destruct (IH fp (row + Z.of_nat take) (out ++ ids) Hw2 ltac:(lia) ltac:(lia)) as [fp' [row' [I1 [I3 [I4 I5]]]]].
      cbn zeta in I1, I3. rewrite E4 in I1, I3. cbn [rows_at] in I1, I3. rewrite E2 in I1, I3.
      exists fp', row'.
      assert (Hsplit : map (pair d) (filter (keep d) (zrows row (d_count d)))
                     = map (pair d) (filter (keep d) (zrows row (row + Z.of_nat take)))
                       ++ map (pair d) (filter (keep d) (zrows (row + Z.of_nat take) (d_count d)))).
      { rewrite <- map_app, <- filter_app, <- zrows_app by lia. reflexivity. }
      assert (Hlen : (List.length (filter (keep d) (zrows row (row + Z.of_nat take))) <= k)%nat).
      { etransitivity; [apply filter_len_le|]. rewrite zrows_length. unfold k, take in *. lia. }
      assert (Hidsl : List.length ids = List.length (filter (keep d) (zrows row (row + Z.of_nat take))))
        by (unfold ids; rewrite map_length; reflexivity).
      rewrite Hsplit, <- app_assoc.
      rewrite firstn_app, skipn_app, map_length.
      rewrite (firstn_all2 (n := k)) by (rewrite map_length; exact Hlen).
      rewrite (skipn_all2 (n := k)) by (rewrite map_length; exact Hlen). cbn [app].
      rewrite app_length, Hidsl in I1, I3.
      replace (limit - (List.length out + List.length (filter (keep d) (zrows row (row + Z.of_nat take)))))%nat
        with (k - List.length (filter (keep d) (zrows row (row + Z.of_nat take))))%nat in I1, I3 by (unfold k; lia).
      conj; auto. rewrite I1. f_equal. f_equal. f_equal. rewrite <- app_assoc. f_equal.
      rewrite map_app. f_equal. unfold ids. rewrite map_map. reflexivity.
  Qed.

  Lemma next_packed_spec limit : (0 < limit)%nat -> pos_ok cur ->
    exists cur',
      next_packed_records header hash64 n cur limit
        = Ok (map row_id (firstn limit (remaining header hash64 n cur)), cur')
      /\ remaining header hash64 n cur' = skipn limit (remaining header hash64 n cur)
      /\ cur_ok n epoch cycle cur' /\ pos_ok cur' /\ normal n cur' /\ nc_rank cur' = nc_rank cur
      /\ nc_order cur' = nc_order cur.
  Proof.
    intros Hl [Hp1 Hp2]. unfold next_packed_records. replace (0 <? limit)%nat with true by lia.
    destruct (@packed_loop_spec limit (read_fuel n cur) (nc_file cur) (nc_row cur) [])
      as [fp [row [I1 [I3 [I4 I5]]]]]; auto.
    { apply work_le. lia. }
    rewrite I1. cbn [bind app].
    destruct (@normalise_spec header hash64 n epoch cycle Hfiles ltac:(congruence) Hadm cur Hcur fp row I4 I5) as [cur' [N1 [N2 [N3 [N4 [N5 [N6 N7]]]]]]].
    rewrite N1. cbn [bind]. exists cur'. cbn [List.length] in I3 |- *.
    rewrite Nat.sub_0_r in I3 |- *. conj; auto. rewrite N7. exact I3.
  Qed.
End Packed.
