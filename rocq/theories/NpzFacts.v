From Verif Require Import Base BaseFacts Rng RngFacts Source Composite CompositeSim Npz NpzSpec.
Set Implicit Arguments.

Lemma zrows_nil a b : b <= a -> zrows a b = [].
Proof. intros. unfold zrows. replace (Z.to_nat (b - a)) with 0%nat by lia. reflexivity. Qed.

Lemma zrows_cons a b : a < b -> zrows a b = a :: zrows (a + 1) b.
Proof.
  intros. unfold zrows. replace (Z.to_nat (b - a)) with (S (Z.to_nat (b - (a + 1)))) by lia.
  cbn [seq map]. f_equal; [lia|]. rewrite <- seq_shift, map_map. apply map_ext. intros; lia.
Qed.

Lemma zrows_app a b c : a <= b <= c -> zrows a c = zrows a b ++ zrows b c.
Proof.
  remember (Z.to_nat (b - a)) as k. revert a Heqk.
  induction k as [|k IH]; intros a Hk H.
  - assert (a = b) by lia. subst. rewrite (@zrows_nil b b) by lia. reflexivity.
  - rewrite (@zrows_cons a c), (@zrows_cons a b) by lia. cbn [app]. f_equal. apply IH; lia.
Qed.

Lemma zrows_length a b : List.length (zrows a b) = Z.to_nat (b - a).
Proof. unfold zrows. rewrite map_length, seq_length. reflexivity. Qed.

Lemma zrows_In a b x : In x (zrows a b) <-> a <= x < b.
Proof.
  unfold zrows. rewrite in_map_iff. split.
  - intros [k [<- Hk]]. apply in_seq in Hk. lia.
  - intros H. exists (Z.to_nat (x - a)). split; [lia|]. apply in_seq. lia.
Qed.

Lemma filter_false {A} (f : A -> bool) l : (forall x, In x l -> f x = false) -> filter f l = [].
Proof.
  induction l as [|a l IH]; intros H; [reflexivity|]. cbn. rewrite H by (left; reflexivity).
  apply IH. intros; apply H; right; assumption.
Qed.

Lemma filter_zrows_skip (f : Z -> bool) a b c :
  a <= b -> (forall r, a <= r < b -> f r = false) -> filter f (zrows a c) = filter f (zrows b c).
Proof.
  intros Hab H. destruct (Z_le_gt_dec b c) as [Hbc|Hbc].
  - rewrite (@zrows_app a b c) by lia. rewrite filter_app.
    rewrite (filter_false f (zrows a b)); [reflexivity|].
    intros x Hx. apply zrows_In in Hx. auto.
  - rewrite (@zrows_nil b c) by lia. apply filter_false. intros x Hx. apply zrows_In in Hx.
    apply H; lia.
Qed.

(** The first candidate row of a shard: nothing is skipped. *)
Lemma shard_first w rank g : 0 < w -> 0 <= rank < w ->
  let k := (rank - g) mod w in
  0 <= k < w /\ (g + k) mod w = rank /\ forall j, 0 <= j < k -> (g + j) mod w <> rank.
Proof.
  intros Hw Hr k. assert (Hk : 0 <= k < w) by (apply Z.mod_pos_bound; lia).
  split; [exact Hk|]. split.
  - unfold k. rewrite Z.add_mod_idemp_r by lia. replace (g + (rank - g)) with rank by lia.
    apply Z.mod_small; lia.
  - intros j Hj E. assert (k = j mod w).
    { unfold k. rewrite <- E. rewrite Zminus_mod_idemp_l. f_equal. lia. }
    rewrite Z.mod_small in H by lia. lia.
Qed.

Lemma shard_next w rank g j : 0 < w -> g mod w = rank -> 0 < j < w -> (g + j) mod w <> rank.
Proof.
  intros Hw E Hj F. assert (H : (g + j - g) mod w = 0).
  { rewrite Zminus_mod, F, E. replace (rank - rank) with 0 by lia. reflexivity. }
  replace (g + j - g) with j in H by lia. rewrite Z.mod_small in H by lia. lia.
Qed.

  Fixpoint work (n : npz) (order : list nat) (row : Z) : nat :=
    match order with
    | [] => O
    | i :: rest => match nth_error (n_files n) i with
                   | Some d => (S (Z.to_nat (d_count d - row)) + work n rest 0)%nat
                   | None => S (work n rest 0)
                   end
    end.

  Lemma work_le n cur p row : 0 <= row ->
    (work n (skipn p (nc_order cur)) row < read_fuel n cur)%nat.
  Proof.
    intros Hr. unfold read_fuel. generalize (nc_order cur). intros order.
    revert p row Hr. induction order as [|i rest IH]; intros [|p] row Hr; cbn [skipn work fold_right]; try lia.
    - specialize (IH O 0 ltac:(lia)). cbn [skipn] in IH. destruct (nth_error (n_files n) i) as [d|]; lia.
    - specialize (IH p row Hr). destruct (nth_error (n_files n) i) as [d|]; lia.
  Qed.


  (** What construction guarantees about every file. *)
  Definition file_ok (d : file_desc) : Prop :=
    0 <= d_count d /\ 0 <= d_begin d
    /\ (forall l, d_rows d = Some l -> zlen l = d_count d)
    /\ (forall l, d_shape d = inr l -> zlen l = d_count d).

  Definition world_ok (n : npz) : Prop :=
    0 < n_world n /\ 0 <= n_rank n < n_world n.

  Lemma physical_row_ok d row : file_ok d -> 0 <= row < d_count d -> exists p, physical_row d row = Ok p.
  Proof.
    intros [_ [_ [H _]]] Hr. unfold physical_row. destruct (d_rows d) as [l|]; [|eauto].
    specialize (H l eq_refl). unfold zlen in H. rewrite (py_get_lt l 0) by lia. eauto.
  Qed.
  Lemma row_envelope_ok cycle d row : file_ok d -> 0 <= row < d_count d ->
    exists e, row_envelope cycle d row = Ok e.
  Proof.
    intros Hd Hr. unfold row_envelope. destruct (physical_row_ok Hd Hr) as [p ->]. cbn [bind].
    unfold row_shape. destruct Hd as [_ [_ [_ H]]]. destruct (d_shape d) as [c|l]; [cbn; eauto|].
    specialize (H l eq_refl). unfold zlen in H. rewrite (py_get_lt l 0) by lia. cbn; eauto.
  Qed.

Section Files.
  Variable header : bytes.
  Variable hash64 : bytes -> Z.
  Variable n : npz.
  Variables epoch cycle : Z.
  Hypothesis Hfiles : Forall file_ok (n_files n).
  Hypothesis Hworld : n_sharded n = true -> 0 < n_world n.
  Hypothesis Hadm : forall d row, In d (n_files n) -> 0 <= row < d_count d ->
    exists b, admitted header hash64 n epoch cycle d row = Ok b.

  Definition cur_ok (cur : npz_cursor) : Prop :=
    nc_epoch cur = epoch /\ nc_cycle cur = cycle
    /\ (n_sharded n = true -> 0 <= nc_rank cur < n_world n)
    /\ Forall (fun i => i < List.length (n_files n))%nat (nc_order cur).
  Definition pos_ok (cur : npz_cursor) : Prop :=
    (nc_file cur <= List.length (nc_order cur))%nat /\ 0 <= nc_row cur.

  Variable cur : npz_cursor.
  Hypothesis Hcur : cur_ok cur.
  Local Notation keep := (wanted header hash64 n (nc_epoch cur) (nc_cycle cur) (nc_rank cur)).
  Local Notation order := (nc_order cur).

  Lemma file_at_ok fp : (fp < List.length order)%nat ->
    exists i d, nth_error order fp = Some i /\ nth_error (n_files n) i = Some d
      /\ file_at n order fp = Ok d /\ file_ok d /\ In d (n_files n)
      /\ skipn fp order = i :: skipn (S fp) order.
  Proof.
    intros Hfp. destruct (nth_error order fp) as [i|] eqn:E; [|apply nth_error_None in E; lia].
    destruct Hcur as [_ [_ [_ Ho]]]. rewrite Forall_forall in Ho.
    assert (Hi : (i < List.length (n_files n))%nat) by (apply Ho; eapply nth_error_In; eauto).
    destruct (nth_error (n_files n) i) as [d|] eqn:D; [|apply nth_error_None in D; lia].
    exists i, d. assert (In d (n_files n)) by (eapply nth_error_In; eauto).
    rewrite Forall_forall in Hfiles. conj; auto.
    - unfold file_at, py_get. rewrite E. cbn. rewrite D. reflexivity.
    - apply (skipn_nth _ _ i E).
  Qed.

  Lemma read_loop_spec limit fuel : forall fp row out,
    (work n (skipn fp order) row < fuel)%nat -> 0 <= row -> (fp <= List.length order)%nat ->
    let rem := rows_at (n_files n) keep (skipn fp order) row in
    let k := (limit - List.length out)%nat in
    exists envs fp' row',
      read_loop header hash64 fuel n cur limit fp row out = Ok (out ++ envs, fp', row')
      /\ row_envelopes cycle (firstn k rem) = Ok envs
      /\ rows_at (n_files n) keep (skipn fp' order) row' = skipn k rem
      /\ 0 <= row' /\ (fp' <= List.length order)%nat.
  Proof.
    destruct Hcur as [He [Hc [Hrk Ho]]].
    induction fuel as [|fuel IH]; intros fp row out Hw Hr Hfp rem k; [lia|].
    cbn [read_loop].
    destruct (Nat.ltb_spec (List.length out) limit) as [Hlt|Hge]; cbn [andb].
    2:{ exists [], fp, row. assert (k = 0)%nat by (unfold k; lia). rewrite H, app_nil_r.
        conj; auto. }
    destruct (Nat.ltb_spec fp (List.length order)) as [Hlt2|Hge2]; cbn [andb].
    2:{ exists [], fp, row. unfold rem. rewrite (@skipn_all2 _ fp order) by lia.
        rewrite app_nil_r. cbn [rows_at]. rewrite firstn_nil, skipn_nil. conj; auto. }
    destruct (file_at_ok Hlt2) as [i [d [E1 [E2 [E3 [Hd [Hin E4]]]]]]].
    rewrite E3. cbn [bind]. unfold rem. rewrite E4 in *. cbn [rows_at work] in *. rewrite E2 in *.
    set (row1 := if n_sharded n && (row <? d_count d)
                 then row + (nc_rank cur - (d_begin d + row)) mod n_world n else row).
    assert (Hrow1 : row <= row1 /\ (forall r, row <= r < row1 -> keep d r = false)
                    /\ (row1 < d_count d -> n_sharded n = true -> (d_begin d + row1) mod n_world n = nc_rank cur)).
    { unfold row1. destruct (n_sharded n) eqn:Hs; cbn [andb]; [|conj; [lia|intros; lia|discriminate]].
      destruct (Z.ltb_spec row (d_count d)); [|conj; [lia|intros; lia|intros; lia]].
      destruct (@shard_first (n_world n) (nc_rank cur) (d_begin d + row)) as [A [B C]]; auto.
      conj; [lia| |intros; rewrite Z.add_assoc; exact B].
      intros r Hr'. unfold wanted. rewrite Hs.
      specialize (C (r - row) ltac:(lia)). replace (d_begin d + row + (r - row)) with (d_begin d + r) in C by lia.
      replace ((d_begin d + r) mod n_world n =? nc_rank cur) with false by lia. reflexivity. }
    destruct Hrow1 as [Hle [Hsk Hmod]].
    rewrite (@filter_zrows_skip _ row row1 (d_count d) Hle Hsk).
    destruct (Z.leb_spec (d_count d) row1) as [Hend|Hgo].
    - rewrite (@zrows_nil row1) by lia. cbn [filter map app].
      destruct (IH (S fp) 0 out) as [envs [fp' [row' [I1 [I2 [I3 [I4 I5]]]]]]]; [lia|lia|lia|].
      exists envs, fp', row'. conj; auto.
    - assert (Hin2 : 0 <= row1 < d_count d) by lia.
      destruct (Hadm d Hin Hin2) as [b Hb]. rewrite He, Hc, Hb. cbn [bind].
      rewrite (@zrows_cons row1) by lia. cbn [filter].
      assert (Hkeep : keep d row1 = b).
      { unfold wanted, is_admitted. rewrite He, Hc, Hb.
        destruct (n_sharded n) eqn:Hs; [|destruct b; reflexivity].
        rewrite Hmod by auto. rewrite Z.eqb_refl. reflexivity. }
      rewrite He, Hc in Hkeep. rewrite Hkeep.
      set (row2 := row1 + (if n_sharded n then n_world n else 1)).
      assert (Hr2 : row1 + 1 <= row2) by (unfold row2; destruct (n_sharded n); [specialize (Hworld eq_refl)|]; lia).
      assert (Hskip2 : filter (keep d) (zrows (row1 + 1) (d_count d)) = filter (keep d) (zrows row2 (d_count d))).
      { apply filter_zrows_skip; [lia|]. intros r Hr'. unfold row2 in Hr'. unfold wanted.
        destruct (n_sharded n) eqn:Hs; [|lia].
        specialize (Hmod Hgo eq_refl).
        pose proof (@shard_next (n_world n) (nc_rank cur) (d_begin d + row1) (r - row1) ltac:(auto) Hmod ltac:(lia)) as Hn.
        replace (d_begin d + row1 + (r - row1)) with (d_begin d + r) in Hn by lia.
        replace ((d_begin d + r) mod n_world n =? nc_rank cur) with false by lia. reflexivity. }
      rewrite He, Hc in Hskip2. rewrite Hskip2.
      rewrite He, Hc in IH.
      assert (Hw2 : (work n (skipn fp order) row2 < fuel)%nat).
      { rewrite E4. cbn [work]. rewrite E2. lia. }
      destruct b; cbn [negb].
      + destruct (@row_envelope_ok cycle d row1 Hd Hin2) as [e Ee]. rewrite Ee. cbn [bind].
        destruct (IH fp row2 (out ++ [e]) Hw2 ltac:(lia) ltac:(lia)) as [envs [fp' [row' [I1 [I2 [I3 [I4 I5]]]]]]].
        cbn zeta in I2, I3. rewrite app_length in I2, I3. cbn [List.length] in I2, I3.
        rewrite E4 in I2, I3. cbn [rows_at] in I2, I3. rewrite E2 in I2, I3.
        replace (limit - (List.length out + 1))%nat with (k - 1)%nat in I2, I3 by (unfold k; lia).
        exists (e :: envs), fp', row'. rewrite I1, <- app_assoc. cbn [app].
        assert (Hk : exists k', k = S k') by (exists (k - 1)%nat; unfold k; lia).
        destruct Hk as [k' Hk']. rewrite Hk' in *. replace (S k' - 1)%nat with k' in * by lia.
        cbn [map app]. rewrite firstn_cons, skipn_cons. conj; auto.
        unfold row_envelopes in *. cbn [mapM fst snd]. rewrite Ee. cbn [bind]. rewrite I2. reflexivity.
      + destruct (IH fp row2 out Hw2 ltac:(lia) ltac:(lia)) as [envs [fp' [row' [I1 [I2 [I3 [I4 I5]]]]]]].
        cbn zeta in I2, I3. rewrite E4 in I2, I3. cbn [rows_at] in I2, I3. rewrite E2 in I2, I3.
        exists envs, fp', row'. conj; auto.
  Qed.

  Lemma skip_loop_spec fuel : forall fp row,
    (List.length order - fp < fuel)%nat -> 0 <= row -> (fp <= List.length order)%nat ->
    exists fp' row', skip_loop fuel n cur fp row = Ok (fp', row')
      /\ rows_at (n_files n) keep (skipn fp' order) row' = rows_at (n_files n) keep (skipn fp order) row
      /\ 0 <= row' /\ (fp' <= List.length order)%nat
      /\ (forall d, file_at n order fp' = Ok d -> row' < d_count d).
  Proof.
    induction fuel as [|fuel IH]; intros fp row Hf Hr Hfp; [lia|].
    cbn [skip_loop]. destruct (Nat.ltb_spec fp (List.length order)) as [Hlt|Hge].
    - destruct (file_at_ok Hlt) as [i [d [E1 [E2 [E3 [Hd [Hin E4]]]]]]]. rewrite E3. cbn [bind].
      destruct (Z.leb_spec (d_count d) row) as [Hend|Hgo].
      + destruct (IH (S fp) 0) as [fp' [row' [I1 [I2 [I3 [I4 I5]]]]]]; [lia..|].
        exists fp', row'. conj; auto. rewrite I2, E4. cbn [rows_at]. rewrite E2.
        rewrite zrows_nil by lia. reflexivity.
      + exists fp, row. conj; auto. intros d' Hd'. rewrite E3 in Hd'. inversion Hd'; subst. exact Hgo.
    - exists fp, row. conj; auto. intros d Hd. unfold file_at, py_get in Hd.
      destruct (nth_error order fp) eqn:E; [|discriminate].
      assert (fp < List.length order)%nat by (apply nth_error_Some; congruence). lia.
  Qed.

  (** A cursor every read leaves behind: a position inside a file, or the end. *)
  Definition normal (c : npz_cursor) : Prop :=
    (nc_file c = List.length (nc_order c) /\ nc_row c = 0)
    \/ (exists d, file_at n (nc_order c) (nc_file c) = Ok d /\ 0 <= nc_row c < d_count d).

  Lemma normalise_spec fp row :
    0 <= row -> (fp <= List.length order)%nat ->
    exists cur', normalise n cur fp row = Ok cur'
      /\ cur_ok cur' /\ pos_ok cur' /\ normal cur'
      /\ nc_rank cur' = nc_rank cur /\ nc_order cur' = nc_order cur
      /\ remaining header hash64 n cur' = rows_at (n_files n) keep (skipn fp order) row.
  Proof.
    intros Hr Hfp. unfold normalise.
    destruct (@skip_loop_spec (S (List.length order)) fp row) as [fp' [row' [I1 [I2 [I3 [I4 I5]]]]]]; [lia..|].
    rewrite I1. cbn [bind]. eexists. split; [reflexivity|].
    unfold cur_ok, pos_ok, normal, remaining; cbn [nc_epoch nc_cycle nc_rank nc_order nc_file nc_row].
    destruct Hcur as [He [Hc [Hrk Ho]]].
    destruct (Nat.eqb_spec fp' (List.length order)) as [Heq|Hne].
    - conj; auto; try lia. rewrite <- I2, Heq, skipn_all. reflexivity.
    - conj; auto; try lia. right. destruct (@file_at_ok fp' ltac:(lia)) as [i [d [_ [_ [E3 _]]]]].
      exists d. split; auto.
  Qed.

  Lemma next_envelopes_spec limit : (0 < limit)%nat -> pos_ok cur ->
    exists envs cur',
      next_envelopes header hash64 n cur limit = Ok (envs, cur')
      /\ row_envelopes cycle (firstn limit (remaining header hash64 n cur)) = Ok envs
      /\ remaining header hash64 n cur' = skipn limit (remaining header hash64 n cur)
      /\ cur_ok cur' /\ pos_ok cur' /\ normal cur' /\ nc_rank cur' = nc_rank cur
      /\ nc_order cur' = nc_order cur.
  Proof.
    intros Hl [Hp1 Hp2]. unfold next_envelopes. replace (0 <? limit)%nat with true by lia.
    destruct (@read_loop_spec limit (read_fuel n cur) (nc_file cur) (nc_row cur) [])
      as [envs [fp [row [I1 [I2 [I3 [I4 I5]]]]]]]; auto.
    { apply work_le. lia. }
    rewrite I1. cbn [bind app]. destruct (normalise_spec I4 I5) as [cur' [N1 [N2 [N3 [N4 [N5 [N6 N7]]]]]]].
    rewrite N1. cbn [bind]. exists envs, cur'. cbn [List.length] in I2, I3.
    rewrite Nat.sub_0_r in I2, I3. conj; auto. rewrite N7. exact I3.
  Qed.
End Files.
