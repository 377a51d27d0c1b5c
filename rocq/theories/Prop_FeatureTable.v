(** C51, C52: the exported feature tables of the mixnet models, and the compressed stream they are written to.
    Vocabulary: LineEncodingSpec.v (windows), FeatureTableSpec.v ([one_per_cell] and [local] describe the learned
    mapping, [filled] a table after the writes, [shape_number] the engine's numbering of windows,
    [field] the reading of a packed stream). *)
From Verif Require Import Base BaseFacts LineEncoding LineEncodingSpec Prop_LineEncoding FeatureTable FeatureTableSpec FeatureTableFacts FeatureTableMixed FeatureTableEncoded FeatureTableStream.
Set Implicit Arguments. Unset Strict Implicit.

(** ** C51 *)
(** mix6, mix7, mix8: looking a window up under its number gives the feature the mapping computes, for every position of
    every line of any length; all other entries stay blank; no index leaves the table. *)
Theorem C51_lookup_is_the_mapping (F : Type) (mapping : list Z -> list F) (h batch : nat) :
  one_per_cell mapping -> local h mapping -> (0 < batch)%nat ->
  let number line x := shape_number h (walls_left h x) (seen h line x) (walls_right h (List.length line) x) in
  exists writes, mixed_feature_map mapping batch (2 * h + 1) = Ok writes
    /\ (forall k f, In (k, f) writes -> 0 <= k < 4 * 3 ^ (2 * Z.of_nat h + 1))
    /\ forall blank table, filled (4 * 3 ^ (2 * Z.of_nat h + 1)) writes blank table ->
         (forall line x f, cells line -> nth_error (mapping line) x = Some f -> table (number line x) = f)
         /\ (forall k, (forall line x, cells line -> (x < List.length line)%nat -> number line x <> k) -> table k = blank).
Proof.
  intros O Lo B number. destruct (mixed_writes O h B) as (writes & E & _). exists writes. split; [exact E|].
  assert (Real : forall k f, In (k, f) writes -> exists line x, cells line /\ (x < List.length line)%nat /\ nth_error (mapping line) x = Some f /\ k = number line x).
  { intros k f I. destruct (mixed_write_real O B E I) as (line & x & C & X & N & K). exists line, x. auto. }
  split.
  { intros k f I. destruct (Real _ _ I) as (line & x & C & X & _ & ->). apply shape_range. apply (seen_shape h C X). }
  intros blank table (_ & Fl). split.
  - intros line x f C N. assert (X : (x < List.length line)%nat) by (rewrite <- (O line); apply nth_error_Some; congruence).
    destruct (mixed_covers O B E C X) as (line' & x' & f' & C' & Wd & N' & I). fold (number line x) in I.
    destruct (Fl (number line x)) as [I2|(No & _)]; [|exfalso; apply (No _ I)].
    destruct (Real _ _ I2) as (l2 & x2 & C2 & X2 & N2 & K2).
    destruct (shape_number_inj (seen_shape h C X) (seen_shape h C2 X2) K2) as (A1 & A2 & A3).
    apply (Lo l2 line x2 x); auto. rewrite !window_shape by assumption. rewrite A1, A2, A3. reflexivity.
  - intros k No. destruct (Fl k) as [I|(_ & Bl)]; [|exact Bl]. destruct (Real _ _ I) as (line & x & C & X & _ & K). exfalso. apply (No line x C X). symmetry. exact K.
Qed.
(** The numbers tell windows apart and depend on the window only. *)
Theorem C51_numbers_are_windows (h : nat) line x line' x' :
  cells line -> cells line' -> (x < List.length line)%nat -> (x' < List.length line')%nat ->
  (shape_number h (walls_left h x) (seen h line x) (walls_right h (List.length line) x)
     = shape_number h (walls_left h x') (seen h line' x') (walls_right h (List.length line') x')
   <-> line_window line h (Z.of_nat x) = line_window line' h (Z.of_nat x')).
Proof.
  intros C C' X X'. split; intros E.
  - destruct (shape_number_inj (seen_shape h C X) (seen_shape h C' X') E) as (A1 & A2 & A3). rewrite !window_shape by assumption. rewrite A1, A2, A3. reflexivity.
  - rewrite !window_shape in E by assumption. pose proof (seen_shape h C X) as (P1 & P2 & P3 & P4). pose proof (seen_shape h C' X') as (Q1 & Q2 & Q3 & Q4).
    revert E. generalize dependent (walls_left h x). generalize dependent (walls_left h x'). generalize dependent (walls_right h (List.length line) x). generalize dependent (walls_right h (List.length line') x').
    generalize dependent (seen h line x). generalize dependent (seen h line' x'). clear. intros s' D' s D r' R' r R l' L' N' l L N E.
    assert (PW : forall v, pt v <> Wall) by (intros v; unfold pt; destruct (v =? 1); [discriminate|destruct (v =? 2); discriminate]).
    assert (NE : s <> [] /\ s' <> []) by (split; intros ->; cbn in *; lia). destruct NE as (NE & NE').
    assert (HL : l = l' /\ map pt s ++ repeat Wall r = map pt s' ++ repeat Wall r').
    { clear - PW NE NE' E. revert l' E. induction l as [|l IH]; intros [|l'] E; cbn [repeat app] in E.
      - auto.
      - exfalso. destruct s as [|v s]; [congruence|]. cbn [map app] in E. injection E as E _. apply (PW v). exact E.
      - exfalso. destruct s' as [|v s']; [congruence|]. cbn [map app] in E. injection E as E _. apply (PW v). congruence.
      - injection E as E. destruct (IH _ E). auto. }
    destruct HL as (-> & E2). clear E. assert (HR : s = s' /\ r = r').
    { clear - PW E2 D D'. revert s' D' E2. induction s as [|v s IH]; intros [|v' s'] D' E2; cbn [map app] in E2.
      - split; [reflexivity|]. apply (f_equal (@List.length _)) in E2. rewrite !repeat_length in E2. exact E2.
      - exfalso. destruct r; cbn in E2; [discriminate|]. injection E2 as E2 _. apply (PW v'). congruence.
      - exfalso. destruct r'; cbn in E2; [discriminate|]. injection E2 as E2 _. apply (PW v). congruence.
      - injection E2 as Ev E2. inversion D as [|? ? Dv Ds]; inversion D' as [|? ? Dv' Ds']; subst. destruct (IH Ds s' Ds' E2) as (-> & ->). split; [|reflexivity]. f_equal.
        unfold pt in Ev. destruct (Z.eqb_spec v 1), (Z.eqb_spec v' 1); try congruence; destruct (Z.eqb_spec v 2), (Z.eqb_spec v' 2); try congruence. lia. }
    destruct HR as (-> & ->). reflexivity.
Qed.
(** mix9, mix9s, mix10, mix9svq: the table is indexed by the line encoding that the data pipeline computes for
    boards (C40), so an engine that encodes its board the same way finds the feature of every point in every direction. *)
Theorem C51_board_codes_find_their_features (F : Type) (mapping : list Z -> list F) (h batch : nat) :
  one_per_cell mapping -> local h mapping -> (0 < batch)%nat -> (h <= 8)%nat ->
  exists total writes, encoded_feature_map mapping batch (2 * h + 1) = Ok (total, writes)
    /\ get_total_num_encoding (2 * Z.of_nat h + 1) = Ok total
    /\ (forall k f, In (k, f) writes -> 0 <= k < total)
    /\ forall blank table, filled total writes blank table ->
         forall board H W, List.length board = (2 * H * W)%nat -> (H <= 32 - h)%nat -> (W <= 32 - h)%nat ->
         exists out, transform_board board H W (2 * Z.of_nat h + 1) false = Ok out
           /\ forall i d y x, nth_error directions i = Some d -> (y < H)%nat -> (x < W)%nat ->
                let here := window (point_at board H W) h (Z.of_nat x) (Z.of_nat y) d in
                exists c, nth_error out (i * (H * W) + (y * W + x)) = Some c
                  /\ (exists line x', cells line /\ (x' < List.length line)%nat /\ line_window line h (Z.of_nat x') = here)
                  /\ forall line x' f, cells line -> line_window line h (Z.of_nat x') = here -> nth_error (mapping line) x' = Some f -> table c = f.
Proof.
  intros O Lo B Hh. destruct (C40_compact_codes_number_the_windows Hh) as (total & code & Et & Rt & Inj & Bd & Ln & _).
  destruct (@encoded_writes F mapping O h code total Rt Hh Et Ln batch B) as (writes & E & W). exists total, writes. split; [exact E|]. split; [exact Et|].
  assert (Lg : forall line x, cells line -> (x < List.length line)%nat -> legal h (line_window line h (Z.of_nat x))).
  { intros line x C X. rewrite window_shape by exact X. pose proof (seen_shape h C X) as (P1 & P2 & P3 & P4).
    exists (walls_left h x), (map pt (seen h line x)), (walls_right h (List.length line) x). split; [reflexivity|]. split; [exact P1|]. split; [exact P2|].
    split; [rewrite !app_length, !repeat_length, map_length; lia|]. intros I. apply in_map_iff in I. destruct I as (v & E1 & _). unfold pt in E1.
    destruct (v =? 1); [discriminate|]. destruct (v =? 2); discriminate. }
  split.
  { intros k f I. apply W in I. cbn [fst snd] in I. destruct I as (line & x & C & _ & X & -> & _). apply Rt. apply Lg; assumption. }
  intros blank table (_ & Fl) board H Wd Lb BH BW. destruct (Bd board H Wd Lb BH BW) as (out & Eo & _ & Codes). exists out. split; [exact Eo|].
  intros i d y x Hd Hy Hx here. destruct (Codes i d y x Hd Hy Hx) as (Lh & Nc). fold here in Lh, Nc. exists (code here). split; [exact Nc|].
  destruct (legal_line Lh) as (ls & xs & Cs & Ls & Xs & Ws). split; [exists ls, xs; auto|].
  intros line x' f C Wn N.
  assert (X2 : (xs < List.length (mapping ls))%nat) by (rewrite (O ls); exact Xs).
  destruct (nth_error (mapping ls) xs) as [fs|] eqn:Ns; [|apply nth_error_None in Ns; lia].
  assert (I : In (code here, fs) writes) by (apply W; exists ls, xs; rewrite Ws; auto).
  destruct (Fl (code here)) as [I2|(No & _)]; [|exfalso; apply (No _ I)]. apply W in I2. cbn [fst snd] in I2.
  destruct I2 as (l2 & x2 & C2 & L2 & X3 & K2 & N2). apply Inj in K2; [|exact Lh|apply Lg; assumption].
  apply (Lo l2 line x2 x'); auto. congruence.
Qed.
(** Such tables exist, whatever the order of the writes. *)
Theorem C51_tables_exist (F : Type) size (writes : list (Z * F)) blank :
  (forall k f, In (k, f) writes -> 0 <= k < size) -> exists table, filled size writes blank table.
Proof.
  intros H. exists (fun k => match find (fun w => fst w =? k) writes with Some w => snd w | None => blank end). split; [exact H|].
  intros k. destruct (find (fun w => fst w =? k) writes) as [w|] eqn:E.
  - left. apply find_some in E. destruct E as (I & E). apply Z.eqb_eq in E. subst k. destruct w. exact I.
  - right. split; [|reflexivity]. intros f I. pose proof (find_none _ _ E _ I) as X. cbn in X. lia.
Qed.
(** The most discriminating mapping there is: the feature of a cell is its window. *)
Definition all_seen (h : nat) (line : list Z) : list (list point) := map (fun x => line_window line h (Z.of_nat x)) (seq 0 (List.length line)).
Lemma all_seen_nth h line x f : nth_error (all_seen h line) x = Some f -> f = line_window line h (Z.of_nat x).
Proof.
  unfold all_seen. intros N. assert (X : (x < List.length line)%nat) by (apply (f_equal (fun o => match o with Some _ => true | None => false end)) in N;
    destruct (Nat.lt_ge_cases x (List.length line)) as [X|X]; [exact X|exfalso]; rewrite (proj2 (nth_error_None _ _)) in N by (rewrite map_length, seq_length; exact X); discriminate).
  rewrite nth_error_map, (nth_error_nth' _ 0%nat) in N by (rewrite seq_length; exact X). rewrite seq_nth in N by exact X. cbn [option_map Nat.add] in N. injection N as <-. reflexivity.
Qed.
Example C51_a_mapping h : one_per_cell (all_seen h) /\ local h (all_seen h).
Proof.
  split; [intros line; unfold all_seen; rewrite map_length, seq_length; reflexivity|].
  intros line line' x x' f f' _ _ E N N'. apply all_seen_nth in N. apply all_seen_nth in N'. congruence.
Qed.
Example C51_a_table :
  match mixed_feature_map (all_seen 1) 5 3 with
  | Ok ws => (List.length ws, existsb (fun w => (fst w =? 1 + 3 * 2 + 27) && match snd w with [Mine; Theirs; Wall] => true | _ => false end) ws)
  | _ => (0%nat, false) end = (84%nat, true).
Proof. vm_compute. reflexivity. Qed.
Example C51_a_second_table :
  match encoded_feature_map (all_seen 1) 5 3 with Ok (total, ws) => (List.length ws, total) | _ => (0%nat, 0) end = (102%nat, 63).
Proof. vm_compute. reflexivity. Qed.

(** ** C52 *)
(** Every value that fits comes back from the stream, whatever their number; the stream has the fewest 8-byte words that hold them. *)
Theorem C52_the_stream_is_lossless (bits : Z) (values : list Z) : 1 <= bits <= 64 ->
  let stream := write_feature_map_compressed bits values in
  zlen stream = 8 * ((bits * zlen values + 63) / 64)
  /\ forall i v, nth_error values i = Some v -> - 2 ^ (bits - 1) <= v < 2 ^ (bits - 1) -> field bits stream (Z.of_nat i) = v.
Proof.
  intros B stream. unfold stream, write_feature_map_compressed. destruct (@compress_ok bits values B 0 0 ltac:(lia) ltac:(cbn; lia)) as (W & R & N).
  destruct (spelled_words R) as (Sp & Sl). split; [rewrite Sl, N; f_equal|]. intros i v I V. unfold field. rewrite Sp, W. change (2 ^ 0) with 1.
  rewrite Z.add_0_l, Z.mul_1_l. rewrite (stacked_field (bits := bits) ltac:(lia) I). apply signed_field; [lia|exact V].
Qed.
(** Quantisation: the nearest multiple of 1/32 in range (ties to even), the nearest end outside it; larger features never get
    smaller numbers, and the numbers fit the 10 bits of the stream. *)
Theorem C52_quantisation_is_nearest (n d : Z) : 0 < d ->
  let q := quantised n d in
  -512 <= q <= 511
  /\ (-512 * d <= 32 * n <= 511 * d -> Z.abs (2 * (q * d - 32 * n)) <= d /\ (Z.abs (2 * (q * d - 32 * n)) = d -> Z.even q = true))
  /\ (32 * n < -512 * d -> q = -512) /\ (511 * d < 32 * n -> q = 511).
Proof.
  intros D q. unfold q, quantised. destruct (32 * n <? -512 * d) eqn:E1; [|destruct (511 * d <? 32 * n) eqn:E2].
  - rewrite around_whole. split; [lia|]. split; [lia|]. split; [reflexivity|lia].
  - rewrite around_whole. split; [lia|]. split; [lia|]. split; [lia|reflexivity].
  - split; [apply around_range; lia|]. split; [|split; lia]. intros _. split; [apply around_near; exact D|apply around_tie; exact D].
Qed.
Theorem C52_quantisation_is_monotone n d n' d' : 0 < d -> 0 < d' -> n * d' <= n' * d -> quantised n d <= quantised n' d'.
Proof.
  intros D D' H. pose proof (C52_quantisation_is_nearest n D) as (R & _ & Lo & Hi). pose proof (C52_quantisation_is_nearest n' D') as (R' & _ & Lo' & Hi').
  destruct (Z_lt_le_dec (32 * n) (-512 * d)) as [A|A]; [rewrite (Lo A); lia|].
  destruct (Z_lt_le_dec (511 * d') (32 * n')) as [A'|A']; [rewrite (Hi' A'); lia|].
  destruct (Z_lt_le_dec (511 * d) (32 * n)) as [G|G]; [exfalso; nia|]. destruct (Z_lt_le_dec (32 * n') (-512 * d')) as [G'|G']; [exfalso; nia|].
  unfold quantised. replace (32 * n <? -512 * d) with false by lia. replace (511 * d <? 32 * n) with false by lia. replace (32 * n' <? -512 * d') with false by lia. replace (511 * d' <? 32 * n') with false by lia.
  apply around_mono; auto. lia.
Qed.
(** End to end: the exported file gives back the quantised features. *)
Theorem C52_features_come_back (features : list (Z * Z)) i n d : Forall (fun f => 0 < snd f) features -> nth_error features i = Some (n, d) ->
  field 10 (write_feature_map_compressed 10 (map (fun f => quantised (fst f) (snd f)) features)) (Z.of_nat i) = quantised n d.
Proof.
  intros P N. apply C52_the_stream_is_lossless; [lia|rewrite nth_error_map, N; reflexivity|].
  assert (D : 0 < d) by (rewrite Forall_forall in P; apply (P (n, d)); apply nth_error_In with i; exact N).
  destruct (C52_quantisation_is_nearest n D) as (R & _). change (2 ^ (10 - 1)) with 512. lia.
Qed.
Example C52_a_stream :
  let s := write_feature_map_compressed 10 [-512; 511; 0; -1; 5; 7; -300; 2; 9] in
  (zlen s, map (field 10 s) [0; 1; 5; 6; 8]) = (16, [-512; 511; 7; -300; 9]).
Proof. vm_compute. reflexivity. Qed.
Example C52_some_features : map (fun x => quantised x 64) [0; 1; 2; 3; 5; -1; 1022; 1023; 5000; -1024; -1025] = [0; 0; 1; 2; 2; 0; 511; 511; 511; -512; -512].
Proof. vm_compute. reflexivity. Qed.
