(** C40: line encodings.  The vocabulary is in LineEncodingSpec.v: [point_at] reads a board,
    [window] is the row of 2h+1 cells around a point in a direction, [legal] says that a window
    has walls at its ends only. *)
From Verif Require Import Base BaseFacts LineEncoding LineEncodingFacts LineEncodingCode LineEncodingSpec
  LineEncodingBoard LineEncodingFlags LineEncodingOut.
Set Implicit Arguments.
Unset Strict Implicit.

(** What a transform of one board of H rows and W columns must deliver: for the i-th direction d
    and the point (x, y), the number [code] gives to the window there, at index (i, y, x) of the
    array of shape [4, H, W].  [legal] is part of the conclusion. *)
Definition board_codes (code : list point -> Z) (h : nat) (board : list Z) (H W : nat) (out : list Z) : Prop :=
  List.length out = (4 * H * W)%nat /\
  forall i d y x, nth_error directions i = Some d -> (y < H)%nat -> (x < W)%nat ->
    let w := window (point_at board H W) h (Z.of_nat x) (Z.of_nat y) d in
    legal h w /\ nth_error out (i * (H * W) + (y * W + x)) = Some (code w).

(** One numbering of the possible windows, one-to-one and below the advertised total, serves
    boards, lines and the usage flags alike. *)
Theorem C40_compact_codes_number_the_windows (h : nat) : (h <= 8)%nat ->
  let len := 2 * Z.of_nat h + 1 in
  exists (total : Z) (code : list point -> Z),
    get_total_num_encoding len = Ok total
    /\ (forall w, legal h w -> 0 <= code w < total)
    /\ (forall w w', legal h w -> legal h w' -> code w = code w' -> w = w')
    /\ (forall board H W, List.length board = (2 * H * W)%nat -> (H <= 32 - h)%nat -> (W <= 32 - h)%nat ->
          exists out, transform_board board H W len false = Ok out /\ board_codes code h board H W out)
    /\ (forall lines L, lines <> [] -> (0 < L <= 32 - h)%nat ->
          Forall (fun line => List.length line = L /\ Forall (fun v => 0 <= v <= 2) line) lines ->
          exists outs, transform_lines lines L len = Ok outs
            /\ Forall2 (fun line out => List.length out = L
                  /\ forall i, (i < L)%nat -> let w := line_window line h (Z.of_nat i) in
                       legal h w /\ nth_error out i = Some (code w)) lines outs)
    /\ exists flags, get_encoding_usage_flag (repeat 0 (Z.to_nat total)) len = Ok flags
         /\ zlen flags = total
         /\ forall c, (c < Z.to_nat total)%nat ->
              (nth_error flags c = Some 1 /\ exists w, legal h w /\ code w = Z.of_nat c)
              \/ (nth_error flags c = Some 0 /\ ~ exists w, legal h w /\ code w = Z.of_nat c).
Proof.
  intros Hh len. exists (max_code h + 1), window_code.
  destruct (usage_ok Hh) as (Ht & Hp & flags & Ef & Lf & Mf & Vf).
  conj.
  - exact Ht.
  - intros w Hw. pose proof (window_code_bounds Hw). lia.
  - intros w w'. apply window_code_inj.
  - intros board H W Hb BH BW. eexists. split.
    + apply (@transform_ok h false); auto. lia.
    + split; [apply board_out_length; auto; lia|]. intros i d y x Hd Hy Hx w.
      destruct (@board_out_nth h false Hh board H W ltac:(lia) BH BW i d y x Hd Hy Hx) as [E L]. split; [exact L|exact E].
  - intros lines L Hne HL HF.
    exists (map (fun line => map (fun i => window_code (line_window line h (Z.of_nat i))) (seq 0 (List.length line))) lines).
    split.
    + unfold transform_lines.
      replace ((List.length lines =? 0)%nat || (L =? 0)%nat) with false.
      2:{ symmetry. apply orb_false_iff. split; apply Nat.eqb_neq; [|lia]. destruct lines; [congruence|discriminate]. }
      cbn [negb]. replace (forallb _ lines) with true.
      2:{ symmetry. apply forallb_forall. intros line I. rewrite Forall_forall in HF. destruct (HF line I) as [_ Hv].
          apply forallb_forall. intros v Iv. rewrite Forall_forall in Hv. specialize (Hv v Iv). lia. }
      unfold len. rewrite validate_ok by exact Hh. cbn [bind].
      replace ((2 * Z.of_nat h + 1) / 2) with (Z.of_nat h) by lia. replace (32 - Z.of_nat h <? Z.of_nat L) with false by lia.
      cbn [negb]. apply mapM_map. intros line I. rewrite Forall_forall in HF. destruct (HF line I) as [El _].
      apply line_ok; [exact Hh|lia].
    + clear Hne. induction HF as [|line lines [El Hv] HF IH]; cbn [map]; constructor; [|exact IH].
      split; [rewrite map_length, seq_length; exact El|]. intros i Hi. split; [apply line_ok; auto; lia|].
      rewrite nth_error_map, nth_seq by lia. reflexivity.
  - exists flags. conj; auto. intros c Hc. destruct (nth_error flags c) as [v|] eqn:E.
    2:{ apply nth_error_None in E. unfold zlen in Lf. lia. }
    destruct (Vf c v E) as [->| ->].
    + right. split; [reflexivity|]. intros X. apply Mf in X. congruence.
    + left. split; [reflexivity|]. apply Mf. exact E.
Qed.

(** The raw code: two bits per cell. *)
Theorem C40_raw_codes_spell_the_window (h : nat) board H W :
  (h <= 7)%nat -> List.length board = (2 * H * W)%nat -> (H <= 32 - h)%nat -> (W <= 32 - h)%nat ->
  exists out, transform_board board H W (2 * Z.of_nat h + 1) true = Ok out
    /\ board_codes raw_code h board H W out
    /\ Forall (fun c => 0 <= c < 4 ^ (2 * Z.of_nat h + 1)) out.
Proof.
  intros Hh Hb BH BW. eexists. conj.
  - apply (@transform_ok h true); auto. lia.
  - split; [apply board_out_length; auto; lia|]. intros i d y x Hd Hy Hx w.
    destruct (@board_out_nth h true Hh board H W ltac:(lia) BH BW i d y x Hd Hy Hx) as [E L]. split; [exact L|exact E].
  - apply Forall_forall. intros c I. unfold board_out in I. apply in_flat_map in I. destruct I as (d & _ & I).
    apply in_map_iff in I. destruct I as ([y x] & <- & _). cbn [number].
    match goal with |- 0 <= raw_code ?w < _ => pose proof (raw_code_bounds w) as B;
      assert (Lw : List.length w = (2 * h + 1)%nat) by (unfold window; rewrite map_length, seq_length; reflexivity) end.
    rewrite Lw in B. replace (2 * Z.of_nat h + 1) with (Z.of_nat (2 * h + 1)) by lia. exact B.
Qed.
Theorem C40_raw_codes_are_one_to_one w w' : List.length w = List.length w' -> raw_code w = raw_code w' -> w = w'.
Proof. apply raw_code_inj. Qed.

Lemma point_at_firstn board H W x y : point_at (firstn (2 * H * W) board) H W x y = point_at board H W x y.
Proof.
  unfold point_at. destruct ((0 <=? x) && (x <? Z.of_nat W) && (0 <=? y) && (y <? Z.of_nat H)) eqn:E; [|reflexivity].
  assert (B : 0 <= y * Z.of_nat W /\ y * Z.of_nat W + x < Z.of_nat H * Z.of_nat W) by nia.
  assert (N : forall i, (i < 2 * H * W)%nat -> nth i (firstn (2 * H * W) board) 0 = nth i board 0).
  { intros i Hi. destruct (Nat.lt_ge_cases i (List.length (firstn (2 * H * W) board))) as [L|L].
    - rewrite <- (firstn_skipn (2 * H * W) board) at 2. rewrite app_nth1 by exact L. reflexivity.
    - rewrite nth_overflow by exact L. rewrite firstn_length in L. rewrite nth_overflow by lia. reflexivity. }
  rewrite !N by lia. reflexivity.
Qed.

(** A batch of boards is transformed board by board. *)
Theorem C40_a_batch_is_its_boards (h : nat) (raw : bool) boards B H W :
  (h <= if raw then 7 else 8)%nat -> List.length boards = (B * (2 * H * W))%nat -> (H <= 32 - h)%nat -> (W <= 32 - h)%nat ->
  exists outs, transform_boards boards B H W (2 * Z.of_nat h + 1) raw = Ok (List.concat outs)
    /\ List.length outs = B
    /\ forall b, (b < B)%nat -> exists out, nth_error outs b = Some out
         /\ transform_board (firstn (2 * H * W) (skipn (b * (2 * H * W)) boards)) H W (2 * Z.of_nat h + 1) raw = Ok out.
Proof.
  intros Hh Hb BH BW. assert (Hh' : (h <= 8)%nat) by (destruct raw; lia).
  exists (map (fun b : nat => board_out h raw (skipn (b * (2 * H * W)) boards) H W) (seq 0 B)). conj.
  - unfold transform_boards. rewrite validate_ok by exact Hh. cbn [bind].
    replace ((2 * Z.of_nat h + 1) / 2) with (Z.of_nat h) by lia.
    replace (32 - Z.of_nat h <? Z.of_nat H) with false by lia. replace (32 - Z.of_nat h <? Z.of_nat W) with false by lia.
    cbn [orb negb]. erewrite mapM_map; [cbn [bind]; reflexivity|]. intros b I. apply in_seq in I. cbv beta.
    apply impl_ok; auto. rewrite skipn_length. nia.
  - rewrite map_length, seq_length. reflexivity.
  - intros b Hlt. eexists. split; [rewrite nth_error_map, nth_seq by exact Hlt; reflexivity|].
    rewrite (@transform_ok h raw); auto.
    + f_equal. unfold board_out. cbn [Nat.add].
      assert (Ew : forall x y d, window (point_at (firstn (2 * H * W) (skipn (b * (2 * H * W)) boards)) H W) h x y d
                    = window (point_at (skipn (b * (2 * H * W)) boards) H W) h x y d).
      { intros x y d. unfold window. apply map_ext. intros k. apply point_at_firstn. }
      cbn [flat_map directions]. repeat (apply (f_equal2 (@app Z)); [apply map_ext; intros [y x]; rewrite Ew; reflexivity|]). reflexivity.
    + rewrite firstn_length, skipn_length. nia.
Qed.

(** Everything else is refused: bad lengths, and boards and lines on which the 32-cell ring of the
    key would wrap around. *)
Theorem C40_bad_sizes_are_rejected board (H W : nat) (len : Z) (raw : bool) :
  ~ (1 <= len <= (if raw then 15 else 17) /\ len mod 2 = 1 /\ Z.of_nat H + len / 2 <= 32 /\ Z.of_nat W + len / 2 <= 32) ->
  transform_board board H W len raw = Err ValueError.
Proof.
  intros Hbad. unfold transform_board, validate_line_length.
  destruct ((len <? 1) || (len mod 2 =? 0)) eqn:E1; [reflexivity|]. cbn [negb].
  destruct ((if raw then 15 else 17) <? len) eqn:E2; [reflexivity|]. cbn [negb bind].
  destruct ((32 - len / 2 <? Z.of_nat H) || (32 - len / 2 <? Z.of_nat W)) eqn:E3; [reflexivity|].
  exfalso. apply Hbad. assert (0 <= len mod 2 < 2) by (apply Z.mod_pos_bound; lia).
  destruct raw; lia.
Qed.
Theorem C40_bad_lengths_have_no_total len :
  ~ (1 <= len <= 17 /\ len mod 2 = 1) -> get_total_num_encoding len = Err ValueError.
Proof.
  intros Hbad. unfold get_total_num_encoding, validate_line_length.
  destruct ((len <? 1) || (len mod 2 =? 0)) eqn:E1; [reflexivity|]. cbn [negb].
  destruct (17 <? len) eqn:E2; [reflexivity|]. exfalso. apply Hbad.
  assert (0 <= len mod 2 < 2) by (apply Z.mod_pos_bound; lia). lia.
Qed.

(** The numbering is not vacuous: every possible window does occur, on a board of one row. *)
Theorem C40_every_window_occurs (h : nat) w : (h <= 8)%nat -> legal h w ->
  exists board W x, List.length board = (2 * 1 * W)%nat /\ (W <= 32 - h)%nat /\ (x < W)%nat
    /\ window (point_at board 1 W) h (Z.of_nat x) 0 (1, 0) = w.
Proof.
  intros Hh (ld & vis & rd & -> & L1 & R1 & N1 & V1). destruct (legal_vis L1 R1 N1) as [A B].
  set (W := List.length vis). set (x := (h - ld)%nat).
  set (board := map (fun p => match p with Mine => 1 | _ => 0 end) vis ++ map (fun p => match p with Theirs => 1 | _ => 0 end) vis).
  exists board, W, x. conj; try lia.
  { subst board. rewrite app_length, !map_length. lia. }
  unfold window. cbn [fst snd].
  apply nth_ext with (d := Wall) (d' := Wall).
  - rewrite map_length, seq_length. lia.
  - rewrite map_length, seq_length. intros k Hk.
    rewrite nth_indep with (d' := (fun k0 => point_at board 1 W (Z.of_nat x + (Z.of_nat k0 - Z.of_nat h) * 1) (0 + (Z.of_nat k0 - Z.of_nat h) * 0)) 0%nat)
      by (rewrite map_length, seq_length; exact Hk).
    rewrite (map_nth (fun k0 => point_at board 1 W (Z.of_nat x + (Z.of_nat k0 - Z.of_nat h) * 1) (0 + (Z.of_nat k0 - Z.of_nat h) * 0))).
    rewrite seq_nth by exact Hk. cbn [Nat.add].
    replace (0 + (Z.of_nat k - Z.of_nat h) * 0) with 0 by lia.
    replace (Z.of_nat x + (Z.of_nat k - Z.of_nat h) * 1) with (Z.of_nat k - Z.of_nat ld) by lia.
    unfold point_at. change (Z.of_nat 1) with 1. rewrite !Z.mul_0_l, !Z.mul_1_l, !Z.add_0_l, !Z.add_0_r.
    destruct (Nat.lt_ge_cases k ld) as [K1|K1].
    { rewrite app_nth1 by (rewrite repeat_length; lia). rewrite nth_repeat.
      replace (0 <=? Z.of_nat k - Z.of_nat ld) with false by lia. reflexivity. }
    rewrite app_nth2 by (rewrite repeat_length; lia). rewrite repeat_length.
    destruct (Nat.lt_ge_cases (k - ld) W) as [K2|K2].
    + rewrite app_nth1 by lia.
      replace ((0 <=? Z.of_nat k - Z.of_nat ld) && (Z.of_nat k - Z.of_nat ld <? Z.of_nat W) && (0 <=? 0) && (0 <? 1)) with true by lia.
      replace (Z.to_nat (Z.of_nat k - Z.of_nat ld)) with (k - ld)%nat by lia.
      replace (Z.to_nat (Z.of_nat W + (Z.of_nat k - Z.of_nat ld))) with (W + (k - ld))%nat by lia.
      subst board. rewrite app_nth1 by (rewrite map_length; lia). rewrite app_nth2 by (rewrite map_length; lia).
      rewrite map_length. fold W. replace (W + (k - ld) - W)%nat with (k - ld)%nat by lia.
      set (F1 := fun p => match p with Mine => 1 | _ => 0 end). set (F2 := fun p => match p with Theirs => 1 | _ => 0 end).
      assert (N1' : forall i, nth i (map F1 vis) 0 = F1 (nth i vis Wall)) by (intros i; apply (map_nth F1 vis Wall)).
      assert (N2' : forall i, nth i (map F2 vis) 0 = F2 (nth i vis Wall)) by (intros i; apply (map_nth F2 vis Wall)).
      rewrite N1', N2'.
      assert (Iw : nth (k - ld) vis Wall <> Wall).
      { intros E. apply V1. rewrite <- E. apply nth_In. lia. }
      destruct (nth (k - ld) vis Wall); cbn; try reflexivity. congruence.
    + rewrite app_nth2 by lia. fold W.
      replace (Z.of_nat k - Z.of_nat ld <? Z.of_nat W) with false by lia. rewrite andb_false_r. cbn [andb].
      symmetry. apply nth_repeat.
Qed.

(** ** Concrete cases *)
Definition C40_board : list Z :=
  [1;0;0; 0;1;0;  0;0;1; 0;0;0].  (* 2 rows, 3 columns *)
Example C40_example_total : get_total_num_encoding 5 = Ok 594.
Proof. vm_compute. reflexivity. Qed.
Example C40_example_board :
  point_at C40_board 2 3 0 0 = Mine /\ point_at C40_board 2 3 2 0 = Theirs /\ point_at C40_board 2 3 3 0 = Wall
  /\ (exists out, transform_board C40_board 2 3 5 false = Ok out /\ nth_error out 0 = Some (window_code [Wall; Wall; Mine; Vacant; Theirs])
       /\ List.length out = 24%nat)
  /\ (exists out, transform_board C40_board 2 3 5 true = Ok out /\ nth_error out 0 = Some (4 ^ 2 * 1 + 4 ^ 3 * 3 + 4 ^ 4 * 2)).
Proof. vm_compute. conj; try reflexivity; eexists; conj; reflexivity. Qed.
Example C40_example_flags :
  get_total_num_encoding 3 = Ok 63 /\
  exists flags, get_encoding_usage_flag (repeat 0 63) 3 = Ok flags /\ zsum flags = 48.
Proof. vm_compute. split; [reflexivity|]. eexists. split; reflexivity. Qed.
Example C40_example_rejected : transform_board (repeat 0 (2 * 31 * 3)) 31 3 5 false = Err ValueError.
Proof. vm_compute. reflexivity. Qed.
