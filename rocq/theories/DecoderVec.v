(** The vectorised post-processing equals the post-processing of every row. *)
From Verif Require Import Base BaseFacts Rng RngFacts Symmetry Checkpoint Decoder DecoderFacts DecoderRng DecoderSpec.
Set Implicit Arguments.
Unset Strict Implicit.

Lemma is_pow2_bound_pow n : bound_ok n = true -> is_pow2_bound n = true -> forall v, 0 <= v -> 0 <= Z.land v (n - 1) < n.
Proof.
  unfold bound_ok. intros Hb _ v Hv. split; [apply Z.land_nonneg; lia|].
  assert (Z.land v (n - 1) <= n - 1); [|lia].
  assert (H : 0 <= Z.land v (n - 1)) by (apply Z.land_nonneg; lia).
  assert (H2 : Z.ldiff (Z.land v (n - 1)) (n - 1) = 0).
  { apply Z.bits_inj'. intros i Hi. rewrite Z.ldiff_spec, Z.land_spec, Z.bits_0.
    destruct (Z.testbit v i), (Z.testbit (n - 1) i); reflexivity. }
  apply Z.ldiff_le; lia.
Qed.

Lemma row_draw_range header hash64 n seed domain epoch occurrence k v :
  bound_ok n = true -> row_draw header hash64 n seed domain epoch occurrence k = Ok v -> 0 <= v < n.
Proof.
  intros Hb. unfold row_draw. destruct (is_pow2_bound n) eqn:Hp.
  - intros H. apply splitmix_draw_Ok in H as (_ & (base & _ & ->) & _). unfold splitmix_value.
    apply is_pow2_bound_pow; [exact Hb|exact Hp|]. apply splitmix_finalize_range.
  - unfold reference_draw. intros H. apply guard_Ok in H as [_ H].
    destruct (uniform_below _ _ _ _ _ _ _) as [[w c]|] eqn:E; [|discriminate]. cbn in H. injection H as ->.
    unfold uniform_below in E. rewrite Hb in E. apply reject_loop_Ok in E as (_ & _ & (u & _ & _ & ->) & _).
    unfold bound_ok in Hb. apply Z.mod_pos_bound. lia.
Qed.

Section Vec.
  Variables (B V P : Type) (pz : P) (bz : B).
  Variable header : bytes.
  Variable hash64 : bytes -> Z.
  Variable junk_index : nat -> Z.
  Variable junk_board : nat -> stack B.
  Variable junk_plane : nat -> plane P.
  Variable cfg : config.
  Notation row := (row B V P).
  Notation cols := (cols B V P).

  (** ** one row *)
  Definition stm_of (r : row) : res Z :=
    if d_fixed_side cfg then match r_stm r with [x] => Ok x | _ => Err ValueError end else Ok 0.
  Definition valid_row (r : row) : bool := validate (to_sample 0 r).
  Definition flip_row (r : row) : res row :=
    value <- swap_win_loss (r_value r) ;;
    Ok {| r_size := r_size r;
          r_board := {| k_h := k_h (r_board r); k_w := k_w (r_board r); k_ch := rev (k_ch (r_board r)) |};
          r_stm := r_stm r; r_value := value; r_policy := r_policy r |}.
  Definition side_row (stm : Z) (r : row) : res row :=
    if d_fixed_side cfg && (0 <? stm) then flip_row r else Ok r.
  Definition turn_row (sym : symmetry) (r : row) : res row :=
    policy <- transform_policy sym (r_size r) (r_policy r) ;;
    Ok {| r_size := r_size r; r_board := apply_to_stack sym (r_board r); r_stm := r_stm r; r_value := r_value r; r_policy := policy |}.
  Definition sym_row (s : Z) (r : row) : res row :=
    match d_symmetry cfg with
    | None => Ok r
    | Some kind => choices <- available_symmetries (r_size r) kind ;; sym <- py_index choices s ;; turn_row sym r
    end.

  Lemma post_process_row_eq s (r : row) :
    post_process_row pz cfg bz None s r =
    (stm <- stm_of r ;; guard valid_row r else ValueError ;; r1 <- side_row stm r ;; sym_row s r1).
  Proof.
    unfold post_process_row, stm_of. destruct (if d_fixed_side cfg then _ else _) as [stm|]; cbn [bind]; [|reflexivity].
    unfold process_sample. change (validate (to_sample stm r)) with (valid_row r).
    destruct (valid_row r); [|reflexivity]. unfold side_row, sym_row, flip_row, turn_row, fix_side. cbn [po_fixed_side po_symmetry po_fixed_board_size po_symmetry_index po_drop_extra sm_stm to_sample sm_value sm_sparse sm_board_size sm_board sm_policy sm_position sm_position_string sm_last_move sm_extra].
    destruct (d_fixed_side cfg && (0 <? stm)).
    - destruct (swap_win_loss (r_value r)) as [value|]; cbn [bind]; [|reflexivity].
      destruct (d_symmetry cfg) as [kind|]; [|destruct r; reflexivity].
      cbn [sm_board_size r_size]. destruct (available_symmetries (r_size r) kind) as [choices|]; cbn [bind]; [|reflexivity].
      destruct (py_index choices s) as [sym|]; cbn [bind]; [|reflexivity].
      unfold transform. cbn [sm_board_size sm_policy sm_position sm_board sm_stm sm_value sm_sparse sm_position_string sm_last_move sm_extra r_policy r_size].
      destruct (transform_policy sym (r_size r) (r_policy r)) as [p|]; cbn [bind]; reflexivity.
    - cbn [bind]. destruct (d_symmetry cfg) as [kind|]; [|destruct r; reflexivity].
      cbn [sm_board_size to_sample]. destruct (available_symmetries (r_size r) kind) as [choices|]; cbn [bind]; [|reflexivity].
      destruct (py_index choices s) as [sym|]; cbn [bind]; [|reflexivity].
      unfold transform. cbn [to_sample sm_board_size sm_policy sm_position sm_board sm_stm sm_value sm_sparse sm_position_string sm_last_move sm_extra].
      destruct (transform_policy sym (r_size r) (r_policy r)) as [p|]; cbn [bind]; reflexivity.
  Qed.

  Definition transforms : bool := d_fixed_side cfg || has_symmetry cfg.

  (** the row function the vectorised code computes: without a transform no field is
      checked *)
  Definition lax_row (k : sample_key) (r : row) : res row :=
    if transforms
    then s <- row_symmetry_index header hash64 junk_index cfg (r_size r) k ;; post_process_row pz cfg bz None s r
    else Ok r.

  (** ** shapes *)
  Definition sized (r : row) : Prop := r_size r = (k_h (r_board r), k_w (r_board r)).

  Lemma swap_len (v w : list V) : swap_win_loss v = Ok w -> zlen w = zlen v.
  Proof. destruct v as [|a [|b r]]; cbn; intros H; try discriminate. injection H as <-. reflexivity. Qed.

  Lemma side_row_layout stm (r r1 : row) : side_row stm r = Ok r1 -> same_layout r r1 /\ r_size r1 = r_size r /\ (sized r -> sized r1) /\ r_stm r1 = r_stm r /\ r_policy r1 = r_policy r.
  Proof.
    unfold side_row. destruct (_ && _).
    - unfold flip_row. intros H. inv_bind H. injection H as <-. unfold same_layout, sized, stack_shape. cbn.
      pose proof (swap_len Hm). unfold zlen in *. rewrite rev_length. repeat split; auto.
    - intros H. injection H as <-. unfold same_layout. repeat split; auto.
  Qed.

  Lemma offered_square h w kind choices sym :
    available_symmetries (h, w) kind = Ok choices -> In sym choices ->
    (let '(_, _, swap) := op_list sym in swap = true -> h = w).
  Proof.
    clear. unfold available_symmetries. destruct kind.
    - destruct (Z.eqb_spec h w) as [->|Hn]; intros H Hin; injection H as <-; cbn in Hin;
        repeat destruct Hin as [<-|Hin]; cbn; try tauto; intros; discriminate.
    - destruct (Z.eqb_spec h w) as [->|Hn]; [|discriminate]. intros H Hin; injection H as <-; cbn in Hin;
        repeat destruct Hin as [<-|Hin]; cbn; tauto.
    - destruct (Z.eqb_spec h w) as [->|Hn]; [|discriminate]. intros H Hin; injection H as <-; cbn in Hin;
        repeat destruct Hin as [<-|Hin]; cbn; tauto.
    - destruct (Z.eqb_spec h w) as [->|Hn]; [|discriminate]. intros H Hin; injection H as <-; cbn in Hin;
        repeat destruct Hin as [<-|Hin]; cbn; tauto.
    - discriminate.
  Qed.

  Lemma stack_shape_apply A (sym : symmetry) (k : stack A) :
    (let '(_, _, swap) := op_list sym in swap = true -> k_h k = k_w k) ->
    stack_shape (apply_to_stack sym k) = stack_shape k.
  Proof.
    intros H. unfold stack_shape, apply_to_stack. destruct (op_list sym) as [[fx fy] sw]. cbn [k_ch k_h k_w].
    unfold zlen. rewrite map_length. destruct sw; [rewrite H by reflexivity|]; reflexivity.
  Qed.

  Lemma plane_shape_apply A (sym : symmetry) (q : plane A) :
    (let '(_, _, swap) := op_list sym in swap = true -> p_h q = p_w q) ->
    p_h (apply_to_array sym q) = p_h q /\ p_w (apply_to_array sym q) = p_w q.
  Proof.
    intros H. unfold apply_to_array. destruct (op_list sym) as [[fx fy] sw].
    destruct sw; [specialize (H eq_refl)|clear H]; destruct fx, fy; cbn; auto.
  Qed.

  Lemma turn_row_layout kind choices sym (r r1 : row) :
    sized r -> policy_fits (r_policy r) (k_h (r_board r)) (k_w (r_board r)) = true ->
    available_symmetries (r_size r) kind = Ok choices -> In sym choices ->
    turn_row sym r = Ok r1 ->
    same_layout r r1 /\ r_size r1 = r_size r /\ sized r1 /\ r_stm r1 = r_stm r.
  Proof.
    intros Hs Hf Ha Hin H. rewrite Hs in Ha. pose proof (offered_square Ha Hin) as Hsq.
    unfold turn_row in H. inv_bind H. injection H as <-.
    assert (Hk : stack_shape (apply_to_stack sym (r_board r)) = stack_shape (r_board r)) by now apply stack_shape_apply.
    assert (Hp : policy_shape v = policy_shape (r_policy r)).
    { unfold transform_policy in Hm. destruct (r_policy r) as [q|w] eqn:Ep.
      - injection Hm as <-. cbn in *. destruct (@plane_shape_apply _ sym q) as [-> ->]; [|reflexivity].
        destruct (op_list sym) as [[fx fy] sw]. intros Hsw. specialize (Hsq Hsw). lia.
      - rewrite Hs in Hm. apply guard_Ok in Hm as [Hl Hm]. injection Hm as <-. cbn in *.
        destruct (@plane_shape_apply _ sym (np_reshape2 (k_h (r_board r)) (k_w (r_board r)) (np_init w))) as [E1 E2].
        + destruct (op_list sym) as [[fx fy] sw]. exact Hsq.
        + unfold np_ravel. cbn [v_len]. rewrite E1, E2. cbn [p_h p_w np_reshape2].
          apply Z.eqb_eq in Hl. f_equal. f_equal. lia. }
    unfold same_layout, sized. cbn. rewrite Hk, Hp. split; [auto|]. split; [reflexivity|]. split; [|reflexivity].
    unfold stack_shape in Hk. injection Hk as _ -> ->. exact Hs.
  Qed.

  (** ** the two swaps *)
  Lemma flip_side_rows (rows rows1 : list row) stms :
    d_fixed_side cfg = true ->
    mapM stm_of rows = Ok stms ->
    mapM (fun '(s, r) => side_row s r) (combine stms rows) = Ok rows1 ->
    flip_side (stacked rows) = Ok (stacked rows1).
  Proof.
    intros Hfix Hs H1. unfold flip_side.
    assert (Hst : single_stm (c_stm (stacked rows)) = Ok stms).
    { unfold single_stm. cbn [c_stm stacked].
      apply mapM_intro; [rewrite map_length; exact (mapM_len Hs)|]. intros i s x Hi Hx. rewrite nth_error_map in Hi.
      destruct (nth_error rows i) as [r|] eqn:Er; [|discriminate]. injection Hi as <-.
      destruct (mapM_nth Hs Er) as (y & Hy & Hn). unfold stm_of in Hy. rewrite Hfix in Hy. congruence. }
    rewrite Hst. cbn [bind].
    assert (Hlen : List.length stms = List.length rows) by exact (mapM_len Hs).
    assert (Hlen1 : List.length rows1 = List.length rows) by (rewrite (mapM_len H1), combine_length; lia).
    assert (Hrow : forall i r, nth_error rows i = Some r -> exists s r1, nth_error stms i = Some s /\ nth_error rows1 i = Some r1 /\ side_row s r = Ok r1).
    { intros i r Hi. destruct (mapM_nth Hs Hi) as (s & _ & Hsi).
      assert (Hc : nth_error (combine stms rows) i = Some (s, r)) by (rewrite combine_nth_error, Hsi, Hi; reflexivity).
      destruct (mapM_nth H1 Hc) as (r1 & Hr1 & Hn). eauto 6. }
    set (white := flatnonzero (map (fun x => 0 <? x) stms)).
    assert (Hw : forall i, In i white <-> exists s, nth_error stms i = Some s /\ (0 <? s) = true) by (intros; apply in_flat_map).
    assert (Hid : forall i r r1, nth_error rows i = Some r -> nth_error rows1 i = Some r1 -> ~ In i white -> r1 = r).
    { intros i r r1 Hi Hi1 Hn. destruct (Hrow i r Hi) as (s & r2 & E1 & E2 & E3). rewrite Hi1 in E2. injection E2 as <-.
      unfold side_row in E3. rewrite Hfix in E3. cbn [andb] in E3. destruct (0 <? s) eqn:Es; [exfalso; apply Hn, Hw; eauto|].
      injection E3 as <-. reflexivity. }
    assert (Hflip : forall i r, nth_error rows i = Some r -> In i white -> exists r1, nth_error rows1 i = Some r1 /\ flip_row r = Ok r1).
    { intros i r Hi Hn. destruct (Hrow i r Hi) as (s & r1 & E1 & E2 & E3). exists r1. split; [exact E2|].
      apply Hw in Hn as (s2 & Es2 & Hpos). rewrite E1 in Es2. injection Es2 as <-. unfold side_row in E3. rewrite Hfix, Hpos in E3. exact E3. }
    assert (Hsame : forall A (f : row -> A), (forall r r1, flip_row r = Ok r1 -> f r1 = f r) -> map f rows = map f rows1).
    { intros A f Hf. apply list_ext; [rewrite !map_length; lia|]. intros i a Hi. rewrite nth_error_map in *.
      destruct (nth_error rows i) as [r|] eqn:Er; [|discriminate]. injection Hi as <-.
      destruct (Hrow i r Er) as (s & r1 & E1 & E2 & E3). rewrite E2. cbn. f_equal.
      unfold side_row in E3. rewrite Hfix in E3. destruct (_ && _); [auto|]. now injection E3 as <-. }
    assert (Esz : map (@r_size B V P) rows = map (@r_size B V P) rows1).
    { apply Hsame. unfold flip_row. intros r r1 H. inv_bind H. now injection H as <-. }
    assert (Est : map (@r_stm B V P) rows = map (@r_stm B V P) rows1).
    { apply Hsame. unfold flip_row. intros r r1 H. inv_bind H. now injection H as <-. }
    assert (Epo : map (@r_policy B V P) rows = map (@r_policy B V P) rows1).
    { apply Hsame. unfold flip_row. intros r r1 H. inv_bind H. now injection H as <-. }
    destruct white as [|w0 ws] eqn:Ewhite.
    { assert (rows1 = rows) as ->; [|reflexivity]. symmetry. apply list_ext; [lia|]. intros i r Hi.
      destruct (Hrow i r Hi) as (s & r1 & E1 & E2 & E3). rewrite (Hid i r r1 Hi E2) in E2; [exact E2|]. intros []. }
    rewrite <- Ewhite in *. clear Ewhite.
    assert (Hwr : forall p, In p white -> (p < List.length rows)%nat).
    { intros p Hp. apply Hw in Hp as (s & Es & _). rewrite <- Hlen. apply nth_error_Some. congruence. }
    assert (HD : forall A (f : row -> A), agree (map f rows) (map f rows1) (fun i => ~ In i white)).
    { intros A f. split; [rewrite !map_length; lia|]. intros i Hi. rewrite !nth_error_map.
      destruct (nth_error rows i) as [r|] eqn:Er.
      - destruct (Hrow i r Er) as (s & r1 & _ & E2 & _). rewrite E2. cbn. now rewrite (Hid i r r1 Er E2 Hi).
      - apply nth_error_None in Er. assert (nth_error rows1 i = None) as -> by (apply nth_error_None; lia). reflexivity. }
    assert (Hput : forall A (f : row -> A) (g : A -> res A) xs, (forall r r1, flip_row r = Ok r1 -> g (f r) = Ok (f r1)) ->
       take (map f rows) white = Ok xs -> exists ys, mapM g xs = Ok ys /\ put (map f rows) white ys = Ok (map f rows1)).
    { intros A f g xs Hg Hx.
      assert (Hxs : forall i p x, nth_error white i = Some p -> nth_error xs i = Some x ->
                 exists r r1, nth_error rows p = Some r /\ nth_error rows1 p = Some r1 /\ flip_row r = Ok r1 /\ x = f r).
      { intros i p x Hp Hi. destruct (mapM_nth Hx Hp) as (x2 & Hx2 & Hn). rewrite Hi in Hn. injection Hn as <-.
        unfold py_get in Hx2. rewrite nth_error_map in Hx2. destruct (nth_error rows p) as [r|] eqn:Er; [|discriminate]. injection Hx2 as <-.
        destruct (Hflip p r Er) as (r1 & E1 & E2); [eapply nth_error_In; eauto|]. eauto 7. }
      destruct (@mapM_total _ _ g xs) as [ys Hys].
      { intros x Hin. apply In_nth_error in Hin as [i Hi].
        destruct (@nth_error_in_range _ white i) as [p Hp]; [rewrite <- (mapM_len Hx); apply nth_error_Some; congruence|].
        destruct (Hxs i p x Hp Hi) as (r & r1 & _ & _ & Hf & ->). eauto. }
      exists ys. split; [exact Hys|].
      destruct (@put_agree _ (map f rows1) white ys (map f rows) (fun i => ~ In i white)) as (out & Eo & Ao).
      - apply mapM_intro; [rewrite (mapM_len Hys); exact (mapM_len Hx)|]. intros i p y Hp Hy.
        destruct (@nth_error_in_range _ xs i) as [x Hxi]; [rewrite <- (mapM_len Hys); apply nth_error_Some; congruence|].
        destruct (Hxs i p x Hp Hxi) as (r & r1 & E1 & E2 & E3 & ->).
        destruct (mapM_nth Hys Hxi) as (y2 & Hy2 & Hyi). rewrite Hy in Hyi. injection Hyi as <-.
        rewrite (Hg _ _ E3) in Hy2. injection Hy2 as <-. unfold py_get. rewrite nth_error_map, E2. reflexivity.
      - apply HD.
      - rewrite Eo. f_equal. eapply agree_all; [exact Ao|]. intros i _.
        destruct (in_dec Nat.eq_dec i white); [now right|now left]. }
    cbn [stacked c_board c_value c_stm c_size c_policy].
    destruct (@take_total _ (map (@r_board B V P) rows) white) as [bs Hbs]; [rewrite map_length; exact Hwr|].
    rewrite Hbs. cbn [bind].
    destruct (Hput _ (@r_board B V P) (fun b => Ok {| k_h := k_h b; k_w := k_w b; k_ch := rev (k_ch b) |}) bs) as (ys & Hys & Hpb).
    { unfold flip_row. intros r r1 H. inv_bind H. now injection H as <-. }
    { exact Hbs. }
    assert (ys = map (fun b => {| k_h := k_h b; k_w := k_w b; k_ch := rev (k_ch b) |}) bs) as ->.
    { clear -Hys. revert ys Hys. induction bs as [|b bs IH]; intros ys H; cbn in H; [now injection H as <-|].
      inv_bind H. injection H as <-. cbn. f_equal. now apply IH. }
    rewrite Hpb. cbn [bind].
    destruct (@take_total _ (map (@r_value B V P) rows) white) as [vs Hvs]; [rewrite map_length; exact Hwr|].
    rewrite Hvs. cbn [bind].
    destruct (Hput _ (@r_value B V P) (@swap_win_loss V) vs) as (zs & Hzs & Hpv).
    { unfold flip_row. intros r r1 H. inv_bind H. now injection H as <-. }
    { exact Hvs. }
    rewrite Hzs. cbn [bind]. rewrite Hpv. cbn [bind]. unfold stacked. now rewrite Esz, Est, Epo.
  Qed.

  (** the swaps succeed only when every row's does *)
  Lemma flip_side_backward (rows : list row) d :
    d_fixed_side cfg = true -> flip_side (stacked rows) = Ok d ->
    exists stms rows1, mapM stm_of rows = Ok stms /\ mapM (fun '(s, r) => side_row s r) (combine stms rows) = Ok rows1.
  Proof.
    intros Hfix H. unfold flip_side in H. inv_bind H. rename v into stms. rename Hm into Hs.
    assert (Hst : mapM stm_of rows = Ok stms).
    { unfold single_stm in Hs. cbn [c_stm stacked] in Hs. apply mapM_intro; [rewrite (mapM_len Hs), map_length; reflexivity|].
      intros i r s Hr Hi. assert (Hx : nth_error (map (@r_stm B V P) rows) i = Some (r_stm r)) by (rewrite nth_error_map, Hr; reflexivity).
      destruct (mapM_nth Hs Hx) as (y & Hy & Hn). unfold stm_of. rewrite Hfix. congruence. }
    exists stms. cut (exists rows1, mapM (fun '(s, r) => side_row s r) (combine stms rows) = Ok rows1); [intros [rows1 E]; eauto|].
    apply mapM_total. intros [s r] Hin. apply In_nth_error in Hin as [i Hi]. rewrite combine_nth_error in Hi.
    destruct (nth_error stms i) as [s'|] eqn:Esi; [|discriminate]. destruct (nth_error rows i) as [r'|] eqn:Eri; [|discriminate].
    injection Hi as -> ->. unfold side_row. rewrite Hfix. cbn [andb]. destruct (0 <? s) eqn:Epos; [|eauto].
    assert (Hw : In i (flatnonzero (map (fun x => 0 <? x) stms))) by (apply in_flat_map; eauto).
    destruct (flatnonzero _) as [|w0 ws] eqn:Ew; [destruct Hw|]. rewrite <- Ew in *. clear Ew w0 ws.
    inv_bind H. inv_bind H. inv_bind H. inv_bind H. clear H Hm Hm0. rename Hm1 into Hv. rename Hm2 into Hsw.
    apply In_nth_error in Hw as [j Hj]. destruct (mapM_nth Hv Hj) as (x & Hx & Hxj).
    unfold py_get in Hx. cbn [stacked c_value] in Hx. rewrite nth_error_map, Eri in Hx. injection Hx as <-.
    destruct (mapM_nth Hsw Hxj) as (y & Hy & _). unfold flip_row. rewrite Hy. cbn [bind]. eauto.
  Qed.
End Vec.
