(** Gathering, grouping and splitting: every batch path against the row path. *)
From Verif Require Import Base BaseFacts Rng RngFacts Symmetry Checkpoint Decoder DecoderFacts DecoderRng DecoderSpec DecoderVec DecoderTurn.
Set Implicit Arguments.
Unset Strict Implicit.

Lemma mapM_ok_in A C (f : A -> res C) l out c : mapM f l = Ok out -> In c out -> exists a, In a l /\ f a = Ok c.
Proof.
  revert out; induction l as [|a r IH]; intros out H Hin; cbn in H; [injection H as <-; destruct Hin|].
  inv_bind H. inv_bind H. injection H as <-. destruct Hin as [<-|Hin]; [exists a; split; [now left|assumption]|].
  destruct (IH v0) as (x & Hx & Hf); auto. exists x. split; [now right|exact Hf].
Qed.

Lemma mapM_out_in A C (f : A -> res C) l out a : mapM f l = Ok out -> In a l -> exists c, In c out /\ f a = Ok c.
Proof.
  intros H Hin. apply In_nth_error in Hin as [i Hi]. destruct (mapM_nth H Hi) as (c & Hc & Hn). exists c. split; [eapply nth_error_In; eauto|exact Hc].
Qed.

Section Batch.
  Variables (B V P : Type) (pz : P) (vz : V) (bz : B).
  Variable header : bytes.
  Variable hash64 : bytes -> Z.
  Variable junk_index : nat -> Z.
  Variable junk_board : nat -> stack B.
  Variable junk_stm : nat -> list Z.
  Variable junk_value : nat -> list V.
  Variable junk_policy : nat -> policy P.
  Variable junk_size : nat -> Z * Z.
  Variable junk_plane : nat -> plane P.
  Variable load : Z -> res (npz B V P).
  Variable cfg : config.
  Notation npz := (npz B V P).
  Notation row := (row B V P).
  Notation cols := (cols B V P).
  Notation lax := (lax_row pz bz header hash64 junk_index cfg).
  Notation pass := (d_has_pass_move cfg).

  (** ** one row, before the policy is settled *)
  Definition cell A (column : option (list A)) (default : Z * Z -> A) (r : ref) : res A :=
    match column with
    | Some l => i <- py_get (rf_address r) 0 ;; py_index l i
    | None => Ok (default (rf_size r))
    end.
  Definition fetch (f : npz) (r : ref) : res row :=
    board <- cell (Some (f_bf f)) (zero_stack bz) r ;;
    stm <- cell (f_gf f) (fun _ => [0]) r ;;
    value <- cell (Some (f_vt f)) (fun _ => [vz; vz; vz]) r ;;
    policy <- cell (f_pt f) (zero_policy pz pass) r ;;
    Ok {| r_size := rf_size r; r_board := board; r_stm := stm; r_value := value; r_policy := policy |}.
  Definition settle (r : row) : res row :=
    p <- board_policy pass (r_size r) (r_policy r) ;;
    Ok {| r_size := r_size r; r_board := r_board r; r_stm := r_stm r; r_value := r_value r; r_policy := p |}.
  Definition fetch_ref (r : ref) : res row := f <- load (rf_path r) ;; fetch f r.
  Definition decode_lax (r : ref) : res row :=
    pre <- fetch_ref r ;; raw <- settle pre ;; lax (rf_key r) raw.

  Definition placed_in (f : npz) (r : ref) : Prop :=
    rectangular f /\ exists i board, rf_address r = [i] /\ 0 <= i < zlen (f_bf f) /\
      In board (f_bf f) /\ rf_size r = (k_h board, k_w board).

  Lemma placed_load r : placed load r -> exists f, load (rf_path r) = Ok f /\ placed_in f r.
  Proof. intros (f & i & b & H1 & H2 & H3 & H4 & H5 & H6). exists f. unfold placed_in. eauto 8. Qed.

  Lemma cell_Ok A (f : npz) (column : option (list A)) default r :
    placed_in f r -> (forall l, column = Some l -> List.length l = List.length (f_bf f)) ->
    exists v, cell column default r = Ok v /\ (forall l, column = Some l -> In v l) /\ (column = None -> v = default (rf_size r)) /\
      (forall i l, rf_address r = [i] -> column = Some l -> py_index l i = Ok v /\ nth_error l (Z.to_nat i) = Some v).
  Proof.
    intros (_ & i & b & Ha & Hi & _) HL. unfold cell. destruct column as [l|].
    - rewrite Ha. cbn [py_get nth_error bind]. specialize (HL l eq_refl). unfold zlen in Hi.
      destruct (@nth_error_in_range _ l (Z.to_nat i)) as [v Hv]; [lia|].
      assert (Hp : py_index l i = Ok v) by (rewrite py_index_nat by lia; unfold py_get; now rewrite Hv).
      exists v. split; [exact Hp|]. split; [intros l' E; injection E as <-; eapply nth_error_In; eauto|]. split; [discriminate|].
      intros j l' Ej E. injection E as <-. injection Ej as <-. auto.
    - eexists. split; [reflexivity|]. split; [discriminate|]. split; [reflexivity|discriminate].
  Qed.

  Lemma rect_len (f : npz) : rectangular f ->
    (forall l, Some (f_vt f) = Some l -> List.length l = List.length (f_bf f)) /\
    (forall l, f_gf f = Some l -> List.length l = List.length (f_bf f)) /\
    (forall l, f_pt f = Some l -> List.length l = List.length (f_bf f)) /\
    (forall l, Some (f_bf f) = Some l -> List.length l = List.length (f_bf f)).
  Proof.
    intros (_ & _ & H1 & H2 & H3). split; [intros l E; injection E as <-; exact H1|]. split; [intros l E; now apply H2|].
    split; [intros l E; now apply H3|]. intros l E; injection E as <-; reflexivity.
  Qed.

  Lemma fetch_Ok (f : npz) r : placed_in f r -> exists pre, fetch f r = Ok pre /\ sized pre /\ r_size pre = rf_size r /\
    In (r_board pre) (f_bf f) /\ In (r_value pre) (f_vt f) /\
    (forall l, f_gf f = Some l -> In (r_stm pre) l) /\ (f_gf f = None -> r_stm pre = [0]) /\
    (forall l, f_pt f = Some l -> In (r_policy pre) l) /\ (f_pt f = None -> r_policy pre = zero_policy pz pass (rf_size r)) /\
    forall i, rf_address r = [i] -> raw_row pz cfg f i = settle pre.
  Proof.
    intros Hp. destruct Hp as [Hr He]. assert (Hp : placed_in f r) by (split; assumption).
    destruct (rect_len Hr) as (L1 & L2 & L3 & L4).
    destruct (@cell_Ok _ f _ (zero_stack bz) r Hp L4) as (b & Eb & Ib & _ & Xb).
    destruct (@cell_Ok _ f _ (fun _ => [0]) r Hp L2) as (s & Es & Is & Ns & Xs).
    destruct (@cell_Ok _ f _ (fun _ => [vz; vz; vz]) r Hp L1) as (v & Ev & Iv & _ & Xv).
    destruct (@cell_Ok _ f _ (zero_policy pz pass) r Hp L3) as (p & Ep & Ip & Np & Xp).
    assert (Hsz : rf_size r = (k_h b, k_w b)).
    { destruct He as (i & b0 & Ha & Hi & Hin & ->). destruct Hr as (Hs & _). specialize (Hs b0 b Hin (Ib _ eq_refl)).
      unfold stack_shape in Hs. injection Hs as _ -> ->. reflexivity. }
    unfold fetch. rewrite Eb. cbn [bind]. rewrite Es. cbn [bind]. rewrite Ev. cbn [bind]. rewrite Ep. cbn [bind].
    eexists. split; [reflexivity|]. unfold sized. cbn [r_size r_board r_stm r_value r_policy].
    split; [exact Hsz|]. split; [reflexivity|]. split; [auto|]. split; [auto|]. split; [auto|]. split; [auto|]. split; [auto|]. split; [auto|].
    intros i Ha. unfold raw_row. rewrite (proj1 (Xb i _ Ha eq_refl)). cbn [bind]. unfold settle. cbn [r_size r_board r_stm r_value r_policy].
    assert (E1 : match f_gf f with Some l => py_index l i | None => Ok [0] end = Ok s).
    { destruct (f_gf f) as [l|] eqn:E; [exact (proj1 (Xs i l Ha eq_refl))|now rewrite Ns]. }
    rewrite E1. cbn [bind]. rewrite (proj1 (Xv i _ Ha eq_refl)). cbn [bind].
    assert (E2 : match f_pt f with Some l => py_index l i | None => Ok (zero_policy pz pass (k_h b, k_w b)) end = Ok p).
    { destruct (f_pt f) as [l|] eqn:E; [exact (proj1 (Xp i l Ha eq_refl))|rewrite Np, Hsz; reflexivity]. }
    rewrite E2. cbn [bind]. rewrite Hsz. reflexivity.
  Qed.

  Lemma same_file (f : npz) r1 r2 p1 p2 : placed_in f r1 -> placed_in f r2 -> fetch f r1 = Ok p1 -> fetch f r2 = Ok p2 ->
    same_layout p1 p2 /\ r_size p1 = r_size p2.
  Proof.
    intros H1 H2 F1 F2. destruct (fetch_Ok H1) as (q1 & E1 & S1 & Z1 & A1 & B1 & C1 & D1 & G1 & I1 & _). rewrite F1 in E1. injection E1 as <-.
    destruct (fetch_Ok H2) as (q2 & E2 & S2 & Z2 & A2 & B2 & C2 & D2 & G2 & I2 & _). rewrite F2 in E2. injection E2 as <-.
    destruct H1 as [(R1 & R2 & _ & R3 & R4) _].
    assert (Hb : stack_shape (r_board p1) = stack_shape (r_board p2)) by auto.
    assert (Hz : r_size p1 = r_size p2) by (rewrite S1, S2; apply stack_shape_dims in Hb as [-> ->]; reflexivity).
    split; [|exact Hz]. unfold same_layout. split; [exact Hb|]. split.
    { destruct (f_gf f) as [l|] eqn:E; [|rewrite D1, D2; auto]. apply (R3 l eq_refl); auto. }
    split; [apply R2; auto|].
    destruct (f_pt f) as [l|] eqn:E; [apply (R4 l eq_refl); auto|]. rewrite I1, I2 by reflexivity. congruence.
  Qed.

  (** ** the row path *)
  Lemma valid_row_shape (a b : row) : sized a -> sized b -> stack_shape (r_board a) = stack_shape (r_board b) ->
    policy_shape (r_policy a) = policy_shape (r_policy b) -> valid_row a = valid_row b.
  Proof.
    intros Ha Hb E1 E2. rewrite (valid_row_fits Ha), (valid_row_fits Hb). apply stack_shape_dims in E1 as [-> ->]. now apply fits_shape.
  Qed.

  Lemma lax_layout k (r r1 : row) : sized r -> lax k r = Ok r1 ->
    same_layout r r1 /\ sized r1 /\ r_size r1 = r_size r /\ (transforms cfg = true -> valid_row r = true).
  Proof.
    intros Hs. unfold lax_row. destruct (transforms cfg) eqn:Et.
    2:{ intros H. injection H as <-. unfold same_layout. repeat split; auto. discriminate. }
    intros H. inv_bind H. rewrite post_process_row_eq in H. inv_bind H. apply guard_Ok in H as [Hv H]. inv_bind H.
    destruct (side_row_layout Hm1) as (L1 & L2 & L3 & L4 & L5). specialize (L3 Hs).
    unfold sym_row in H. destruct (d_symmetry cfg) as [kind|]; [|injection H as <-; auto].
    inv_bind H. inv_bind H. rename v1 into q. 
    assert (Hin : In v3 v2).
    { unfold py_index in Hm3. destruct (_ <=? _); [|destruct (_ <=? _); [|discriminate]];
        unfold py_get in Hm3; destruct (nth_error v2 _) eqn:E; try discriminate; injection Hm3 as <-; eapply nth_error_In; eauto. }
    assert (Hf : policy_fits (r_policy q) (k_h (r_board q)) (k_w (r_board q)) = true).
    { rewrite <- (valid_row_fits L3). rewrite <- Hv. symmetry. destruct L1 as (E1 & _ & _ & E2). now apply valid_row_shape. }
    assert (HT : same_layout q r1 /\ r_size r1 = r_size q /\ sized r1 /\ r_stm r1 = r_stm q) by (eapply turn_row_layout; eauto).
    destruct HT as (T1 & T2 & T3 & _). split; [|split; [exact T3|split; [congruence|auto]]].
    destruct L1 as (A1 & A2 & A3 & A4), T1 as (B1 & B2 & B3 & B4). unfold same_layout. repeat split; congruence.
  Qed.

  Lemma settle_Ok (r raw : row) : settle r = Ok raw ->
    r_size raw = r_size r /\ r_board raw = r_board r /\ r_stm raw = r_stm r /\ r_value raw = r_value r /\
    board_policy pass (r_size r) (r_policy r) = Ok (r_policy raw).
  Proof. unfold settle. intros H. inv_bind H. injection H as <-. cbn. auto. Qed.

  Lemma decode_one_lax r x :
    d_fixed_board_size cfg = None -> placed load r ->
    decode_one pz header hash64 junk_index load cfg bz r = Ok x <-> decode_lax r = Ok x /\ valid_row x = true.
  Proof.
    intros Hn Hp. destruct (placed_load Hp) as (f & Hl & Hpf). pose proof Hpf as (Hr & i & b & Ha & Hi & _).
    destruct (fetch_Ok Hpf) as (pre & Ef & Hs & _ & _ & _ & _ & _ & _ & _ & Hraw). specialize (Hraw i Ha).
    unfold decode_one, decode_lax, fetch_ref. rewrite Hl, Ha, Hn. cbn [bind py_get nth_error]. rewrite Ef. cbn [bind].
    replace ((0 <=? i) && (i <? zlen (f_bf f))) with true by lia. rewrite Hraw.
    destruct (settle pre) as [raw|] eqn:Es; cbn [bind]; [|split; [discriminate|intros [? _]; discriminate]].
    destruct (settle_Ok Es) as (E1 & E2 & _). assert (Hsr : sized raw) by (unfold sized in *; congruence).
    unfold lax_row. destruct (transforms cfg) eqn:Et.
    - split; [|tauto]. intros H. split; [exact H|].
      assert (HX : lax (rf_key r) raw = Ok x) by (unfold lax_row; rewrite Et; exact H).
      destruct (lax_layout Hsr HX) as ((A1 & _ & _ & A4) & A5 & _ & A6). rewrite <- (valid_row_shape Hsr A5 A1 A4). auto.
    - unfold transforms, has_symmetry in Et. apply orb_false_iff in Et as [Ef1 Ef2].
      destruct (d_symmetry cfg) eqn:Esy; [discriminate|]. unfold row_symmetry_index. rewrite Esy. cbn [bind].
      rewrite post_process_row_eq. unfold stm_of, side_row, sym_row. rewrite Ef1, Esy. cbn [bind andb].
      destruct (valid_row raw) eqn:Ev.
      + split; [intros H; injection H as <-; auto|]. intros [H _]. exact H.
      + split; [discriminate|]. intros [H Hv]. injection H as <-. congruence.
  Qed.

  (** ** the columns of gathered rows *)
  Lemma gather_cells A (f : npz) refs (column : option (list A)) default :
    refs <> [] -> Forall (placed_in f) refs -> (forall l, column = Some l -> List.length l = List.length (f_bf f)) ->
    gather refs column default = mapM (cell column default) refs.
  Proof.
    intros Hne HF HL. unfold gather. destruct column as [l|].
    2:{ symmetry. apply mapM_intro; [now rewrite map_length|]. intros i a v Hi Hv. rewrite nth_error_map, Hi in Hv. cbn in *. congruence. }
    destruct refs as [|r0 rest]; [congruence|]. set (refs := r0 :: rest) in *. rewrite Forall_forall in HF.
    specialize (HL l eq_refl).
    destruct (HF r0) as (_ & i0 & b0 & Ha0 & Hi0 & _); [now left|]. rewrite Ha0. cbn [py_get nth_error bind].
    destruct (contiguous refs i0) eqn:Hc; [|reflexivity].
    symmetry.
    assert (Hadr : forall j r, nth_error refs j = Some r -> rf_address r = [i0 + Z.of_nat j] /\ 0 <= i0 + Z.of_nat j < zlen l).
    { intros j r Hj. unfold contiguous in Hc. rewrite forallb_forall in Hc.
      specialize (Hc (j, r)). assert (Hin : In (j, r) (combine (seq 0 (List.length refs)) refs)).
      { apply (nth_error_In _ j). rewrite combine_nth_error, nth_error_seq, Hj.
        assert ((j < List.length refs)%nat) by (apply nth_error_Some; congruence).
        rewrite (proj2 (Nat.ltb_lt _ _)) by lia. reflexivity. }
      specialize (Hc Hin). cbn in Hc. apply zlist_eqb_eq in Hc. split; [exact Hc|].
      destruct (HF r) as (_ & i & b & Ha & Hi & _); [eapply nth_error_In; eauto|]. rewrite Hc in Ha. injection Ha as <-.
      unfold zlen in *. lia. }
    assert (Hlast : i0 + zlen refs <= zlen l).
    { destruct (@nth_error_in_range _ refs (List.length refs - 1)) as [r Hr]; [cbn; lia|]. destruct (Hadr _ _ Hr) as [_ H]. unfold zlen in *. cbn in *. lia. }
    assert (Hge : 0 <= i0) by lia.
    apply mapM_intro.
    { rewrite py_slice_len; [unfold zlen; lia|lia|lia|unfold zlen; lia]. }
    intros j r v Hj Hv. destruct (Hadr j r Hj) as [Ha Hb]. assert (Hlt : (j < List.length refs)%nat) by (apply nth_error_Some; congruence).
    rewrite py_slice_nth in Hv; [|lia|lia|unfold zlen; lia|unfold zlen; lia].
    unfold cell. rewrite Ha. cbn [py_get nth_error bind]. rewrite py_index_nat by lia. unfold py_get.
    replace (Z.to_nat (i0 + Z.of_nat j)) with (Z.to_nat i0 + j)%nat by lia. now rewrite Hv.
  Qed.

  Lemma fetch_columns (f : npz) refs pres : mapM (fetch f) refs = Ok pres ->
    mapM (cell (Some (f_bf f)) (zero_stack bz)) refs = Ok (map (@r_board B V P) pres) /\
    mapM (cell (f_gf f) (fun _ => [0])) refs = Ok (map (@r_stm B V P) pres) /\
    mapM (cell (Some (f_vt f)) (fun _ => [vz; vz; vz])) refs = Ok (map (@r_value B V P) pres) /\
    mapM (cell (f_pt f) (zero_policy pz pass)) refs = Ok (map (@r_policy B V P) pres) /\
    map rf_size refs = map (@r_size B V P) pres.
  Proof.
    revert pres; induction refs as [|r refs IH]; intros pres H; cbn [mapM] in *.
    - injection H as <-. auto.
    - inv_bind H. inv_bind H. injection H as <-. destruct (IH _ Hm0) as (-> & -> & -> & -> & E5).
      unfold fetch in Hm. inv_bind Hm. inv_bind Hm. inv_bind Hm. inv_bind Hm. injection Hm as <-.
      rewrite Hm1, Hm2, Hm3, Hm4. cbn [bind map r_size r_board r_stm r_value r_policy]. rewrite E5. auto.
  Qed.

  Lemma settle_columns size (pres : list row) ps :
    (forall a b, In a pres -> In b pres -> policy_shape (r_policy a) = policy_shape (r_policy b)) ->
    (forall a, In a pres -> r_size a = size) ->
    board_policies cfg size (map (@r_policy B V P) pres) = Ok ps <->
    exists raws, mapM settle pres = Ok raws /\ ps = map (@r_policy B V P) raws /\
      map (@r_size B V P) raws = map (@r_size B V P) pres /\ map (@r_board B V P) raws = map (@r_board B V P) pres /\
      map (@r_stm B V P) raws = map (@r_stm B V P) pres /\ map (@r_value B V P) raws = map (@r_value B V P) pres.
  Proof.
    intros Hsame Hsz.
    assert (Hb : forall l, board_policies cfg size (map (@r_policy B V P) pres) = Ok l <-> mapM (fun r => board_policy pass (r_size r) (r_policy r)) pres = Ok l).
    { intros l. unfold board_policies. destruct pres as [|p0 rest]; [reflexivity|]. cbn [map].
      set (pres := p0 :: rest) in *. change (r_policy p0 :: map (@r_policy B V P) rest) with (map (@r_policy B V P) pres).
      assert (Hid : (forall a, In a pres -> board_policy pass (r_size a) (r_policy a) = Ok (r_policy a)) ->
                Ok (map (@r_policy B V P) pres) = Ok l <-> mapM (fun r => board_policy pass (r_size r) (r_policy r)) pres = Ok l).
      { intros Hd. rewrite (mapM_Ok_ext (g := fun r => Ok (r_policy r)) Hd).
        assert (E : forall q, mapM (fun r : row => Ok (r_policy r)) q = Ok (map (@r_policy B V P) q)).
        { intros q. induction q as [|x q IH]; [reflexivity|]. cbn. now rewrite IH. }
        now rewrite E. }
      assert (Hin0 : In p0 pres) by now left.
      destruct (r_policy p0) as [q|v] eqn:E0.
      - apply Hid. intros a Ha. specialize (Hsame a p0 Ha Hin0). rewrite E0 in Hsame. destruct (r_policy a); [|discriminate].
        unfold board_policy. now destruct (r_size a).
      - destruct pass eqn:Ep.
        + apply Hid. intros a Ha. specialize (Hsame a p0 Ha Hin0). rewrite E0 in Hsame. destruct (r_policy a); [discriminate|].
          unfold board_policy. now destruct (r_size a).
        + assert (E : forall q, (forall a, In a q -> r_size a = size) -> mapM (board_policy false size) (map (@r_policy B V P) q) = mapM (fun r => board_policy false (r_size r) (r_policy r)) q).
          { intros q. induction q as [|x q IH]; intros Hq; [reflexivity|]. cbn [map mapM]. rewrite IH by (intros; apply Hq; now right).
            now rewrite (Hq x (or_introl eq_refl)). }
          rewrite E by exact Hsz. reflexivity. }
    rewrite Hb. clear Hb Hsame Hsz. revert ps. induction pres as [|p rest IH]; intros ps; cbn [mapM].
    - split; [intros H; injection H as <-; exists []; auto 8|]. intros (raws & E & -> & _). now injection E as <-.
    - split.
      + intros H. inv_bind H. inv_bind H. injection H as <-. destruct (proj1 (IH _) Hm0) as (raws & E & -> & F1 & F2 & F3 & F4).
        unfold settle at 1. rewrite Hm. cbn [bind]. rewrite E. cbn [bind]. eexists. split; [reflexivity|]. cbn [map r_size r_board r_stm r_value r_policy].
        rewrite F1, F2, F3, F4. auto 8.
      + intros (raws & E & -> & F). inv_bind E. inv_bind E. injection E as <-. unfold settle in Hm. inv_bind Hm. injection Hm as <-.
        rewrite Hm1. cbn [bind map]. cbn [map] in F. destruct F as (F1 & F2 & F3 & F4). injection F1 as F1. injection F2 as F2. injection F3 as F3. injection F4 as F4.
        assert (X : exists raws, mapM settle rest = Ok raws /\ map (@r_policy B V P) v0 = map (@r_policy B V P) raws /\
           map (@r_size B V P) raws = map (@r_size B V P) rest /\ map (@r_board B V P) raws = map (@r_board B V P) rest /\
           map (@r_stm B V P) raws = map (@r_stm B V P) rest /\ map (@r_value B V P) raws = map (@r_value B V P) rest) by (exists v0; auto 8).
        apply IH in X. rewrite X. reflexivity.
  Qed.

  Lemma settle_layout (a b ra rb : row) : settle a = Ok ra -> settle b = Ok rb -> same_layout a b -> r_size a = r_size b -> same_layout ra rb.
  Proof.
    intros Ha Hb (E1 & E2 & E3 & E4) Hz. destruct (settle_Ok Ha) as (A1 & A2 & A3 & A4 & A5). destruct (settle_Ok Hb) as (B1 & B2 & B3 & B4 & B5).
    unfold same_layout. rewrite A2, B2, A3, B3, A4, B4. split; [exact E1|]. split; [exact E2|]. split; [exact E3|].
    rewrite Hz in A5. destruct (r_size b) as [h w]. unfold board_policy in A5, B5. destruct (r_policy a) as [q|v], (r_policy b) as [q2|v2]; try discriminate E4.
    - injection A5 as <-. injection B5 as <-. exact E4.
    - destruct pass; [injection A5 as <-; injection B5 as <-; exact E4|]. apply guard_Ok in A5 as [_ A5]. apply guard_Ok in B5 as [_ B5].
      injection A5 as <-. injection B5 as <-. reflexivity.
  Qed.

  Lemma row_dims_settle (a ra : row) : settle a = Ok ra -> sized a -> sized ra.
  Proof. intros H Hs. destruct (settle_Ok H) as (E1 & E2 & _). unfold sized in *. congruence. Qed.

  (** settle and post-process a batch of fetched rows *)
  Lemma finish_rows size (keys : list sample_key) (pres : list row) draw d :
    pres <> [] -> stackable pres -> Forall (@sized B V P) pres -> (forall a, In a pres -> r_size a = size) ->
    List.length keys = List.length pres ->
    (forall n l, draw n = Ok l <-> bound_ok n = true /\
       mapM (row_draw header hash64 n (d_seed cfg) symmetry_domain (d_epoch cfg) 0) keys = Ok l) ->
    (policy <- board_policies cfg size (map (@r_policy B V P) pres) ;;
     post_process_vectorized junk_board junk_plane cfg draw
       {| c_size := map (@r_size B V P) pres; c_board := map (@r_board B V P) pres; c_stm := map (@r_stm B V P) pres;
          c_value := map (@r_value B V P) pres; c_policy := policy |}) = Ok d <->
    exists raws rows, mapM settle pres = Ok raws /\ mapM (fun '(k, r) => lax k r) (combine keys raws) = Ok rows /\ d = stacked rows.
  Proof.
    intros Hne Hst Hsd Hsz HL Hdraw.
    assert (Hps : forall a b, In a pres -> In b pres -> policy_shape (r_policy a) = policy_shape (r_policy b)).
    { intros a b Ha Hb. destruct (Hst a b Ha Hb) as (_ & _ & _ & E). exact E. }
    assert (Hcommon : forall raws, mapM settle pres = Ok raws -> raws <> [] /\ Forall (@sized B V P) raws /\ uniform_boards raws /\ List.length keys = List.length raws).
    { intros raws E. split; [|split; [|split]].
      - intros ->. apply mapM_len in E. destruct pres; [congruence|discriminate].
      - rewrite Forall_forall. intros x Hx. destruct (mapM_ok_in E Hx) as (a & Ha & Hs). rewrite Forall_forall in Hsd. eapply row_dims_settle; eauto.
      - intros x y Hx Hy. destruct (mapM_ok_in E Hx) as (a & Ha & Hs). destruct (mapM_ok_in E Hy) as (b & Hb & Hs2).
        destruct (settle_layout Hs Hs2) as (L1 & _ & _ & L2); [now apply Hst| |auto]. now rewrite (Hsz a), (Hsz b).
      - rewrite (mapM_len E). exact HL. }
    split.
    - intros H. inv_bind H. apply settle_columns in Hm; [|exact Hps|exact Hsz]. destruct Hm as (raws & E & -> & F1 & F2 & F3 & F4).
      rewrite <- F1, <- F2, <- F3, <- F4 in H. change {| c_size := _ |} with (stacked raws) in H.
      destruct (Hcommon raws E) as (N & S1 & U & L).
      destruct (@vectorized_backward B V P pz bz header hash64 junk_index junk_board junk_plane cfg keys raws draw d N S1 U L) as [rows Hrows]; [intros; now apply Hdraw|exact H|].
      exists raws, rows. split; [exact E|]. split; [exact Hrows|].
      assert (E2 : post_process_vectorized junk_board junk_plane cfg draw (stacked raws) = Ok (stacked rows)).
      { eapply vectorized_forward; eauto. intros n l Hb Hm. apply Hdraw; auto. }
      congruence.
    - intros (raws & rows & E & Hrows & ->). destruct (Hcommon raws E) as (N & S1 & U & L).
      assert (X : board_policies cfg size (map (@r_policy B V P) pres) = Ok (map (@r_policy B V P) raws) /\
        map (@r_size B V P) raws = map (@r_size B V P) pres /\ map (@r_board B V P) raws = map (@r_board B V P) pres /\
      map (@r_stm B V P) raws = map (@r_stm B V P) pres /\ map (@r_value B V P) raws = map (@r_value B V P) pres).
      { assert (F : map (@r_size B V P) raws = map (@r_size B V P) pres /\ map (@r_board B V P) raws = map (@r_board B V P) pres /\
          map (@r_stm B V P) raws = map (@r_stm B V P) pres /\ map (@r_value B V P) raws = map (@r_value B V P) pres).
        { clear -E. revert raws E. induction pres as [|p rest IH]; intros raws E; cbn [mapM] in E; [injection E as <-; auto|].
          inv_bind E. inv_bind E. injection E as <-. destruct (settle_Ok Hm) as (A1 & A2 & A3 & A4 & _). destruct (IH _ Hm0) as (F1 & F2 & F3 & F4).
          cbn [map]. rewrite A1, A2, A3, A4, F1, F2, F3, F4. auto. }
        split; [|exact F]. apply settle_columns; [exact Hps|exact Hsz|]. exists raws. auto. }
      destruct X as (-> & F1 & F2 & F3 & F4). cbn [bind]. rewrite <- F1, <- F2, <- F3, <- F4. change {| c_size := _ |} with (stacked raws).
      eapply vectorized_forward; eauto. intros n l Hb Hm. apply Hdraw; auto.
  Qed.

  Lemma staged refs pres rows : mapM fetch_ref refs = Ok pres ->
    mapM decode_lax refs = Ok rows <->
    exists raws, mapM settle pres = Ok raws /\ mapM (fun '(k, r) => lax k r) (combine (map rf_key refs) raws) = Ok rows.
  Proof.
    revert pres rows. induction refs as [|r refs IH]; intros pres rows H; cbn [mapM] in *.
    - injection H as <-. cbn. split; [intros E; exists []; auto|]. intros (raws & E & E2). now injection E as <-.
    - inv_bind H. inv_bind H. injection H as <-. rename v into pre. rename v0 into pres. unfold decode_lax at 1. rewrite Hm. cbn [bind mapM].
      specialize (IH pres). destruct (settle pre) as [raw|] eqn:Es; cbn [bind].
      2:{ split; [discriminate|]. intros (raws & E & _). discriminate. }
      split.
      + intros X. inv_bind X. inv_bind X. injection X as <-. destruct (proj1 (IH _ Hm0) Hm2) as (raws & E1 & E2).
        rewrite E1. cbn [bind]. exists (raw :: raws). split; [reflexivity|]. cbn [map combine mapM]. rewrite Hm1. cbn [bind]. rewrite E2. reflexivity.
      + intros (raws & E1 & E2). inv_bind E1. injection E1 as <-. cbn [map combine mapM] in E2. inv_bind E2. inv_bind E2. injection E2 as <-.
        assert (X : exists raws, mapM settle pres = Ok raws /\ mapM (fun '(k, r) => lax k r) (combine (map rf_key refs) raws) = Ok v1) by (exists v; auto).
        apply (IH v1 Hm0) in X. rewrite X, Hm2. reflexivity.
  Qed.

  Lemma draw_refs_rows refs n l : refs <> [] ->
    draw_refs header hash64 junk_index cfg refs n = Ok l <-> bound_ok n = true /\
       mapM (row_draw header hash64 n (d_seed cfg) symmetry_domain (d_epoch cfg) 0) (map rf_key refs) = Ok l.
  Proof. intros H. unfold draw_refs. apply keys_v2_rows. destruct refs; [congruence|discriminate]. Qed.

  (** ** one file *)
  Lemma fetch_all (f : npz) refs : Forall (placed_in f) refs ->
    exists pres, mapM (fetch f) refs = Ok pres /\ Forall (@sized B V P) pres /\ stackable pres /\
      (forall a b, In a pres -> In b pres -> r_size a = r_size b).
  Proof.
    intros HF. rewrite Forall_forall in HF. destruct (@mapM_total _ _ (fetch f) refs) as [pres E].
    { intros r Hr. destruct (fetch_Ok (HF r Hr)) as (pre & H & _). eauto. }
    exists pres. split; [exact E|]. split; [|split].
    - rewrite Forall_forall. intros x Hx. destruct (mapM_ok_in E Hx) as (r & Hr & Hf). destruct (fetch_Ok (HF r Hr)) as (pre & H & Hs & _). congruence.
    - intros x y Hx Hy. destruct (mapM_ok_in E Hx) as (r & Hr & Hf). destruct (mapM_ok_in E Hy) as (r2 & Hr2 & Hf2).
      apply (same_file (HF r Hr) (HF r2 Hr2) Hf Hf2).
    - intros x y Hx Hy. destruct (mapM_ok_in E Hx) as (r & Hr & Hf). destruct (mapM_ok_in E Hy) as (r2 & Hr2 & Hf2).
      apply (same_file (HF r Hr) (HF r2 Hr2) Hf Hf2).
  Qed.

  Lemma loaded_rows (f : npz) path refs d :
    refs <> [] -> load path = Ok f -> (forall r, In r refs -> rf_path r = path) -> Forall (placed_in f) refs ->
    decode_loaded_batch pz vz header hash64 junk_index junk_board junk_plane cfg bz refs f = Ok d <->
    exists rows, mapM decode_lax refs = Ok rows /\ d = stacked rows.
  Proof.
    intros Hne Hl Hp HF. destruct (fetch_all HF) as (pres & E & Hsd & Hst & Hsz).
    assert (Er : mapM fetch_ref refs = Ok pres).
    { rewrite <- E. apply mapM_Ok_ext. intros r Hr. unfold fetch_ref. rewrite (Hp r Hr), Hl. reflexivity. }
    destruct (fetch_columns E) as (G1 & G2 & G3 & G4 & G5).
    assert (Hrect : rectangular f) by (destruct refs as [|r rs]; [congruence|]; rewrite Forall_forall in HF; apply (HF r); now left).
    destruct (rect_len Hrect) as (L1 & L2 & L3 & L4).
    unfold decode_loaded_batch. rewrite (gather_cells _ Hne HF L4), G1. cbn [bind].
    rewrite (gather_cells _ Hne HF L2), G2. cbn [bind]. rewrite (gather_cells _ Hne HF L1), G3. cbn [bind].
    rewrite (gather_cells _ Hne HF L3), G4. cbn [bind]. rewrite G5.
    destruct refs as [|r0 rs] eqn:Erefs; [congruence|]. rewrite <- Erefs in *. 
    assert (Eg : py_get refs 0 = Ok r0) by (rewrite Erefs; reflexivity). rewrite Eg. cbn [bind].
    assert (Hsz2 : forall a, In a pres -> r_size a = rf_size r0).
    { intros a Ha. destruct pres as [|p0 ps] eqn:Ep; [destruct Ha|]. rewrite (Hsz a p0 Ha (or_introl eq_refl)).
      rewrite Erefs in G5. cbn [map] in G5. injection G5 as G5 _. auto. }
    pose proof (@finish_rows (rf_size r0) (map rf_key refs) pres (draw_refs header hash64 junk_index cfg refs) d) as F.
    assert (Hpn : pres <> []) by (intros ->; apply mapM_len in E; rewrite Erefs in E; discriminate).
    specialize (F Hpn Hst Hsd Hsz2). rewrite F.
    - split.
      + intros (raws & rows & H1 & H2 & ->). exists rows. split; [|reflexivity]. apply (staged _ Er). eauto.
      + intros (rows & H & ->). apply (staged _ Er) in H as (raws & H1 & H2). eauto.
    - rewrite map_length. symmetry. exact (mapM_len E).
    - intros n l. apply draw_refs_rows. exact Hne.
  Qed.

  Lemma decode_lax_one r x : decode_lax r = Ok x -> placed load r -> sized x /\
     exists pre raw, fetch_ref r = Ok pre /\ settle pre = Ok raw /\ same_layout raw x /\ sized pre.
  Proof.
    intros H Hp. destruct (placed_load Hp) as (f & Hl & Hpf). destruct (fetch_Ok Hpf) as (pre & Ef & Hs & _).
    unfold decode_lax in H. assert (E : fetch_ref r = Ok pre) by (unfold fetch_ref; rewrite Hl; exact Ef). rewrite E in H. cbn [bind] in H.
    inv_bind H. destruct (lax_layout (row_dims_settle Hm Hs) H) as (L1 & L2 & _). split; [exact L2|]. exists pre, v. auto.
  Qed.

  Lemma lax_same_file r1 r2 x1 x2 : rf_path r1 = rf_path r2 -> placed load r1 -> placed load r2 ->
    decode_lax r1 = Ok x1 -> decode_lax r2 = Ok x2 -> same_layout x1 x2.
  Proof.
    intros Hp P1 P2 D1 D2. destruct (placed_load P1) as (f1 & Hl1 & I1). destruct (placed_load P2) as (f2 & Hl2 & I2).
    rewrite <- Hp, Hl1 in Hl2. injection Hl2 as <-.
    destruct (decode_lax_one D1 P1) as (_ & a & ra & A1 & A2 & A3 & _). destruct (decode_lax_one D2 P2) as (_ & b & rb & B1 & B2 & B3 & _).
    unfold fetch_ref in A1, B1. rewrite <- Hp in B1. rewrite Hl1 in A1, B1. cbn [bind] in A1, B1.
    destruct (same_file I1 I2 A1 B1) as [L Z]. pose proof (settle_layout A2 B2 L Z) as L2.
    destruct A3 as (? & ? & ? & ?), B3 as (? & ? & ? & ?), L2 as (? & ? & ? & ?). unfold same_layout. repeat split; congruence.
  Qed.
End Batch.
