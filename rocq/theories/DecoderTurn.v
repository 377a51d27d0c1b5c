(** The vectorised symmetries, and the whole of post_process_vectorized. *)
From Verif Require Import Base BaseFacts Rng RngFacts Symmetry Checkpoint Decoder DecoderFacts DecoderRng DecoderSpec DecoderVec.
Set Implicit Arguments.
Unset Strict Implicit.

Lemma shape3_eqb_refl a b : a = b -> shape3_eqb a b = true.
Proof. intros ->. destruct b as [[x y] z]. unfold shape3_eqb. now rewrite !Z.eqb_refl. Qed.
Lemma shape3_eqb_eq a b : shape3_eqb a b = true -> a = b.
Proof. destruct a as [[? ?] ?], b as [[? ?] ?]. unfold shape3_eqb. intros H. repeat f_equal; lia. Qed.
Lemma policy_shape_eqb_refl a b : a = b -> policy_shape_eqb a b = true.
Proof. intros ->. destruct b as [[x y] z]. unfold policy_shape_eqb. now rewrite !Z.eqb_refl, eqb_reflx. Qed.
Lemma policy_shape_eqb_eq a b : policy_shape_eqb a b = true -> a = b.
Proof.
  destruct a as [[x ?] ?], b as [[y ?] ?]. unfold policy_shape_eqb. intros H. apply andb_true_iff in H as [H H2].
  apply andb_true_iff in H as [H0 H1]. apply eqb_prop in H0. repeat f_equal; [exact H0|lia|lia].
Qed.

Section Turn.
  Variables (B V P : Type) (pz : P) (bz : B).
  Variable header : bytes.
  Variable hash64 : bytes -> Z.
  Variable junk_index : nat -> Z.
  Variable junk_board : nat -> stack B.
  Variable junk_plane : nat -> plane P.
  Variable cfg : config.
  Notation row := (row B V P).
  Notation cols := (cols B V P).

  Lemma flat_nil_none (i : Z) indices : flatnonzero (map (Z.eqb i) indices) = [] -> forall p, nth_error indices p <> Some i.
  Proof.
    intros H p Hp. assert (In p (flatnonzero (map (Z.eqb i) indices))); [|rewrite H in *; assumption].
    apply in_flat_map. exists i. split; [exact Hp|apply Z.eqb_refl].
  Qed.

  Lemma apply_choices_rows (all : list symmetry) (indices : list Z) (boards tgtb : list (stack B)) (planes tgtp : list (plane P)) :
    (forall p v, nth_error indices p = Some v -> 0 <= v /\
       exists sym b q, nth_error all (Z.to_nat v) = Some sym /\ nth_error boards p = Some b /\ nth_error planes p = Some q /\
         nth_error tgtb p = Some (apply_to_stack sym b) /\ nth_error tgtp p = Some (apply_to_array sym q)) ->
    (forall sym b c, In sym all -> In b boards -> In c boards -> stack_shape (apply_to_stack sym b) = stack_shape c) ->
    (forall sym q c, In sym all -> In q planes -> In c planes ->
        p_h (apply_to_array sym q) = p_h c /\ p_w (apply_to_array sym q) = p_w c) ->
    List.length tgtb = List.length indices -> List.length tgtp = List.length indices ->
    forall choices pre bo po,
      all = pre ++ choices ->
      agree bo tgtb (fun p => exists v, nth_error indices p = Some v /\ v < zlen pre) ->
      agree po tgtp (fun p => exists v, nth_error indices p = Some v /\ v < zlen pre) ->
      apply_choices (zlen pre) choices indices boards planes bo po = Ok (tgtb, tgtp).
  Proof.
    intros H Hsb Hsp Hlb Hlp. induction choices as [|sym rest IH]; intros pre bo po Hall Ab Ap; cbn [apply_choices].
    - rewrite app_nil_r in Hall. subst pre.
      assert (Hall : forall i, (i < List.length indices)%nat -> exists v, nth_error indices i = Some v /\ v < zlen all).
      { intros i Hi. destruct (nth_error_in_range Hi) as [v Hv]. exists v. split; [exact Hv|].
        destruct (H i v Hv) as (H0 & sym & _ & _ & Hs & _). assert ((Z.to_nat v < List.length all)%nat) by (apply nth_error_Some; congruence).
        unfold zlen. lia. }
      assert (bo = tgtb) as -> by (eapply agree_all; [exact Ab|]; intros i Hi; apply Hall; lia).
      assert (po = tgtp) as -> by (eapply agree_all; [exact Ap|]; intros i Hi; apply Hall; lia).
      reflexivity.
    - assert (Hz : zlen (pre ++ [sym]) = zlen pre + 1) by (unfold zlen; rewrite app_length; cbn; lia).
      assert (Hall2 : all = (pre ++ [sym]) ++ rest) by (rewrite <- app_assoc; exact Hall).
      assert (Hnth : nth_error all (Z.to_nat (zlen pre)) = Some sym).
      { unfold zlen. rewrite Nat2Z.id, Hall, nth_error_app2, Nat.sub_diag by lia. reflexivity. }
      assert (Hsym : In sym all) by (eapply nth_error_In; eauto).
      set (selected := flatnonzero (map (Z.eqb (zlen pre)) indices)).
      assert (Hsel : forall p, In p selected <-> nth_error indices p = Some (zlen pre)).
      { intros p. unfold selected. rewrite in_flat_map. split; [intros (a & E & Ea); apply Z.eqb_eq in Ea; congruence|].
        intros E. eexists. split; [exact E|apply Z.eqb_refl]. }
      destruct selected as [|s0 ss] eqn:Es.
      + rewrite <- Hz. apply IH; [exact Hall2| |].
        * eapply agree_weaken; [exact Ab|]. intros p (v & Hv & Hlt). exists v. split; [exact Hv|].
          destruct (Z.eq_dec v (zlen pre)) as [->|]; [exfalso; apply (proj2 (Hsel p)) in Hv; exact Hv|lia].
        * eapply agree_weaken; [exact Ap|]. intros p (v & Hv & Hlt). exists v. split; [exact Hv|].
          destruct (Z.eq_dec v (zlen pre)) as [->|]; [exfalso; apply (proj2 (Hsel p)) in Hv; exact Hv|lia].
      + rewrite <- Es in *. assert (Hne : selected <> []) by congruence. clear Es s0 ss. 
        assert (Hp : forall p, In p selected -> exists b q, nth_error boards p = Some b /\ nth_error planes p = Some q /\
                   nth_error tgtb p = Some (apply_to_stack sym b) /\ nth_error tgtp p = Some (apply_to_array sym q)).
        { intros p Hin. apply Hsel in Hin. destruct (H p _ Hin) as (_ & sym2 & b & q & E & R). rewrite Hnth in E. injection E as <-. eauto. }
        destruct (@take_total _ boards selected) as [bs Hbs].
        { intros p Hin. destruct (Hp p Hin) as (b & q & E & _). apply nth_error_Some. congruence. }
        destruct (@take_total _ planes selected) as [ps Hps].
        { intros p Hin. destruct (Hp p Hin) as (b & q & _ & E & _). apply nth_error_Some. congruence. }
        rewrite Hbs. cbn [bind].
        assert (Hinb : forall b, In b bs -> In b boards).
        { intros b Hin. apply In_nth_error in Hin as [i Hi].
          destruct (@nth_error_in_range _ selected i) as [p Hpi]; [rewrite <- (mapM_len Hbs); apply nth_error_Some; congruence|].
          destruct (mapM_nth Hbs Hpi) as (b2 & Hg & Hi2). rewrite Hi in Hi2. injection Hi2 as <-. unfold py_get in Hg.
          destruct (nth_error boards p) eqn:Eb; [|discriminate]. injection Hg as ->. eapply nth_error_In; eauto. }
        assert (Hinp : forall b, In b ps -> In b planes).
        { intros b Hin. apply In_nth_error in Hin as [i Hi].
          destruct (@nth_error_in_range _ selected i) as [p Hpi]; [rewrite <- (mapM_len Hps); apply nth_error_Some; congruence|].
          destruct (mapM_nth Hps Hpi) as (b2 & Hg & Hi2). rewrite Hi in Hi2. injection Hi2 as <-. unfold py_get in Hg.
          destruct (nth_error planes p) eqn:Eb; [|discriminate]. injection Hg as ->. eapply nth_error_In; eauto. }
        assert (same_stack_shapes (map (apply_to_stack sym) bs) boards = true) as ->.
        { unfold same_stack_shapes. destruct bs as [|b bs']; [reflexivity|]. cbn [map].
          assert (Hb0 : In b boards) by (apply Hinb; now left). clear -Hsb Hsym Hb0. destruct boards as [|c cs]; [reflexivity|].
          apply shape3_eqb_refl. apply Hsb; [exact Hsym|exact Hb0|now left]. }
        destruct (@put_agree _ tgtb selected (map (apply_to_stack sym) bs) bo (fun p => exists v, nth_error indices p = Some v /\ v < zlen pre)) as (bo1 & Eb1 & Ab1).
        { apply mapM_intro; [rewrite map_length; exact (mapM_len Hbs)|]. intros i p x Hi Hx.
          rewrite nth_error_map in Hx. destruct (nth_error bs i) as [b|] eqn:Ebi; [|discriminate]. injection Hx as <-.
          destruct (mapM_nth Hbs Hi) as (b2 & Hg & Hi2). rewrite Ebi in Hi2. injection Hi2 as <-.
          destruct (Hp p) as (b3 & q3 & E1 & _ & E3 & _); [eapply nth_error_In; eauto|].
          unfold py_get in *. rewrite E1 in Hg. injection Hg as <-. now rewrite E3. }
        { exact Ab. }
        rewrite Eb1. cbn [bind]. rewrite Hps. cbn [bind].
        assert (same_plane_shapes (map (apply_to_array sym) ps) planes = true) as ->.
        { unfold same_plane_shapes. destruct ps as [|b ps']; [reflexivity|]. cbn [map].
          assert (Hb0 : In b planes) by (apply Hinp; now left). clear -Hsp Hsym Hb0. destruct planes as [|c cs]; [reflexivity|].
          destruct (Hsp sym b c) as [-> ->]; [exact Hsym|exact Hb0|now left|]. now rewrite !Z.eqb_refl. }
        destruct (@put_agree _ tgtp selected (map (apply_to_array sym) ps) po (fun p => exists v, nth_error indices p = Some v /\ v < zlen pre)) as (po1 & Ep1 & Ap1).
        { apply mapM_intro; [rewrite map_length; exact (mapM_len Hps)|]. intros i p x Hi Hx.
          rewrite nth_error_map in Hx. destruct (nth_error ps i) as [b|] eqn:Ebi; [|discriminate]. injection Hx as <-.
          destruct (mapM_nth Hps Hi) as (b2 & Hg & Hi2). rewrite Ebi in Hi2. injection Hi2 as <-.
          destruct (Hp p) as (b3 & q3 & _ & E1 & _ & E3); [eapply nth_error_In; eauto|].
          unfold py_get in *. rewrite E1 in Hg. injection Hg as <-. now rewrite E3. }
        { exact Ap. }
        rewrite Ep1. cbn [bind]. rewrite <- Hz.
        assert (Hstep : forall p, (exists v, nth_error indices p = Some v /\ v < zlen (pre ++ [sym])) ->
                 (exists v, nth_error indices p = Some v /\ v < zlen pre) \/ In p selected).
        { intros p (v & Hv & Hlt). rewrite Hz in Hlt. destruct (Z.eq_dec v (zlen pre)) as [->|]; [right; now apply Hsel|].
          left. exists v. split; [exact Hv|lia]. }
        apply IH; [exact Hall2| |].
        * eapply agree_weaken; [exact Ab1|exact Hstep].
        * eapply agree_weaken; [exact Ap1|exact Hstep].
  Qed.

  (** ** the whole function *)
  Definition uniform_boards (rows : list row) : Prop :=
    forall a b, In a rows -> In b rows -> stack_shape (r_board a) = stack_shape (r_board b) /\ policy_shape (r_policy a) = policy_shape (r_policy b).

  Lemma fits_shape (p q : policy P) h w : policy_shape p = policy_shape q -> policy_fits p h w = policy_fits q h w.
  Proof. destruct p, q; cbn; intros H; try discriminate; injection H; intros; congruence. Qed.

  Lemma valid_row_fits (r : row) : sized r -> valid_row r = policy_fits (r_policy r) (k_h (r_board r)) (k_w (r_board r)).
  Proof.
    intros Hs. unfold valid_row, validate. cbn [to_sample sm_board_size sm_board sm_sparse sm_policy]. rewrite Hs.
    rewrite !Z.leb_refl. cbn [andb]. apply orb_diag.
  Qed.

  Lemma stack_shape_dims A (a b : stack A) : stack_shape a = stack_shape b -> k_h a = k_h b /\ k_w a = k_w b.
  Proof. unfold stack_shape. intros H. injection H; auto. Qed.

  (** batched validation is row validation *)
  Lemma validate_rows (rows : list row) :
    rows <> [] -> Forall (@sized B V P) rows -> uniform_boards rows ->
    validate_batch (stacked rows) = true <-> Forall (fun r => valid_row r = true) rows.
  Proof.
    intros Hne Hs Hu. rewrite !Forall_forall in *. unfold validate_batch. cbn [stacked c_size c_board c_stm c_value c_policy].
    rewrite !map_length, !Nat.eqb_refl. cbn [andb]. destruct rows as [|r rs]; [congruence|]. cbn [map].
    set (l := r :: rs) in *. change (r_size r :: map (@r_size B V P) rs) with (map (@r_size B V P) l).
    assert (Hin : In r l) by now left.
    assert (Hsz : forallb (fun s => (fst s <=? k_h (r_board r)) && (snd s <=? k_w (r_board r))) (map (@r_size B V P) l) = true).
    { apply forallb_forall. intros s Hx. apply in_map_iff in Hx as (x & <- & Hx). rewrite (Hs x Hx). cbn [fst snd].
      destruct (Hu x r Hx Hin) as [E _]. apply stack_shape_dims in E as [-> ->]. now rewrite !Z.leb_refl. }
    rewrite Hsz. cbn [andb]. split.
    - intros Hf x Hx. rewrite valid_row_fits by auto. destruct (Hu x r Hx Hin) as [E1 E2].
      apply stack_shape_dims in E1 as [-> ->]. rewrite (fits_shape _ _ E2). exact Hf.
    - intros Hall. specialize (Hall r Hin). rewrite valid_row_fits in Hall by auto. exact Hall.
  Qed.

  Definition plane_of (size : Z * Z) (p : policy P) : plane P :=
    match p with PPlane q => q | PFlat v => np_reshape2 (fst size) (snd size) (np_init v) end.

  Lemma source_planes_eq size ps : (forall v, In (PFlat v) ps -> v_len v =? fst size * snd size + 1 = true) ->
    source_planes size ps = Ok (map (plane_of size) ps).
  Proof.
    intros H. unfold source_planes. destruct ps as [|[q|v] r]; [reflexivity| |].
    - reflexivity.
    - rewrite (H v (or_introl eq_refl)). f_equal.
  Qed.

  Notation lax := (lax_row pz bz header hash64 junk_index cfg).

  (** what a successful row draw and row turn consist of *)
  Lemma row_symmetry_index_Ok kind size k s :
    d_symmetry cfg = Some kind ->
    row_symmetry_index header hash64 junk_index cfg size k = Ok s <->
    exists choices, available_symmetries size kind = Ok choices /\ bound_ok (zlen choices) = true /\
      row_draw header hash64 (zlen choices) (d_seed cfg) symmetry_domain (d_epoch cfg) 0 k = Ok s.
  Proof.
    intros Hk. unfold row_symmetry_index. rewrite Hk. split.
    - intros H. inv_bind H. inv_bind H. exists v. split; [exact Hm|]. apply (@keys_v2_one header hash64 junk_index).
      eauto.
    - intros (choices & Ha & Hb). rewrite Ha. cbn [bind]. apply (@keys_v2_one header hash64 junk_index) in Hb as (l & Hl & Hg).
      rewrite Hl. exact Hg.
  Qed.

  (** forward: when every row has a result, the batch is exactly those rows *)
  Lemma vectorized_forward (keys : list sample_key) (rows out : list row) (draw : Z -> res (list Z)) :
    rows <> [] -> Forall (@sized B V P) rows -> uniform_boards rows -> List.length keys = List.length rows ->
    (forall n l, bound_ok n = true ->
       mapM (row_draw header hash64 n (d_seed cfg) symmetry_domain (d_epoch cfg) 0) keys = Ok l -> draw n = Ok l) ->
    mapM (fun '(k, r) => lax k r) (combine keys rows) = Ok out ->
    post_process_vectorized junk_board junk_plane cfg draw (stacked rows) = Ok (stacked out).
  Proof.
    intros Hne Hs Hu Hlen Hdraw H. unfold post_process_vectorized.
    unfold lax_row in H. unfold transforms in H.
    destruct (negb (d_fixed_side cfg) && negb (has_symmetry cfg)) eqn:Ht.
    { assert (Ht2 : d_fixed_side cfg || has_symmetry cfg = false) by (destruct (d_fixed_side cfg), (has_symmetry cfg); cbn in *; congruence).
      rewrite Ht2 in H.
      assert (out = rows) as ->; [|reflexivity].
      apply list_ext; [rewrite (mapM_len H), combine_length; lia|]. intros i r Hi.
      destruct (@nth_error_in_range _ (combine keys rows) i) as [[k r0] Hc].
      { rewrite <- (mapM_len H). apply nth_error_Some. congruence. }
      destruct (mapM_nth H Hc) as (r1 & E1 & E2). rewrite Hi in E2. injection E2 as <-. injection E1 as <-.
      rewrite combine_nth_error in Hc. destruct (nth_error keys i); [|discriminate]. destruct (nth_error rows i); [|discriminate]. congruence. }
    assert (Ht2 : d_fixed_side cfg || has_symmetry cfg = true) by (destruct (d_fixed_side cfg), (has_symmetry cfg); cbn in *; congruence).
    rewrite Ht2 in H. clear Ht Ht2.
    (* every row's steps *)
    assert (Hrow : forall i r, nth_error rows i = Some r -> exists k s stm r1 r2,
        nth_error keys i = Some k /\ nth_error out i = Some r2 /\
        row_symmetry_index header hash64 junk_index cfg (r_size r) k = Ok s /\
        stm_of cfg r = Ok stm /\ valid_row r = true /\ side_row cfg stm r = Ok r1 /\ sym_row cfg s r1 = Ok r2).
    { intros i r Hi. destruct (@nth_error_in_range _ keys i) as [k Hk]; [rewrite Hlen; apply nth_error_Some; congruence|].
      assert (Hc : nth_error (combine keys rows) i = Some (k, r)) by (rewrite combine_nth_error, Hk, Hi; reflexivity).
      destruct (mapM_nth H Hc) as (r2 & E & Ho). inv_bind E. rename v into s. rewrite post_process_row_eq in E.
      inv_bind E. rename v into stm. apply guard_Ok in E as [Hv E]. inv_bind E. rename v into r1. exists k, s, stm, r1, r2. auto 8. }
    assert (Hval : validate_batch (stacked rows) = true).
    { apply validate_rows; auto. rewrite Forall_forall. intros r Hin. apply In_nth_error in Hin as [i Hi].
      destruct (Hrow i r Hi) as (k & s & stm & r1 & r2 & H1 & H2 & H3 & H4 & H5 & _). exact H5. }
    rewrite Hval.
    (* the side step *)
    destruct (@mapM_total _ _ (@stm_of B V P cfg) rows) as [stms Hstms].
    { intros r Hin. apply In_nth_error in Hin as [i Hi]. destruct (Hrow i r Hi) as (k & s & stm & r1 & r2 & _ & _ & _ & H4 & _). eauto. }
    destruct (@mapM_total _ _ (fun '(s, r) => @side_row B V P cfg s r) (combine stms rows)) as [rows1 Hrows1].
    { intros [s r] Hin. apply In_nth_error in Hin as [i Hi]. rewrite combine_nth_error in Hi.
      destruct (nth_error stms i) as [s'|] eqn:E1; [|discriminate]. destruct (nth_error rows i) as [r'|] eqn:E2; [|discriminate]. injection Hi as -> ->.
      destruct (Hrow i r E2) as (k & s1 & stm & r1 & r2 & _ & _ & _ & H4 & _ & H6 & _).
      destruct (mapM_nth Hstms E2) as (x & Hx & Hx2). rewrite E1 in Hx2. injection Hx2 as <-. rewrite H4 in Hx. injection Hx as ->. eauto. }
    assert (Hlen1 : List.length rows1 = List.length rows) by (rewrite (mapM_len Hrows1), combine_length, (mapM_len Hstms); lia).
    assert (Hlout : List.length out = List.length rows) by (rewrite (mapM_len H), combine_length; lia).
    assert (Hflip : (if d_fixed_side cfg then flip_side (stacked rows) else Ok (stacked rows)) = Ok (stacked rows1)).
    { destruct (d_fixed_side cfg) eqn:Hf; [eapply flip_side_rows; eauto|]. f_equal. f_equal.
      symmetry. apply list_ext; [exact Hlen1|]. intros i r Hi.
      destruct (@nth_error_in_range _ rows i) as [r0 Hr0]; [rewrite <- Hlen1; apply nth_error_Some; congruence|].
      destruct (@nth_error_in_range _ stms i) as [s0 Hs0]; [rewrite (mapM_len Hstms); apply nth_error_Some; congruence|].
      assert (Hc : nth_error (combine stms rows) i = Some (s0, r0)) by (rewrite combine_nth_error, Hs0, Hr0; reflexivity).
      destruct (mapM_nth Hrows1 Hc) as (r1 & E1 & E2). unfold side_row in E1. rewrite Hf in E1. cbn in E1. injection E1 as <-. congruence. }
    rewrite Hflip. cbn [bind].
    assert (Hrow1 : forall i r1, nth_error rows1 i = Some r1 -> exists k s r r2,
        nth_error keys i = Some k /\ nth_error rows i = Some r /\ nth_error out i = Some r2 /\
        row_symmetry_index header hash64 junk_index cfg (r_size r1) k = Ok s /\ sym_row cfg s r1 = Ok r2 /\
        same_layout r r1 /\ sized r1 /\ valid_row r = true).
    { intros i r1 Hi. destruct (@nth_error_in_range _ rows i) as [r Hr]; [rewrite <- Hlen1; apply nth_error_Some; congruence|].
      destruct (Hrow i r Hr) as (k & s & stm & r1' & r2 & H1 & H2 & H3 & H4 & H5 & H6 & H7).
      destruct (mapM_nth Hstms Hr) as (x & Hx & Hx2). rewrite H4 in Hx. injection Hx as <-.
      assert (Hc : nth_error (combine stms rows) i = Some (stm, r)) by (rewrite combine_nth_error, Hx2, Hr; reflexivity).
      destruct (mapM_nth Hrows1 Hc) as (y & Hy & Hy2). rewrite H6 in Hy. injection Hy as <-. rewrite Hi in Hy2. injection Hy2 as <-.
      destruct (side_row_layout H6) as (L1 & L2 & L3 & L4 & L5). exists k, s, r, r2. rewrite L2.
      split; [exact H1|]. split; [exact Hr|]. split; [exact H2|]. split; [exact H3|]. split; [exact H7|]. split; [exact L1|].
      split; [|exact H5]. apply L3. rewrite Forall_forall in Hs. apply Hs. eapply nth_error_In; eauto. }
    destruct (d_symmetry cfg) as [kind|] eqn:Hsym.
    2:{ (* no symmetry *) f_equal. f_equal. apply list_ext; [lia|]. intros i r1 Hi.
        destruct (Hrow1 i r1 Hi) as (k & s & r & r2 & _ & _ & H2 & _ & H7 & _). unfold sym_row in H7. rewrite Hsym in H7. congruence. }
    destruct rows1 as [|f1 rest1] eqn:Erows1; [destruct rows; [congruence|cbn in Hlen1; lia]|]. rewrite <- Erows1 in *.
    assert (Hf1 : nth_error rows1 0 = Some f1) by (rewrite Erows1; reflexivity).
    assert (Hg : py_get (c_board (stacked rows1)) 0 = Ok (r_board f1)) by (rewrite Erows1; reflexivity).
    rewrite Hg. cbn [bind]. clear Hg.
    destruct (Hrow1 0%nat f1 Hf1) as (k0 & s0 & r0 & r20 & _ & Hr0 & _ & Hi0 & _ & L0 & S0 & V0).
    destruct (proj1 (row_symmetry_index_Ok _ _ _ Hsym) Hi0) as (choices & Hch & Hbd & _).
    rewrite S0 in Hch. cbv zeta. rewrite Hch. cbn [bind].
    (* all rows1 have one shape *)
    assert (Hdims : forall i r1, nth_error rows1 i = Some r1 ->
              stack_shape (r_board r1) = stack_shape (r_board f1) /\ policy_shape (r_policy r1) = policy_shape (r_policy f1) /\
              r_size r1 = (k_h (r_board f1), k_w (r_board f1)) /\
              policy_fits (r_policy r1) (k_h (r_board f1)) (k_w (r_board f1)) = true).
    { intros i r1 Hi. destruct (Hrow1 i r1 Hi) as (k & s & r & r2 & _ & Hr & _ & _ & _ & L & S1 & V1).
      assert (Hab : In r rows) by (eapply nth_error_In; eauto). assert (Hab0 : In r0 rows) by (eapply nth_error_In; eauto).
      destruct (Hu r r0 Hab Hab0) as [U1 U2]. destruct L as (La & _ & _ & Lb). destruct L0 as (L0a & _ & _ & L0b).
      assert (E : stack_shape (r_board r1) = stack_shape (r_board f1)) by congruence.
      assert (E2 : policy_shape (r_policy r1) = policy_shape (r_policy f1)) by congruence.
      split; [exact E|]. split; [exact E2|]. apply stack_shape_dims in E as [Eh Ew].
      split; [rewrite S1, Eh, Ew; reflexivity|].
      rewrite valid_row_fits in V1 by (rewrite Forall_forall in Hs; auto).
      pose proof (stack_shape_dims La) as [Lh Lw]. rewrite <- Eh, <- Ew, <- Lh, <- Lw. rewrite (@fits_shape (r_policy r1) (r_policy r)); [exact V1|congruence]. }
    assert (Hidx : forall i r1, nth_error rows1 i = Some r1 -> exists k s sym r2,
       nth_error keys i = Some k /\ nth_error out i = Some r2 /\
       row_draw header hash64 (zlen choices) (d_seed cfg) symmetry_domain (d_epoch cfg) 0 k = Ok s /\ 0 <= s /\
       nth_error choices (Z.to_nat s) = Some sym /\ turn_row sym r1 = Ok r2).
    { intros i r1 Hi. destruct (Hrow1 i r1 Hi) as (k & s & r & r2 & Hk & _ & Ho & Hix & Hsy & _).
      destruct (Hdims i r1 Hi) as (_ & _ & Hsz & _). rewrite Hsz in Hix.
      destruct (proj1 (row_symmetry_index_Ok _ _ _ Hsym) Hix) as (ch2 & Hch2 & Hb2 & Hd2). rewrite Hch in Hch2. injection Hch2 as <-.
      pose proof (row_draw_range Hb2 Hd2) as Hrng. unfold sym_row in Hsy. rewrite Hsym, Hsz, Hch in Hsy. cbn [bind] in Hsy.
      rewrite py_index_nat in Hsy by lia. inv_bind Hsy. unfold py_get in Hm. destruct (nth_error choices (Z.to_nat s)) as [sym|] eqn:En; [|discriminate].
      injection Hm as <-. exists k, s, sym, r2. split; [exact Hk|]. split; [exact Ho|]. split; [exact Hd2|]. split; [lia|]. auto. }
    destruct (@mapM_total _ _ (row_draw header hash64 (zlen choices) (d_seed cfg) symmetry_domain (d_epoch cfg) 0) keys) as [indices Hind].
    { intros k Hin. apply In_nth_error in Hin as [i Hi]. destruct (@nth_error_in_range _ rows1 i) as [r1 Hr1].
      { rewrite Hlen1, <- Hlen. apply nth_error_Some. congruence. }
      destruct (Hidx i r1 Hr1) as (k2 & s & sym & r2 & Hk2 & _ & Hd & _). rewrite Hi in Hk2. injection Hk2 as <-. eauto. }
    rewrite (Hdraw _ _ Hbd Hind). cbn [bind].
    rewrite source_planes_eq.
    2:{ cbn [stacked c_policy fst snd]. intros v Hin. apply in_map_iff in Hin as (r1 & Ep & Hin). apply In_nth_error in Hin as [i Hi].
        destruct (Hdims i r1 Hi) as (_ & _ & _ & Hf). rewrite Ep in Hf. exact Hf. }
    cbn [bind]. set (size := (k_h (r_board f1), k_w (r_board f1))) in *.
    set (planes := map (plane_of size) (c_policy (stacked rows1))).
    (* targets *)
    assert (Hlind : List.length indices = List.length rows1) by (rewrite (mapM_len Hind); lia).
    set (syms := map (fun v => nth (Z.to_nat v) choices IDENTITY) indices).
    set (tgtp := map (fun '(s, q) => apply_to_array s q) (combine syms planes)).
    assert (Hpl : forall i r1, nth_error rows1 i = Some r1 -> nth_error planes i = Some (plane_of size (r_policy r1))).
    { intros i r1 Hi. unfold planes. cbn [stacked c_policy]. rewrite map_map, nth_error_map, Hi. reflexivity. }
    assert (Hsy : forall i r1, nth_error rows1 i = Some r1 -> exists s sym r2,
       nth_error indices i = Some s /\ 0 <= s /\ nth_error choices (Z.to_nat s) = Some sym /\ nth_error syms i = Some sym /\
       nth_error out i = Some r2 /\ turn_row sym r1 = Ok r2).
    { intros i r1 Hi. destruct (Hidx i r1 Hi) as (k & s & sym & r2 & Hk & Ho & Hd & H0 & Hn & Ht).
      destruct (mapM_nth Hind Hk) as (s2 & Hs2 & Hi2). rewrite Hd in Hs2. injection Hs2 as <-.
      exists s, sym, r2. split; [exact Hi2|]. split; [exact H0|]. split; [exact Hn|]. split; [|auto].
      unfold syms. rewrite nth_error_map, Hi2. cbn. f_equal. apply nth_error_nth. exact Hn. }
    assert (Hlp : List.length planes = List.length rows1) by (unfold planes; cbn [stacked c_policy]; rewrite !map_length; reflexivity).
    assert (Hap : apply_choices 0 choices indices (c_board (stacked rows1)) planes
        (np_empty junk_board (List.length (c_board (stacked rows1)))) (np_empty junk_plane (List.length planes)) =
        Ok (map (@r_board B V P) out, tgtp)).
    { change 0 with (zlen (@nil symmetry)).
      apply (@apply_choices_rows choices indices (c_board (stacked rows1)) (map (@r_board B V P) out) planes tgtp).
      - intros p v Hv. destruct (@nth_error_in_range _ rows1 p) as [r1 Hr1]; [rewrite <- Hlind; apply nth_error_Some; congruence|].
        destruct (Hsy p r1 Hr1) as (s & sym & r2 & Hs1 & H0 & Hn & Hs2 & Ho & Ht). rewrite Hv in Hs1. injection Hs1 as <-.
        split; [exact H0|]. exists sym, (r_board r1), (plane_of size (r_policy r1)).
        split; [exact Hn|]. split; [cbn [stacked c_board]; rewrite nth_error_map, Hr1; reflexivity|]. split; [exact (Hpl p r1 Hr1)|].
        split.
        + rewrite nth_error_map, Ho. cbn. f_equal. unfold turn_row in Ht. inv_bind Ht. injection Ht as <-. reflexivity.
        + unfold tgtp. rewrite nth_error_map, combine_nth_error, Hs2, (Hpl p r1 Hr1). reflexivity.
      - intros sym b c Hin Hb Hc. cbn [stacked c_board] in Hb, Hc. apply in_map_iff in Hb as (rb & <- & Hb). apply in_map_iff in Hc as (rc & <- & Hc).
        apply In_nth_error in Hb as [ib Hb]. apply In_nth_error in Hc as [ic Hc].
        destruct (Hdims ib rb Hb) as (E1 & _). destruct (Hdims ic rc Hc) as (E2 & _).
        rewrite stack_shape_apply; [congruence|]. pose proof (offered_square Hch Hin) as Hsq.
        apply stack_shape_dims in E1 as [-> ->]. exact Hsq.
      - intros sym q c Hin Hq Hc. unfold planes in Hq, Hc. cbn [stacked c_policy] in Hq, Hc. rewrite map_map in Hq, Hc.
        apply in_map_iff in Hq as (rq & <- & Hq). apply in_map_iff in Hc as (rc & <- & Hc).
        apply In_nth_error in Hq as [iq Hq]. apply In_nth_error in Hc as [ic Hc].
        destruct (Hdims iq rq Hq) as (_ & _ & _ & E1). destruct (Hdims ic rc Hc) as (_ & _ & _ & E2).
        pose proof (offered_square Hch Hin) as Hsq.
        assert (Dq : forall p, policy_fits p (k_h (r_board f1)) (k_w (r_board f1)) = true -> p_h (plane_of size p) = k_h (r_board f1) /\ p_w (plane_of size p) = k_w (r_board f1)).
        { intros [x|x] E; cbn in *; lia. }
        destruct (Dq _ E1) as [D1 D2]. destruct (Dq _ E2) as [D3 D4].
        destruct (@plane_shape_apply _ sym (plane_of size (r_policy rq))) as [-> ->]; [|split; congruence].
        rewrite D1, D2. exact Hsq.
      - rewrite map_length. lia.
      - unfold tgtp. rewrite map_length, combine_length. unfold syms. rewrite map_length. lia.
      - reflexivity.
      - apply (agree_weaken (D := fun _ => False)); [apply agree_empty; cbn [stacked c_board]; rewrite !map_length; lia|].
        intros p (v & Hv & Hlt). cbn in Hlt. destruct (@nth_error_in_range _ rows1 p) as [r1 Hr1]; [rewrite <- Hlind; apply nth_error_Some; congruence|].
        destruct (Hsy p r1 Hr1) as (s & sym & r2 & Hs1 & H0 & _). rewrite Hv in Hs1. injection Hs1 as <-. unfold zlen in Hlt. cbn in Hlt. lia.
      - apply (agree_weaken (D := fun _ => False)); [apply agree_empty; unfold tgtp; rewrite map_length, combine_length; unfold syms; rewrite map_length; lia|].
        intros p (v & Hv & Hlt). cbn in Hlt. destruct (@nth_error_in_range _ rows1 p) as [r1 Hr1]; [rewrite <- Hlind; apply nth_error_Some; congruence|].
        destruct (Hsy p r1 Hr1) as (s & sym & r2 & Hs1 & H0 & _). rewrite Hv in Hs1. injection Hs1 as <-. unfold zlen in Hlt. cbn in Hlt. lia. }
    rewrite Hap. cbn [bind]. unfold stacked. f_equal.
    assert (Hcol : forall A (f : row -> A), (forall sym r r2, turn_row sym r = Ok r2 -> f r2 = f r) -> map f rows1 = map f out).
    { intros A f Hf. apply list_ext; [rewrite !map_length; lia|]. intros i a Hi. rewrite nth_error_map in *.
      destruct (nth_error rows1 i) as [r1|] eqn:Er; [|discriminate]. injection Hi as <-.
      destruct (Hsy i r1 Er) as (s & sym & r2 & _ & _ & _ & _ & Ho & Ht). rewrite Ho. cbn. f_equal. eauto. }
    assert (E1 : map (@r_size B V P) rows1 = map (@r_size B V P) out).
    { apply Hcol. unfold turn_row. intros sym r r2 X. inv_bind X. now injection X as <-. }
    assert (E2 : map (@r_stm B V P) rows1 = map (@r_stm B V P) out).
    { apply Hcol. unfold turn_row. intros sym r r2 X. inv_bind X. now injection X as <-. }
    assert (E3 : map (@r_value B V P) rows1 = map (@r_value B V P) out).
    { apply Hcol. unfold turn_row. intros sym r r2 X. inv_bind X. now injection X as <-. }
    assert (E4 : target_policy (map (@r_policy B V P) rows1) tgtp = map (@r_policy B V P) out).
    { unfold target_policy. apply list_ext.
      { rewrite map_length, combine_length. unfold tgtp. rewrite !map_length, combine_length. unfold syms. rewrite map_length. lia. }
      intros i a Hi. rewrite nth_error_map, combine_nth_error in Hi. rewrite nth_error_map in *.
      destruct (nth_error rows1 i) as [r1|] eqn:Er; [|discriminate]. cbn [option_map] in Hi.
      destruct (Hsy i r1 Er) as (s & sym & r2 & _ & _ & _ & Hs2 & Ho & Ht).
      unfold tgtp in Hi. rewrite nth_error_map, combine_nth_error, Hs2, (Hpl i r1 Er) in Hi. cbn [option_map] in Hi.
      rewrite Ho. cbn. rewrite <- Hi. f_equal. unfold turn_row in Ht. inv_bind Ht. injection Ht as <-. cbn [r_policy].
      destruct (Hdims i r1 Er) as (_ & _ & Hsz & _). rewrite Hsz in Hm. unfold transform_policy in Hm. destruct (r_policy r1) as [q|w].
      - now injection Hm as <-.
      - apply guard_Ok in Hm as [_ Hm]. injection Hm as <-. reflexivity. }
    cbn [c_size c_stm c_value c_policy]. rewrite E1, E2, E3, E4. reflexivity.
  Qed.

  (** backward: the batch has a result only when every row has one *)
  Lemma vectorized_backward (keys : list sample_key) (rows : list row) (draw : Z -> res (list Z)) d :
    rows <> [] -> Forall (@sized B V P) rows -> uniform_boards rows -> List.length keys = List.length rows ->
    (forall n l, draw n = Ok l -> bound_ok n = true /\
       mapM (row_draw header hash64 n (d_seed cfg) symmetry_domain (d_epoch cfg) 0) keys = Ok l) ->
    post_process_vectorized junk_board junk_plane cfg draw (stacked rows) = Ok d ->
    exists out, mapM (fun '(k, r) => lax k r) (combine keys rows) = Ok out.
  Proof.
    intros Hne Hs Hu Hlen Hdraw H. apply mapM_total. intros [k r] Hin.
    apply In_nth_error in Hin as [i Hi]. rewrite combine_nth_error in Hi.
    destruct (nth_error keys i) as [k'|] eqn:Hk; [|discriminate]. destruct (nth_error rows i) as [r'|] eqn:Hr; [|discriminate].
    injection Hi as -> ->. unfold lax_row, transforms. unfold post_process_vectorized in H.
    destruct (negb (d_fixed_side cfg) && negb (has_symmetry cfg)) eqn:Ht.
    { destruct (d_fixed_side cfg), (has_symmetry cfg); cbn in *; try discriminate. eauto. }
    assert (Ht2 : d_fixed_side cfg || has_symmetry cfg = true) by (destruct (d_fixed_side cfg), (has_symmetry cfg); cbn in *; congruence).
    rewrite Ht2. clear Ht Ht2.
    apply guard_Ok in H as [Hval H]. apply validate_rows in Hval; [|assumption..].
    assert (Hinr : In r rows) by (eapply nth_error_In; eauto).
    assert (Hv : valid_row r = true) by (rewrite Forall_forall in Hval; auto).
    assert (Hsr : sized r) by (rewrite Forall_forall in Hs; auto).
    inv_bind H. rename v into d1.
    (* the side step *)
    assert (Hside : exists stm r1, stm_of cfg r = Ok stm /\ side_row cfg stm r = Ok r1).
    { destruct (d_fixed_side cfg) eqn:Hf.
      - destruct (flip_side_backward Hf Hm) as (stms & rows1 & E1 & E2).
        destruct (mapM_nth E1 Hr) as (stm & Es & Hn).
        assert (Hc : nth_error (combine stms rows) i = Some (stm, r)) by (rewrite combine_nth_error, Hn, Hr; reflexivity).
        destruct (mapM_nth E2 Hc) as (r1 & Er & _). eauto.
      - exists 0, r. unfold stm_of, side_row. rewrite Hf. auto. }
    destruct Hside as (stm & r1 & Hstm & Hr1). destruct (side_row_layout Hr1) as (L1 & L2 & L3 & L4 & L5).
    destruct (d_symmetry cfg) as [kind|] eqn:Hsym.
    2:{ unfold row_symmetry_index. rewrite Hsym. cbn [bind]. rewrite post_process_row_eq, Hstm. cbn [bind]. rewrite Hv, Hr1. cbn [bind].
        unfold sym_row. rewrite Hsym. eauto. }
    (* the shapes of the first board after the side step *)
    inv_bind H. rename v into first. rename Hm0 into Hfst. cbv zeta in H. inv_bind H. rename v into choices. rename Hm0 into Hch.
    inv_bind H. rename v into indices. rename Hm0 into Hind. clear H.
    apply Hdraw in Hind as [Hbd Hind].
    assert (Hdim : (k_h first, k_w first) = r_size r).
    { rewrite Hsr. assert (exists r0, In r0 rows /\ k_h first = k_h (r_board r0) /\ k_w first = k_w (r_board r0)) as (r0 & Hin0 & -> & ->).
      { destruct (d_fixed_side cfg) eqn:Hf.
        - destruct (flip_side_backward Hf Hm) as (stms & rows1 & E1 & E2). assert (Ef : flip_side (stacked rows) = Ok (stacked rows1)) by (eapply flip_side_rows; eauto). rewrite Ef in Hm. injection Hm as <-.
          unfold py_get in Hfst. cbn [stacked c_board] in Hfst. rewrite nth_error_map in Hfst. destruct (nth_error rows1 0) as [q1|] eqn:Eq; [|discriminate].
          injection Hfst as <-. destruct (@nth_error_in_range _ (combine stms rows) 0) as [[s0 q0] Hq0].
          { rewrite <- (mapM_len E2). apply nth_error_Some. congruence. }
          destruct (mapM_nth E2 Hq0) as (q2 & Eq2 & Hn). rewrite Eq in Hn. injection Hn as <-.
          destruct (side_row_layout Eq2) as ((M1 & _) & _). exists q0. split.
          + rewrite combine_nth_error in Hq0. destruct (nth_error stms 0); [|discriminate]. destruct (nth_error rows 0) eqn:E; [|discriminate].
            injection Hq0 as _ <-. eapply nth_error_In; eauto.
          + apply stack_shape_dims in M1 as [-> ->]. auto.
        - injection Hm as <-. unfold py_get in Hfst. cbn [stacked c_board] in Hfst. rewrite nth_error_map in Hfst.
          destruct (nth_error rows 0) as [q0|] eqn:Eq; [|discriminate]. injection Hfst as <-. exists q0. split; [eapply nth_error_In; eauto|auto]. }
      destruct (Hu r0 r Hin0 Hinr) as [E _]. apply stack_shape_dims in E as [-> ->]. reflexivity. }
    rewrite Hdim in Hch. destruct (mapM_nth Hind Hk) as (s & Hd & _).
    assert (Hidx : row_symmetry_index header hash64 junk_index cfg (r_size r) k = Ok s) by (apply (row_symmetry_index_Ok _ _ _ Hsym); eauto).
    rewrite Hidx. cbn [bind]. rewrite post_process_row_eq, Hstm. cbn [bind]. rewrite Hv, Hr1. cbn [bind].
    unfold sym_row. rewrite Hsym, L2, Hch. cbn [bind]. pose proof (row_draw_range Hbd Hd) as Hrng. unfold zlen in Hrng.
    rewrite py_index_nat by lia. unfold py_get. destruct (nth_error_in_range (l := choices) (i := Z.to_nat s)) as [sym Esym]; [lia|]. rewrite Esym. cbn [bind].
    unfold turn_row. rewrite L2, L5. rewrite valid_row_fits in Hv by exact Hsr.
    unfold transform_policy. rewrite Hsr. destruct (r_policy r) as [q|w]; cbn [bind]; [eauto|].
    cbn in Hv. rewrite Hv. cbn [bind]. eauto.
  Qed.
End Turn.
