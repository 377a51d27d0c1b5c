(** decode_packed_batch and decode_batches. *)
From Verif Require Import Base BaseFacts Rng RngFacts Symmetry Checkpoint Decoder DecoderFacts DecoderRng DecoderSpec DecoderVec DecoderTurn DecoderBatch DecoderGroups.
Set Implicit Arguments.
Unset Strict Implicit.

Section Packed.
  Variables (B V P : Type) (pz : P) (vz : V) (bz : B).
  Variable header : bytes.
  Variable hash64 : bytes -> Z.
  Variable junk_index : nat -> Z.
  Variable junk_board : nat -> stack B.
  Variable junk_stm : nat -> list Z.
  Variable junk_value : nat -> list V.
  Variable junk_policy : nat -> policy P.
  Variable junk_size : nat -> Z * Z.
  Variable junk_plane : nat -> plane P.
  Variable load : Z -> res (npz B V P).
  Variable cfg : config.
  Notation npz := (npz B V P).
  Notation row := (row B V P).
  Notation cols := (cols B V P).
  Notation dlax := (decode_lax pz vz bz header hash64 junk_index load cfg).
  Notation fref := (fetch_ref pz vz bz load cfg).
  Notation pass := (d_has_pass_move cfg).
  Notation ploop := (packed_loop pz vz junk_board junk_stm junk_value junk_policy junk_size load cfg bz).
  Notation gsloop := (groups_loop junk_board junk_stm junk_value junk_policy junk_size).
  Notation dpacked := (decode_packed_batch pz vz header hash64 junk_index junk_board junk_stm junk_value junk_policy junk_size junk_plane load cfg bz).
  Notation dbatch := (decode_batch pz vz header hash64 junk_index junk_board junk_stm junk_value junk_policy junk_size junk_plane load cfg bz).
  Notation dbatches := (decode_batches pz vz header hash64 junk_index junk_board junk_stm junk_value junk_policy junk_size junk_plane load cfg bz).

  Definition packed_group (q : packed) (index : nat) : res (list nat * cols) :=
    let positions := flatnonzero (map (fun f => Nat.eqb f index) (q_files q)) in
    rows <- take (q_rows q) positions ;;
    path <- py_get (q_paths q) index ;;
    f <- load path ;;
    board <- selected_rows (Some (f_bf f)) (zero_stack bz (q_size q)) rows ;;
    stm <- selected_rows (f_gf f) [0] rows ;;
    value <- selected_rows (Some (f_vt f)) [vz; vz; vz] rows ;;
    policy <- selected_rows (f_pt f) (zero_policy pz pass (q_size q)) rows ;;
    Ok (positions, {| c_size := map (fun _ => q_size q) positions; c_board := board; c_stm := stm;
                      c_value := value; c_policy := policy |}).

  Lemma packed_loop_groups q used acc out :
    ploop q used acc = Ok out <-> exists gs, mapM (packed_group q) used = Ok gs /\ gsloop (List.length (q_rows q)) gs acc = Ok out.
  Proof.
    revert acc. induction used as [|u used IH]; intros acc; cbn [packed_loop mapM].
    - split; [intros H; exists []; auto|]. intros (gs & E & H). now injection E as <-.
    - assert (Hg : forall (k : list nat * cols -> res (option (cols * cols))) ,
        (x <- packed_group q u ;; k x) = Ok out <-> exists pg, packed_group q u = Ok pg /\ k pg = Ok out).
      { intros k. destruct (packed_group q u); cbn [bind]; split; [eauto|intros (pg & E & H); congruence|discriminate|intros (pg & E & H); discriminate]. }
      assert (Hl : ploop q (u :: used) acc = (pg <- packed_group q u ;; acc <- add_group junk_board junk_stm junk_value junk_policy junk_size (List.length (q_rows q)) acc (fst pg) (snd pg) ;; ploop q used acc)).
      { cbn [packed_loop]. unfold packed_group. destruct (take _ _) as [rows|]; cbn [bind]; [|reflexivity].
        destruct (py_get (q_paths q) u) as [path|]; cbn [bind]; [|reflexivity]. destruct (load path) as [f|]; cbn [bind]; [|reflexivity].
        destruct (selected_rows (Some (f_bf f)) _ _) as [x1|]; cbn [bind]; [|reflexivity].
        destruct (selected_rows (f_gf f) _ _) as [x2|]; cbn [bind]; [|reflexivity].
        destruct (selected_rows (Some (f_vt f)) _ _) as [x3|]; cbn [bind]; [|reflexivity].
        destruct (selected_rows (f_pt f) _ _) as [x4|]; cbn [bind]; reflexivity. }
      cbn [packed_loop] in Hl. rewrite Hl. clear Hl. rewrite Hg. split.
      + intros ([ps g] & E & H). rewrite E. cbn [bind fst snd] in *. inv_bind H. apply IH in H as (gs & E2 & H). rewrite E2. cbn [bind].
        eexists. split; [reflexivity|]. cbn [groups_loop]. rewrite Hm. exact H.
      + intros (gs & E & H). inv_bind E. inv_bind E. injection E as <-. destruct v as [ps g]. exists (ps, g). split; [exact Hm|]. cbn [fst snd groups_loop] in *.
        inv_bind H. rewrite Hm1. cbn [bind]. apply IH. eauto.
  Qed.

  Lemma packed_refs_nth q refs i r : packed_refs q = Ok refs -> nth_error refs i = Some r ->
    exists f n path k, nth_error (q_files q) i = Some f /\ nth_error (q_rows q) i = Some n /\ py_get (q_paths q) f = Ok path /\
      packed_key (q_digests q) f n = Ok k /\ r = {| rf_path := path; rf_address := [n]; rf_size := q_size q; rf_key := k |}.
  Proof.
    unfold packed_refs. intros H Hi. destruct (@nth_error_in_range _ (combine (q_files q) (q_rows q)) i) as [[f n] Hc].
    { rewrite <- (mapM_len H). apply nth_error_Some. congruence. }
    destruct (mapM_nth H Hc) as (r2 & Hr & Hn). rewrite Hi in Hn. injection Hn as <-. unfold packed_ref in Hr. inv_bind Hr. inv_bind Hr. injection Hr as <-.
    rewrite combine_nth_error in Hc. destruct (nth_error (q_files q) i); [|discriminate]. destruct (nth_error (q_rows q) i); [|discriminate].
    injection Hc as -> ->. exists f, n, v, v0. auto 8.
  Qed.

  Lemma selected_cells A (column : option (list A)) (default : Z * Z -> A) size rows refs :
    List.length rows = List.length refs ->
    (forall i r n, nth_error refs i = Some r -> nth_error rows i = Some n -> rf_address r = [n] /\ rf_size r = size) ->
    selected_rows column (default size) rows = mapM (cell column default) refs.
  Proof.
    revert refs. induction rows as [|n rows IH]; intros [|r refs] HL H; try discriminate HL; [now destruct column|].
    specialize (IH refs). destruct (H 0%nat r n eq_refl eq_refl) as [Ha Hz].
    assert (IH2 : selected_rows column (default size) rows = mapM (cell column default) refs).
    { apply IH; [now injection HL|]. intros i r2 n2 H1 H2. exact (H (S i) r2 n2 H1 H2). }
    unfold selected_rows in *. destruct column as [l|]; cbn [mapM map].
    - rewrite IH2. unfold cell at 2. rewrite Ha. reflexivity.
    - rewrite <- IH2. cbn [bind cell]. now rewrite Hz.
  Qed.

  Lemma files_in q i index : In i (flatnonzero (map (fun f => Nat.eqb f index) (q_files q))) <-> nth_error (q_files q) i = Some index.
  Proof.
    rewrite in_flat_map. split; [intros (f & H & E); apply Nat.eqb_eq in E; congruence|]. intros H. exists index. split; [exact H|apply Nat.eqb_refl].
  Qed.

  Section Request.
    Variable q : packed.
    Variable refs : list ref.
    Hypothesis Hlen : List.length (q_files q) = List.length (q_rows q).
    Hypothesis Hrefs : packed_refs q = Ok refs.
    Hypothesis Hplaced : Forall (placed load) refs.
    Hypothesis Hne : q_rows q <> [].

    Lemma refs_len : List.length refs = List.length (q_rows q).
    Proof. rewrite (mapM_len Hrefs), combine_length. lia. Qed.
    Lemma refs_ne : refs <> [].
    Proof. pose proof refs_len as H. intros E. rewrite E in H. destruct (q_rows q); [congruence|discriminate]. Qed.

    Lemma fetch_total : exists pres, mapM fref refs = Ok pres /\ Forall (@sized B V P) pres /\ (forall a, In a pres -> r_size a = q_size q) /\ List.length pres = List.length refs.
    Proof.
      rewrite Forall_forall in Hplaced.
      assert (Hf : forall r, In r refs -> exists pre, fref r = Ok pre /\ sized pre /\ r_size pre = q_size q).
      { intros r Hr. destruct (placed_load (Hplaced _ Hr)) as (f & Hl & Hp).
        assert (X : exists pre, fetch pz vz bz cfg f r = Ok pre /\ sized pre /\ r_size pre = rf_size r).
        { destruct (fetch_Ok pz vz bz header hash64 load cfg Hp) as (pre & E & S1 & S2 & _). eauto. }
        destruct X as (pre & E & S1 & S2). exists pre. unfold fetch_ref. rewrite Hl. split; [exact E|]. split; [exact S1|]. rewrite S2.
        apply In_nth_error in Hr as [i Hi]. destruct (packed_refs_nth Hrefs Hi) as (f2 & n & path & k & _ & _ & _ & _ & ->). reflexivity. }
      destruct (@mapM_total _ _ fref refs) as [pres E]; [intros r Hr; destruct (Hf r Hr) as (pre & H & _); eauto|].
      exists pres. split; [exact E|]. split; [|split; [|exact (mapM_len E)]].
      - rewrite Forall_forall. intros x Hx. destruct (mapM_ok_in E Hx) as (r & Hr & Hx2). destruct (Hf r Hr) as (pre & H & S1 & _). congruence.
      - intros x Hx. destruct (mapM_ok_in E Hx) as (r & Hr & Hx2). destruct (Hf r Hr) as (pre & H & _ & S1). congruence.
    Qed.

    Lemma packed_group_rows pres index : mapM fref refs = Ok pres -> In index (q_files q) ->
      exists rs, take pres (flatnonzero (map (fun f => Nat.eqb f index) (q_files q))) = Ok rs /\ rs <> [] /\ stackable rs /\
        packed_group q index = Ok (flatnonzero (map (fun f => Nat.eqb f index) (q_files q)), stacked rs).
    Proof.
      intros Hpres Hin. set (positions := flatnonzero (map (fun f => Nat.eqb f index) (q_files q))).
      assert (Hpos : forall p, In p positions <-> nth_error (q_files q) p = Some index) by (intros; apply files_in).
      assert (Hrange : forall p, In p positions -> (p < List.length refs)%nat).
      { intros p Hp. apply Hpos in Hp. rewrite refs_len, <- Hlen. apply nth_error_Some. congruence. }
      destruct (@take_total _ refs positions) as [rfs Hrfs]; [exact Hrange|].
      destruct (@take_total _ (q_rows q) positions) as [ns Hns]; [intros p Hp; rewrite <- refs_len; auto|].
      destruct (@take_total _ pres positions) as [rs Hrs]; [intros p Hp; rewrite (mapM_len Hpres); auto|].
      assert (Hpn : positions <> []).
      { apply In_nth_error in Hin as [p Hp]. apply Hpos in Hp. intros E. rewrite E in Hp. exact Hp. }
      assert (HT : forall A (l xs : list A) i x, take l positions = Ok xs -> nth_error xs i = Some x -> exists p, nth_error positions i = Some p /\ nth_error l p = Some x).
      { intros A l xs i x H Hi. destruct (@nth_error_in_range _ positions i) as [p Hp]; [rewrite <- (mapM_len H); apply nth_error_Some; congruence|].
        destruct (mapM_nth H Hp) as (x2 & Hx & Hn). rewrite Hi in Hn. injection Hn as <-. exists p. split; [exact Hp|].
        unfold py_get in Hx. destruct (nth_error l p); congruence. }
      assert (Hpath : exists path f, py_get (q_paths q) index = Ok path /\ load path = Ok f /\ Forall (placed_in f) rfs /\ forall r, In r rfs -> rf_path r = path).
      { destruct positions as [|p0 ps] eqn:Ep; [congruence|]. rewrite <- Ep in *.
        assert (H0 : In p0 positions) by (rewrite Ep; now left). destruct (nth_error_in_range (Hrange p0 H0)) as [r0 Hr0].
        destruct (packed_refs_nth Hrefs Hr0) as (f0 & n0 & path & k0 & F0 & _ & P0 & _ & E0). apply Hpos in H0. rewrite H0 in F0. injection F0 as <-.
        rewrite Forall_forall in Hplaced. destruct (placed_load (Hplaced _ (nth_error_In _ _ Hr0))) as (f & Hl & _).
        assert (Hp0 : rf_path r0 = path) by (rewrite E0; reflexivity). rewrite Hp0 in Hl.
        assert (Hall : forall r, In r rfs -> rf_path r = path /\ In r refs).
        { intros r Hr. apply In_nth_error in Hr as [i Hi]. destruct (HT _ _ _ _ _ Hrfs Hi) as (p & Hp & Hrp).
          destruct (packed_refs_nth Hrefs Hrp) as (f1 & n1 & path1 & k1 & F1 & _ & P1 & _ & E1).
          assert (Hip : In p positions) by (eapply nth_error_In; eauto). apply Hpos in Hip. rewrite Hip in F1. injection F1 as <-.
          split; [rewrite E1; cbn; congruence|eapply nth_error_In; eauto]. }
        exists path, f. split; [exact P0|]. split; [exact Hl|]. split; [|intros r Hr; now apply Hall].
        rewrite Forall_forall. intros r Hr. destruct (Hall r Hr) as [Ep2 Hir]. destruct (placed_load (Hplaced _ Hir)) as (f2 & Hl2 & Hp2). rewrite Ep2, Hl in Hl2. now injection Hl2 as <-. }
      destruct Hpath as (path & f & Hpath & Hl & HFf & Hpp).
      assert (Hfetch : mapM (fetch pz vz bz cfg f) rfs = Ok rs).
      { apply mapM_intro; [rewrite (mapM_len Hrs), (mapM_len Hrfs); reflexivity|]. intros i r x Hi Hx.
        destruct (HT _ _ _ _ _ Hrfs Hi) as (p & Hp & Hrp). destruct (HT _ _ _ _ _ Hrs Hx) as (p2 & Hp2 & Hxp). rewrite Hp in Hp2. injection Hp2 as <-.
        destruct (mapM_nth Hpres Hrp) as (x2 & Hx2 & Hn). rewrite Hxp in Hn. injection Hn as <-. unfold fetch_ref in Hx2.
        rewrite (Hpp r (nth_error_In _ _ Hi)), Hl in Hx2. exact Hx2. }
      exists rs. split; [exact Hrs|]. split; [intros ->; apply mapM_len in Hrs; destruct positions; [congruence|discriminate]|]. split.
      { destruct (fetch_all pz vz bz header hash64 load cfg HFf) as (pres2 & E & _ & Hst & _). rewrite Hfetch in E. injection E as <-. exact Hst. }
      destruct (fetch_columns Hfetch) as (G1 & G2 & G3 & G4 & G5).
      assert (Hadr : forall i r n, nth_error rfs i = Some r -> nth_error ns i = Some n -> rf_address r = [n] /\ rf_size r = q_size q).
      { intros i r n Hi Hn. destruct (HT _ _ _ _ _ Hrfs Hi) as (p & Hp & Hrp). destruct (HT _ _ _ _ _ Hns Hn) as (p2 & Hp2 & Hnp). rewrite Hp in Hp2. injection Hp2 as <-.
        destruct (packed_refs_nth Hrefs Hrp) as (f1 & n1 & path1 & k1 & _ & N1 & _ & _ & ->). cbn. split; [congruence|reflexivity]. }
      assert (HL2 : List.length ns = List.length rfs) by (rewrite (mapM_len Hns), (mapM_len Hrfs); reflexivity).
      unfold packed_group. fold positions. rewrite Hns. cbn [bind]. rewrite Hpath. cbn [bind]. rewrite Hl. cbn [bind].
      rewrite (selected_cells (Some (f_bf f)) (zero_stack bz) HL2 Hadr), G1. cbn [bind].
      rewrite (@selected_cells _ (f_gf f) (fun _ => [0]) (q_size q) ns rfs HL2 Hadr), G2. cbn [bind].
      rewrite (@selected_cells _ (Some (f_vt f)) (fun _ => [vz; vz; vz]) (q_size q) ns rfs HL2 Hadr), G3. cbn [bind].
      rewrite (selected_cells (f_pt f) (zero_policy pz pass) HL2 Hadr), G4. cbn [bind].
      f_equal. f_equal. unfold stacked. f_equal. rewrite <- G5.
      apply list_ext; [rewrite !map_length; symmetry; exact (mapM_len Hrfs)|]. intros i x Hi. rewrite nth_error_map in *.
      destruct (nth_error positions i) eqn:E; [|discriminate]. injection Hi as <-.
      destruct (@nth_error_in_range _ rfs i) as [r Hr]; [rewrite (mapM_len Hrfs); apply nth_error_Some; congruence|].
      destruct (@nth_error_in_range _ ns i) as [n1 Hn1]; [rewrite HL2; apply nth_error_Some; congruence|].
      rewrite Hr. cbn. f_equal. now destruct (Hadr i r n1 Hr Hn1).
    Qed.

    Lemma draw_packed_rows n l :
      draw_packed header hash64 junk_index cfg q n = Ok l <-> bound_ok n = true /\
      mapM (row_draw header hash64 n (d_seed cfg) symmetry_domain (d_epoch cfg) 0) (map rf_key refs) = Ok l.
    Proof.
      assert (Hk : mapM (fun '(f, r) => packed_key (q_digests q) f r) (combine (q_files q) (q_rows q)) = Ok (map rf_key refs)).
      { apply mapM_intro; [rewrite map_length, (mapM_len Hrefs); reflexivity|]. intros i [f r] k Hi Hk. rewrite nth_error_map in Hk.
        destruct (nth_error refs i) as [rf|] eqn:E; [|discriminate]. injection Hk as <-.
        destruct (packed_refs_nth Hrefs E) as (f1 & n1 & path1 & k1 & F1 & N1 & _ & K1 & ->). rewrite combine_nth_error, F1, N1 in Hi. injection Hi as <- <-. exact K1. }
      rewrite <- (keys_v2_rows header hash64 junk_index n (d_seed cfg) symmetry_domain (d_epoch cfg) 0) by (pose proof refs_ne; destruct refs; [congruence|discriminate]).
      unfold draw_packed. destruct (is_pow2_bound n) eqn:Hp.
      - apply packed_rows_keys; auto.
      - unfold packed_keys. rewrite Hk. reflexivity.
    Qed.

    Lemma packed_rows_lax d : d_fixed_board_size cfg = None ->
      dpacked q = Ok (Some d) <->
      exists pres rows, mapM fref refs = Ok pres /\ stackable pres /\ mapM dlax refs = Ok rows /\ d = stacked rows.
    Proof.
      intros Hn. destruct fetch_total as (pres & Hpres & Hsd & Hsz & Hlp).
      set (used := sort_by (fun i j => (count_of (q_files q) i <? count_of (q_files q) j)%nat) (np_unique (q_files q))).
      assert (Hused : forall i, In i used <-> In i (q_files q)) by (intros i; unfold used; rewrite in_sort_by; apply in_unique).
      destruct (@mapM_total _ _ (packed_group q) used) as [gs Hgs].
      { intros i Hi. apply Hused in Hi. destruct (packed_group_rows Hpres Hi) as (rs & _ & _ & _ & E). eauto. }
      assert (Hg : forall pg, In pg gs -> exists i rs, In i (q_files q) /\ fst pg = flatnonzero (map (fun f => Nat.eqb f i) (q_files q)) /\
                 take pres (fst pg) = Ok rs /\ rs <> [] /\ stackable rs /\ snd pg = stacked rs).
      { intros pg Hin. destruct (mapM_ok_in Hgs Hin) as (i & Hi & E). apply Hused in Hi. destruct (packed_group_rows Hpres Hi) as (rs & E1 & E2 & E3 & E4). rewrite E4 in E. injection E as <-. exists i, rs. auto 8. }
      assert (HF : Forall (group_of pres) gs).
      { rewrite Forall_forall. intros pg Hin. destruct (Hg pg Hin) as (i & rs & _ & _ & E1 & E2 & _ & E3). exists rs. auto. }
      assert (Hcov : forall i, (i < List.length pres)%nat -> exists pg, In pg gs /\ In i (fst pg)).
      { intros i Hi. rewrite Hlp, refs_len, <- Hlen in Hi. destruct (nth_error_in_range Hi) as [index Hx].
        assert (Hin : In index used) by (apply Hused; eapply nth_error_In; eauto). destruct (mapM_out_in Hgs Hin) as (pg & Hpg & E). exists pg. split; [exact Hpg|].
        apply Hused in Hin. destruct (packed_group_rows Hpres Hin) as (rs & _ & _ & _ & E4). rewrite E4 in E. injection E as <-. cbn [fst]. now apply files_in. }
      assert (Hwithin : forall ps rs g, In (ps, g) gs -> take pres ps = Ok rs -> stackable rs).
      { intros ps rs g Hin Ht. destruct (Hg _ Hin) as (i & rs2 & _ & _ & E1 & _ & E2 & _). cbn [fst] in E1. rewrite Ht in E1. injection E1 as <-. exact E2. }
      assert (Hgn : gs <> []).
      { pose proof refs_ne as Hr. intros ->. destruct refs as [|r rs] eqn:Er; [congruence|]. destruct (Hcov 0%nat) as (pg & [] & _). rewrite Hlp. cbn. lia. }
      assert (Hrl : List.length (q_rows q) = List.length pres) by (rewrite Hlp; symmetry; exact refs_len).
      assert (Hpn : pres <> []) by (intros ->; pose proof refs_ne; destruct refs; [congruence|discriminate]).
      unfold decode_packed_batch. rewrite Hn. fold used.
      assert (Hm : forall (X : Type) (x y : X), match q_rows q with [] => x | _ => y end = y) by (destruct (q_rows q); congruence). rewrite Hm. clear Hm.
      assert (HfR : stackable pres -> forall x,
        (policy <- board_policies cfg (q_size q) (c_policy (stacked pres)) ;;
         d <- post_process_vectorized junk_board junk_plane cfg (draw_packed header hash64 junk_index cfg q)
           {| c_size := c_size (stacked pres); c_board := c_board (stacked pres); c_stm := c_stm (stacked pres); c_value := c_value (stacked pres); c_policy := policy |} ;;
         Ok (Some d)) = Ok (Some x) <-> exists rows, mapM dlax refs = Ok rows /\ x = stacked rows).
      { intros Hst x. cbn [stacked c_size c_board c_stm c_value c_policy].
        pose proof (@finish_rows B V P pz bz header hash64 junk_index junk_board junk_plane cfg (q_size q) (map rf_key refs) pres (draw_packed header hash64 junk_index cfg q) x Hpn Hst Hsd Hsz) as F.
        assert (E : (policy <- board_policies cfg (q_size q) (map (@r_policy B V P) pres) ;;
          d <- post_process_vectorized junk_board junk_plane cfg (draw_packed header hash64 junk_index cfg q)
            {| c_size := map (@r_size B V P) pres; c_board := map (@r_board B V P) pres; c_stm := map (@r_stm B V P) pres; c_value := map (@r_value B V P) pres; c_policy := policy |} ;;
          Ok (Some d)) = Ok (Some x) <->
          (policy <- board_policies cfg (q_size q) (map (@r_policy B V P) pres) ;;
          post_process_vectorized junk_board junk_plane cfg (draw_packed header hash64 junk_index cfg q)
            {| c_size := map (@r_size B V P) pres; c_board := map (@r_board B V P) pres; c_stm := map (@r_stm B V P) pres; c_value := map (@r_value B V P) pres; c_policy := policy |}) = Ok x).
        { destruct (board_policies _ _ _); cbn [bind]; [|split; discriminate]. destruct (post_process_vectorized _ _ _ _ _); cbn [bind]; split; congruence. }
        rewrite E, F; [|rewrite map_length; auto|intros n l; apply draw_packed_rows].
        split.
        - intros (raws & rows & H1 & H2 & ->). exists rows. split; [|reflexivity]. apply (staged header hash64 junk_index rows Hpres). eauto.
        - intros (rows & H & ->). apply (staged header hash64 junk_index rows Hpres) in H as (raws & H1 & H2). eauto. }
      split.
      - intros H. inv_bind H. destruct v as [[d1 s]|]; [|discriminate].
        apply packed_loop_groups in Hm as (gs2 & E & Hloop). rewrite Hgs in E. injection E as <-.
        assert (Hst : stackable pres) by (eapply groups_backward; eauto).
        destruct (groups_forward junk_board junk_stm junk_value junk_policy junk_size Hst HF Hgn Hcov) as (s2 & E). rewrite Hrl, E in Hloop. injection Hloop as <- <-.
        apply (HfR Hst) in H as (rows & H1 & H2). exists pres, rows. auto.
      - intros (pres2 & rows & E & Hst & Hrows & ->). rewrite Hpres in E. injection E as <-.
        destruct (groups_forward junk_board junk_stm junk_value junk_policy junk_size Hst HF Hgn Hcov) as (s2 & E).
        assert (X : ploop q used None = Ok (Some (stacked pres, s2))) by (apply packed_loop_groups; exists gs; split; [exact Hgs|rewrite Hrl; exact E]).
        rewrite X. cbn [bind]. apply (HfR Hst). eauto.
    Qed.

    (** with one stored policy layout the raw rows stack whenever the decoded ones do *)
    Lemma stored_layouts pres rows : mapM fref refs = Ok pres -> mapM dlax refs = Ok rows ->
      same_stored_policies (zero_policy pz pass) load refs -> stackable rows -> stackable pres.
    Proof.
      intros Hpres Hrows Hsp Hst a b Ha Hb. apply In_nth_error in Ha as [i Hi]. apply In_nth_error in Hb as [j Hj].
      assert (HX : forall i a, nth_error pres i = Some a -> exists r x f raw, In r refs /\ In x rows /\ load (rf_path r) = Ok f /\ placed_in f r /\ fetch pz vz bz cfg f r = Ok a /\ settle cfg a = Ok raw /\ same_layout raw x).
      { clear i a Hi. intros i a Hi. destruct (@nth_error_in_range _ refs i) as [r Hr]; [rewrite <- (mapM_len Hpres); apply nth_error_Some; congruence|].
        destruct (mapM_nth Hpres Hr) as (a2 & Ha2 & Hn). rewrite Hi in Hn. injection Hn as <-. destruct (mapM_nth Hrows Hr) as (x & Hx & Hnx).
        rewrite Forall_forall in Hplaced. pose proof (Hplaced _ (nth_error_In _ _ Hr)) as Hp. destruct (placed_load Hp) as (f & Hl & Hpf).
        destruct (decode_lax_one Hx Hp) as (_ & pre & raw & E1 & E2 & E3 & _). rewrite Ha2 in E1. injection E1 as <-.
        unfold fetch_ref in Ha2. rewrite Hl in Ha2. cbn [bind] in Ha2.
        exists r, x, f, raw. split; [eapply nth_error_In; eauto|]. split; [eapply nth_error_In; eauto|]. auto. }
      destruct (HX i a Hi) as (r1 & x1 & f1 & w1 & R1 & X1 & L1 & P1 & F1 & S1 & M1). destruct (HX j b Hj) as (r2 & x2 & f2 & w2 & R2 & X2 & L2 & P2 & F2 & S2 & M2).
      destruct (settle_Ok S1) as (_ & A2 & A3 & A4 & _). destruct (settle_Ok S2) as (_ & B2 & B3 & B4 & _).
      pose proof (Hst _ _ X1 X2) as (T1 & T2 & T3 & _). destruct M1 as (U1 & U2 & U3 & _), M2 as (V1 & V2 & V3 & _).
      unfold same_layout. rewrite A2, A3, A4 in *. rewrite B2, B3, B4 in *. split; [congruence|]. split; [congruence|]. split; [congruence|].
      assert (Hpol : forall r f w, load (rf_path r) = Ok f -> placed_in f r -> fetch pz vz bz cfg f r = Ok w -> policy_shape (r_policy w) = policy_shape (stored_policy (zero_policy pz pass) f (rf_size r))).
      { intros r f w Hl Hp Hf. destruct (fetch_Ok pz vz bz header hash64 load cfg Hp) as (pre & E & _ & _ & _ & _ & _ & _ & Q1 & Q2 & _). rewrite Hf in E. injection E as <-.
        destruct Hp as [(_ & _ & _ & _ & R) _]. unfold stored_policy. destruct (f_pt f) as [l|] eqn:El; [|now rewrite Q2].
        specialize (Q1 l eq_refl). destruct (R l eq_refl) as [Hall _]. destruct l as [|p0 ps]; [destruct Q1|]. apply Hall; [exact Q1|now left]. }
      rewrite (Hpol r1 f1 a L1 P1 F1), (Hpol r2 f2 b L2 P2 F2). exact (Hsp r1 r2 f1 f2 R1 R2 L1 L2).
    Qed.

    Lemma raw_stack_lax pres rows : mapM fref refs = Ok pres -> mapM dlax refs = Ok rows -> stackable pres -> stackable rows.
    Proof.
      intros Hpres Hrows Hst x y Hx Hy. apply In_nth_error in Hx as [i Hi]. apply In_nth_error in Hy as [j Hj].
      assert (HX : forall i x, nth_error rows i = Some x -> exists a raw, In a pres /\ settle cfg a = Ok raw /\ same_layout raw x).
      { clear i x Hi. intros i x Hi. destruct (@nth_error_in_range _ refs i) as [r Hr]; [rewrite <- (mapM_len Hrows); apply nth_error_Some; congruence|].
        destruct (mapM_nth Hrows Hr) as (x2 & Hx & Hn). rewrite Hi in Hn. injection Hn as <-. destruct (mapM_nth Hpres Hr) as (a & Ha & Hna).
        rewrite Forall_forall in Hplaced. pose proof (Hplaced _ (nth_error_In _ _ Hr)) as Hp.
        destruct (decode_lax_one Hx Hp) as (_ & pre & raw & E1 & E2 & E3 & _). rewrite Ha in E1. injection E1 as <-. exists a, raw. split; [eapply nth_error_In; eauto|auto]. }
      destruct (HX i x Hi) as (a & ra & Ia & Sa & La). destruct (HX j y Hj) as (b & rb & Ib & Sb & Lb).
      destruct fetch_total as (pres2 & E & _ & Hsz & _). rewrite Hpres in E. injection E as <-.
      assert (L : same_layout ra rb) by (eapply settle_layout; [exact Sa|exact Sb|now apply Hst|rewrite (Hsz a Ia), (Hsz b Ib); reflexivity]).
      destruct La as (? & ? & ? & ?), Lb as (? & ? & ? & ?), L as (? & ? & ? & ?). unfold same_layout. repeat split; congruence.
    Qed.
  End Request.

  (** ** decode_batches *)
  Lemma mapM_concat A C (f : A -> res C) (ls : list (list A)) out :
    mapM f (List.concat ls) = Ok out <-> exists outs, mapM (mapM f) ls = Ok outs /\ out = List.concat outs.
  Proof.
    revert out; induction ls as [|l ls IH]; intros out; cbn [List.concat mapM].
    - split; [intros H; injection H as <-; exists []; auto|]. intros (outs & E & ->). now injection E as <-.
    - rewrite mapM_app. split.
      + intros H. inv_bind H. inv_bind H. injection H as <-. destruct (proj1 (IH _) Hm0) as (outs & E & ->). rewrite E, Hm. cbn [bind].
        eexists. split; [reflexivity|]. reflexivity.
      + intros (outs & E & ->). inv_bind E. inv_bind E. injection E as <-. assert (X : mapM f (List.concat ls) = Ok (List.concat v0)) by (apply IH; eauto). rewrite X, Hm. reflexivity.
  Qed.

  Lemma py_slice_mid A (pre mid post : list A) : py_slice (pre ++ mid ++ post) (zlen pre) (zlen pre + zlen mid) = mid.
  Proof.
    apply list_ext.
    - rewrite py_slice_len; unfold zlen; rewrite ?app_length; lia.
    - intros i a Hi. assert (Hlt : (i < Z.to_nat (zlen mid))%nat).
      { assert (X : nth_error (py_slice (pre ++ mid ++ post) (zlen pre) (zlen pre + zlen mid)) i <> None) by congruence. apply nth_error_Some in X.
        rewrite py_slice_len in X; unfold zlen in *; rewrite ?app_length in *; lia. }
      rewrite py_slice_nth in Hi; [|unfold zlen; lia|unfold zlen; rewrite !app_length; lia|unfold zlen; lia|exact Hlt].
      unfold zlen in *. rewrite Nat2Z.id in *. rewrite nth_error_app2 in Hi by lia. replace (List.length pre + i - List.length pre)%nat with i in Hi by lia.
      rewrite nth_error_app1 in Hi by lia. exact Hi.
  Qed.

  Lemma split_rows (rss : list (list row)) : forall pre,
    split_cols (stacked (pre ++ List.concat rss)) (map (@zlen row) rss) (zlen pre) = map (@stacked B V P) rss.
  Proof.
    induction rss as [|rs rss IH]; intros pre; [reflexivity|]. cbn [map split_cols List.concat]. f_equal.
    - unfold slice_cols, stacked. cbn [c_size c_board c_stm c_value c_policy].
      assert (X : forall A (f : row -> A), py_slice (map f (pre ++ rs ++ List.concat rss)) (zlen pre) (zlen pre + zlen rs) = map f rs).
      { intros A f. rewrite !map_app. replace (zlen pre) with (zlen (map f pre)) by (unfold zlen; now rewrite map_length).
        replace (zlen rs) with (zlen (map f rs)) by (unfold zlen; now rewrite map_length). apply py_slice_mid. }
      now rewrite !X.
    - specialize (IH (pre ++ rs)). rewrite <- app_assoc in IH. rewrite <- IH. f_equal. unfold zlen. rewrite app_length. lia.
  Qed.

  Lemma per_batch batches ds : d_fixed_board_size cfg = None -> (forall b, In b batches -> b <> []) ->
    (forall b, In b batches -> Forall (placed load) b) ->
    let each := (ds <- mapM (fun refs => d <- dbatch refs ;; match d with Some d => Ok d | None => Err TypeError end) batches ;; Ok (Some ds)) in
    (each = Ok (Some ds) -> exists rss, mapM (mapM dlax) batches = Ok rss /\ ds = map (@stacked B V P) rss /\ forall rs, In rs rss -> stackable rs) /\
    (forall rss, mapM (mapM dlax) batches = Ok rss -> stackable (List.concat rss) -> ds = map (@stacked B V P) rss -> each = Ok (Some ds)).
  Proof.
    intros Hn Hbn Hpl each. split.
    - intros H. unfold each in H. inv_bind H. injection H as ->.
      assert (HX : forall b d, In b batches -> (d0 <- dbatch b ;; match d0 with Some d1 => Ok d1 | None => Err TypeError end) = Ok d -> exists rows, mapM dlax b = Ok rows /\ stackable rows /\ d = stacked rows).
      { intros b d Hb E. inv_bind E. destruct v as [d1|]; [|discriminate]. injection E as ->. apply batch_lax in Hm0; auto. }
      destruct (@mapM_total _ _ (mapM dlax) batches) as [rss Hrss].
      { intros b Hb. destruct (mapM_out_in Hm Hb) as (d & _ & E). destruct (HX b d Hb E) as (rows & R & _). eauto. }
      exists rss. split; [exact Hrss|]. split.
      + apply list_ext; [rewrite map_length, (mapM_len Hm), (mapM_len Hrss); reflexivity|]. intros i d Hi.
        destruct (@nth_error_in_range _ batches i) as [b Hb]; [rewrite <- (mapM_len Hm); apply nth_error_Some; congruence|].
        destruct (mapM_nth Hm Hb) as (d2 & E & Hn2). rewrite Hi in Hn2. injection Hn2 as <-. destruct (HX b d (nth_error_In _ _ Hb) E) as (rows & R & _ & ->).
        destruct (mapM_nth Hrss Hb) as (rows2 & R2 & Hn2). rewrite R in R2. injection R2 as <-. rewrite nth_error_map, Hn2. reflexivity.
      + intros rs Hrs. destruct (mapM_ok_in Hrss Hrs) as (b & Hb & R). destruct (mapM_out_in Hm Hb) as (d & _ & E). destruct (HX b d Hb E) as (rows & R2 & S & _). rewrite R in R2. injection R2 as <-. exact S.
    - intros rss Hrss Hst ->. unfold each.
      assert (X : mapM (fun refs => d <- dbatch refs ;; match d with Some d => Ok d | None => Err TypeError end) batches = Ok (map (@stacked B V P) rss)).
      { apply mapM_intro; [rewrite map_length; exact (mapM_len Hrss)|]. intros i b d Hb Hd. rewrite nth_error_map in Hd.
        destruct (nth_error rss i) as [rs|] eqn:E; [|discriminate]. injection Hd as <-. destruct (mapM_nth Hrss Hb) as (rs2 & R & Hn2). rewrite E in Hn2. injection Hn2 as <-.
        assert (Y : dbatch b = Ok (Some (stacked rs))).
        { apply batch_lax; [exact Hn|apply Hbn; eapply nth_error_In; eauto|apply Hpl; eapply nth_error_In; eauto|].
          exists rs. split; [exact R|]. split; [|reflexivity]. intros u v Hu Hv. apply Hst; apply in_concat; exists rs; split; auto; eapply nth_error_In; eauto. }
        rewrite Y. reflexivity. }
      rewrite X. reflexivity.
  Qed.

  Lemma batches_lax batches ds : d_fixed_board_size cfg = None -> batches <> [] -> (forall b, In b batches -> b <> []) ->
    (forall b, In b batches -> Forall (placed load) b) ->
    (dbatches batches = Ok (Some ds) -> exists rss, mapM (mapM dlax) batches = Ok rss /\ ds = map (@stacked B V P) rss /\ forall rs, In rs rss -> stackable rs) /\
    (forall rss, mapM (mapM dlax) batches = Ok rss -> stackable (List.concat rss) -> ds = map (@stacked B V P) rss -> dbatches batches = Ok (Some ds)).
  Proof.
    intros Hn Hne Hbn Hpl. unfold decode_batches. rewrite Hn.
    assert (Hm : forall (X : Type) (x y : X), match batches with [] => x | _ => y end = y) by (destruct batches; congruence). rewrite Hm. clear Hm.
    destruct (@mapM_total _ _ (fun refs : list ref => match refs with [] => Err ValueError | r :: _ => Ok (rf_size r) end) batches) as [firsts Hf].
    { intros b Hb. specialize (Hbn b Hb). destruct b; [congruence|eauto]. }
    rewrite Hf. cbn [bind].
    assert (Hcn : List.concat batches <> []).
    { destruct batches as [|b bs]; [congruence|]. cbn. specialize (Hbn b (or_introl eq_refl)). destruct b; [congruence|discriminate]. }
    assert (Hcp : Forall (placed load) (List.concat batches)).
    { rewrite Forall_forall. intros r Hr. apply in_concat in Hr as (b & Hb & Hr). specialize (Hpl b Hb). rewrite Forall_forall in Hpl. auto. }
    assert (Hlens : forall rss, mapM (mapM dlax) batches = Ok rss -> map (@zlen row) rss = map (@zlen ref) batches).
    { intros rss H. apply list_ext; [rewrite !map_length; exact (mapM_len H)|]. intros i n Hi. rewrite nth_error_map in *.
      destruct (nth_error rss i) as [rs|] eqn:E; [|discriminate]. injection Hi as <-. destruct (@nth_error_in_range _ batches i) as [b Hb]; [rewrite <- (mapM_len H); apply nth_error_Some; congruence|].
      destruct (mapM_nth H Hb) as (rs2 & H2 & H3). rewrite E in H3. injection H3 as <-. rewrite Hb. cbn. unfold zlen. now rewrite (mapM_len H2). }
    destruct (dedup size_eqb firsts) as [|s [|s2 ss]].
    2:{ set (flat := match dedup Z.eqb (map rf_path (List.concat batches)) with [path] => _ | _ => _ end).
        assert (Hflat : forall d, flat = Ok d <-> exists rows, mapM dlax (List.concat batches) = Ok rows /\ stackable rows /\ d = stacked rows).
        { intros d. unfold flat. apply flat_decode; assumption. }
        split.
        - intros H. inv_bind H. injection H as <-. apply Hflat in Hm as (rows & H & Hst & ->). apply mapM_concat in H as (rss & H & ->).
          exists rss. split; [exact H|]. split; [|intros rs Hrs a b Ha Hb; apply Hst; apply in_concat; eauto].
          rewrite <- (Hlens rss H). exact (split_rows rss []).
        - intros rss H Hst ->. assert (X : flat = Ok (stacked (List.concat rss))) by (apply Hflat; exists (List.concat rss); split; [apply mapM_concat; eauto|auto]).
          rewrite X. cbn [bind]. f_equal. f_equal. rewrite <- (Hlens rss H). exact (split_rows rss []). }
    - now apply per_batch.
    - now apply per_batch.
  Qed.
End Packed.
