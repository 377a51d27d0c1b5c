(** Several files in one batch: the group loops of decode_batch and decode_packed_batch. *)
From Verif Require Import Base BaseFacts Rng RngFacts Symmetry Checkpoint Decoder DecoderFacts DecoderRng DecoderSpec DecoderVec DecoderTurn DecoderBatch.
Set Implicit Arguments.
Unset Strict Implicit.

Section Groups.
  Variables (B V P : Type) (pz : P) (vz : V) (bz : B).
  Variable header : bytes.
  Variable hash64 : bytes -> Z.
  Variable junk_index : nat -> Z.
  Variable junk_board : nat -> stack B.
  Variable junk_stm : nat -> list Z.
  Variable junk_value : nat -> list V.
  Variable junk_policy : nat -> policy P.
  Variable junk_size : nat -> Z * Z.
  Variable junk_plane : nat -> plane P.
  Variable load : Z -> res (npz B V P).
  Variable cfg : config.
  Notation npz := (npz B V P).
  Notation row := (row B V P).
  Notation cols := (cols B V P).
  Notation addg := (add_group junk_board junk_stm junk_value junk_policy junk_size).
  Notation dlax := (decode_lax pz vz bz header hash64 junk_index load cfg).

  Fixpoint groups_loop (n : nat) (gs : list (list nat * cols)) (acc : option (cols * cols)) : res (option (cols * cols)) :=
    match gs with
    | [] => Ok acc
    | (positions, g) :: rest => acc <- addg n acc positions g ;; groups_loop n rest acc
    end.

  Definition cols_agree (d : cols) (T : list row) (D : nat -> Prop) : Prop :=
    agree (c_size d) (map (@r_size B V P) T) D /\ agree (c_board d) (map (@r_board B V P) T) D /\
    agree (c_stm d) (map (@r_stm B V P) T) D /\ agree (c_value d) (map (@r_value B V P) T) D /\
    agree (c_policy d) (map (@r_policy B V P) T) D.

  Lemma put_cols_agree (T : list row) positions rs d D :
    take T positions = Ok rs -> cols_agree d T D ->
    exists d', put_cols d positions (stacked rs) = Ok d' /\ cols_agree d' T (fun i => D i \/ In i positions).
  Proof.
    intros Ht (A1 & A2 & A3 & A4 & A5). unfold put_cols. cbn [stacked c_size c_board c_stm c_value c_policy].
    destruct (put_agree (take_map (@r_size B V P) Ht) A1) as (x1 & -> & X1). cbn [bind].
    destruct (put_agree (take_map (@r_board B V P) Ht) A2) as (x2 & -> & X2). cbn [bind].
    destruct (put_agree (take_map (@r_stm B V P) Ht) A3) as (x3 & -> & X3). cbn [bind].
    destruct (put_agree (take_map (@r_value B V P) Ht) A4) as (x4 & -> & X4). cbn [bind].
    destruct (put_agree (take_map (@r_policy B V P) Ht) A5) as (x5 & -> & X5). cbn [bind].
    eexists. split; [reflexivity|]. unfold cols_agree. cbn. auto.
  Qed.

  Lemma take_in A (l : list A) ps xs x : take l ps = Ok xs -> In x xs -> In x l.
  Proof.
    unfold take. intros H Hin. destruct (mapM_ok_in H Hin) as (p & _ & Hp). unfold py_get in Hp.
    destruct (nth_error l p) eqn:E; [|discriminate]. injection Hp as ->. eapply nth_error_In; eauto.
  Qed.

  Lemma schema_rows (a b : list row) : (forall x y, In x a -> In y b -> same_layout x y) -> schema_eqb (stacked a) (stacked b) = true.
  Proof.
    intros H. unfold schema_eqb, stacked. cbn [c_size c_board c_stm c_value c_policy].
    destruct a as [|x a]; [reflexivity|]. destruct b as [|y b]; [reflexivity|]. cbn [map].
    destruct (H x y (or_introl eq_refl) (or_introl eq_refl)) as (E1 & E2 & E3 & E4).
    rewrite (shape3_eqb_refl E1), E2, E3, (policy_shape_eqb_refl E4), !Z.eqb_refl. reflexivity.
  Qed.

  Lemma schema_rows_inv (x y : row) a b : schema_eqb (stacked (x :: a)) (stacked (y :: b)) = true -> same_layout x y.
  Proof.
    unfold schema_eqb, stacked. cbn [c_size c_board c_stm c_value c_policy map]. intros H.
    apply andb_true_iff in H as [H H4]. apply andb_true_iff in H as [H H3]. apply andb_true_iff in H as [H1 H2].
    unfold same_layout. split; [now apply shape3_eqb_eq|]. split; [lia|]. split; [lia|]. now apply policy_shape_eqb_eq.
  Qed.

  (** every group is its rows of [T] *)
  Definition group_of (T : list row) (pg : list nat * cols) : Prop :=
    exists rs, take T (fst pg) = Ok rs /\ snd pg = stacked rs /\ rs <> [].

  Lemma groups_forward_some (T : list row) gs : stackable T -> Forall (group_of T) gs ->
    forall d schema_rows0 D, (forall x, In x schema_rows0 -> In x T) -> cols_agree d T D ->
    exists d', groups_loop (List.length T) gs (Some (d, stacked schema_rows0)) = Ok (Some (d', stacked schema_rows0)) /\
               cols_agree d' T (fun i => D i \/ exists pg, In pg gs /\ In i (fst pg)).
  Proof.
    intros Hst HF. induction HF as [|[ps g] gs (rs & Ht & Hg & _) HF IH]; intros d s D Hs Ha; cbn [groups_loop].
    - exists d. split; [reflexivity|]. destruct Ha as (A1 & A2 & A3 & A4 & A5). unfold cols_agree.
      assert (HW : forall i, D i \/ (exists pg : list nat * cols, In pg [] /\ In i (fst pg)) -> D i) by (intros i [H|(pg & [] & _)]; exact H).
      repeat split; try (eapply agree_weaken; eauto; fail); eauto using agree_weaken; eapply agree_weaken; eauto.
    - cbn [fst snd] in *. subst g. unfold add_group. rewrite (schema_rows (a := rs) (b := s)).
      2:{ intros x y Hx Hy. apply Hst; [eapply take_in; eauto|auto]. }
      destruct (put_cols_agree Ht Ha) as (d1 & -> & A1). cbn [bind].
      destruct (IH d1 s _ Hs A1) as (d2 & E & (X1 & X2 & X3 & X4 & X5)). exists d2. split; [exact E|].
      assert (HW : forall i, D i \/ (exists pg, In pg ((ps, stacked rs) :: gs) /\ In i (fst pg)) -> (D i \/ In i ps) \/ exists pg, In pg gs /\ In i (fst pg)).
      { intros i [H|(pg & [<-|Hin] & Hi)]; [auto|auto|eauto]. }
      unfold cols_agree. split; [eapply agree_weaken; eauto|]. split; [eapply agree_weaken; eauto|]. split; [eapply agree_weaken; eauto|]. split; eapply agree_weaken; eauto.
  Qed.

  Lemma groups_forward (T : list row) gs : stackable T -> Forall (group_of T) gs -> gs <> [] ->
    (forall i, (i < List.length T)%nat -> exists pg, In pg gs /\ In i (fst pg)) ->
    exists s, groups_loop (List.length T) gs None = Ok (Some (stacked T, s)).
  Proof.
    intros Hst HF Hne Hcov. destruct gs as [|[ps g] gs]; [congruence|]. apply Forall_inv in HF as Hg. apply Forall_inv_tail in HF.
    destruct Hg as (rs & Ht & Hg & _). cbn [fst snd] in *. subst g. cbn [groups_loop add_group].
    assert (A0 : cols_agree (empty_cols junk_board junk_stm junk_value junk_policy junk_size (List.length T)) T (fun _ => False)).
    { unfold cols_agree, empty_cols. cbn [c_size c_board c_stm c_value c_policy]. split; [|split; [|split; [|split]]]; apply agree_empty; now rewrite map_length. }
    destruct (put_cols_agree Ht A0) as (d1 & -> & A1). cbn [bind].
    destruct (groups_forward_some Hst HF (schema_rows0 := rs) (fun x Hx => take_in Ht Hx) A1) as (d2 & E & (X1 & X2 & X3 & X4 & X5)).
    exists (stacked rs). rewrite E. f_equal. f_equal. f_equal.
    assert (HA : forall i, (i < List.length T)%nat -> (False \/ In i ps) \/ exists pg, In pg gs /\ In i (fst pg)).
    { intros i Hi. destruct (Hcov i Hi) as (pg & [<-|Hin] & Hp); [auto|eauto]. }
    destruct d2 as [e1 e2 e3 e4 e5]. cbn [c_size c_board c_stm c_value c_policy] in *. unfold stacked.
    f_equal; (eapply agree_all; [eassumption|]; intros i Hi; rewrite map_length in Hi; exact (HA i Hi)).
  Qed.

  Lemma groups_backward_some (gs : list (list nat * cols)) n : forall d s acc,
    groups_loop n gs (Some (d, s)) = Ok acc -> Forall (fun pg => schema_eqb (snd pg) s = true) gs.
  Proof.
    induction gs as [|[ps g] gs IH]; intros d s acc H; [constructor|]. cbn [groups_loop add_group] in H.
    destruct (schema_eqb g s) eqn:E; [|discriminate]. inv_bind H. inv_bind Hm. injection Hm as <-. constructor; [exact E|]. eapply IH; eauto.
  Qed.

  Lemma groups_backward (T : list row) gs n acc : Forall (group_of T) gs ->
    (forall i, (i < List.length T)%nat -> exists pg, In pg gs /\ In i (fst pg)) ->
    (forall ps rs g, In (ps, g) gs -> take T ps = Ok rs -> stackable rs) ->
    groups_loop n gs None = Ok acc -> stackable T.
  Proof.
    intros HF Hcov Hin H.
    (* all rows agree with the first row of the first group *)
    destruct gs as [|[ps0 g0] gs].
    { intros a b Ha. apply In_nth_error in Ha as [i Hi]. destruct (Hcov i) as (pg & [] & _). apply nth_error_Some. congruence. }
    cbn [groups_loop add_group] in H. inv_bind H. inv_bind Hm. injection Hm as <-. apply groups_backward_some in H.
    pose proof (Forall_inv HF) as (rs0 & Ht0 & Hg0 & Hne0). cbn [fst snd] in Ht0, Hg0. subst g0.
    destruct rs0 as [|x0 xs0]; [congruence|].
    assert (Hall : forall a, In a T -> same_layout a x0).
    { intros a Ha. apply In_nth_error in Ha as [i Hi]. destruct (Hcov i) as ([ps g] & Hpg & Hip); [apply nth_error_Some; congruence|]. cbn [fst] in Hip.
      rewrite Forall_forall in HF, H. destruct (HF _ Hpg) as (rs & Ht & Hg & Hne). cbn [fst snd] in Ht, Hg. subst g.
      assert (Har : In a rs).
      { apply In_nth_error in Hip as [j Hj]. destruct (mapM_nth Ht Hj) as (a2 & Ha2 & Hn). unfold py_get in Ha2. rewrite Hi in Ha2. injection Ha2 as <-. eapply nth_error_In; eauto. }
      destruct rs as [|y ys]; [congruence|].
      assert (L1 : same_layout a y) by (apply (Hin ps (y :: ys) _ Hpg Ht); [exact Har|now left]).
      destruct Hpg as [E|Hpg].
      - injection E as <- E. rewrite Ht0 in Ht. injection Ht as <- <-. exact L1.
      - specialize (H _ Hpg). cbn [snd] in H. apply schema_rows_inv in H.
        destruct L1 as (? & ? & ? & ?), H as (? & ? & ? & ?). unfold same_layout. repeat split; congruence. }
    intros a b Ha Hb. destruct (Hall a Ha) as (? & ? & ? & ?), (Hall b Hb) as (? & ? & ? & ?). unfold same_layout. repeat split; congruence.
  Qed.

  (** ** decode_batch *)
  Notation dloaded := (decode_loaded_batch pz vz header hash64 junk_index junk_board junk_plane cfg bz).
  Notation gloop := (grouped_loop pz vz header hash64 junk_index junk_board junk_stm junk_value junk_policy junk_size junk_plane load cfg bz).
  Notation dgrouped := (decode_grouped_batch pz vz header hash64 junk_index junk_board junk_stm junk_value junk_policy junk_size junk_plane load cfg bz).
  Notation dbatch := (decode_batch pz vz header hash64 junk_index junk_board junk_stm junk_value junk_policy junk_size junk_plane load cfg bz).

  Definition path_group (refs : list ref) (path : Z) : res (list nat * cols) :=
    f <- load path ;; g <- dloaded (refs_of_path path refs) f ;; Ok (positions_of path refs, g).

  Lemma grouped_loop_groups refs paths acc out :
    gloop refs paths acc = Ok out <-> exists gs, mapM (path_group refs) paths = Ok gs /\ groups_loop (List.length refs) gs acc = Ok out.
  Proof.
    revert acc. induction paths as [|p paths IH]; intros acc; cbn [grouped_loop mapM].
    - split; [intros H; exists []; auto|]. intros (gs & E & H). now injection E as <-.
    - unfold path_group at 1. destruct (load p) as [f|]; cbn [bind]; [|split; [discriminate|intros (gs & E & _); discriminate]].
      destruct (dloaded (refs_of_path p refs) f) as [g|]; cbn [bind]; [|split; [discriminate|intros (gs & E & _); discriminate]].
      split.
      + intros H. inv_bind H. apply IH in H as (gs & E & H). rewrite E. cbn [bind]. eexists. split; [reflexivity|]. cbn [groups_loop]. rewrite Hm. exact H.
      + intros (gs & E & H). inv_bind E. injection E as <-. cbn [groups_loop] in H. inv_bind H. rewrite Hm0. cbn [bind]. apply IH. exists v. auto.
  Qed.

  Lemma positions_in path refs i : In i (positions_of path refs) <-> exists r, nth_error refs i = Some r /\ rf_path r = path.
  Proof. unfold positions_of. rewrite in_flat_map. split; intros (r & H & E); exists r; split; auto; lia. Qed.

  Lemma take_rows_of path refs (rows : list row) (f : ref -> res row) :
    mapM f refs = Ok rows -> exists rs, take rows (positions_of path refs) = Ok rs /\ mapM f (refs_of_path path refs) = Ok rs.
  Proof.
    intros H. pose proof (take_flat_filter (fun r => rf_path r =? path) refs) as Ht. fold (positions_of path refs) in Ht. fold (refs_of_path path refs) in Ht.
    destruct (@take_total _ rows (positions_of path refs)) as [rs Hrs].
    { intros p Hp. apply positions_in in Hp as (r & Hr & _). rewrite (mapM_len H). apply nth_error_Some. congruence. }
    exists rs. split; [exact Hrs|]. apply mapM_intro; [rewrite (mapM_len Hrs), <- (mapM_len Ht); reflexivity|].
    intros i r x Hi Hx. destruct (@nth_error_in_range _ (positions_of path refs) i) as [p Hp]; [rewrite <- (mapM_len Hrs); apply nth_error_Some; congruence|].
    destruct (mapM_nth Ht Hp) as (r2 & Hr2 & Hn). rewrite Hi in Hn. injection Hn as <-. unfold py_get in Hr2. destruct (nth_error refs p) as [r3|] eqn:E; [|discriminate]. injection Hr2 as ->.
    destruct (mapM_nth Hrs Hp) as (x2 & Hx2 & Hn). rewrite Hx in Hn. injection Hn as <-. unfold py_get in Hx2. destruct (mapM_nth H E) as (x3 & Hx3 & Hn3). rewrite Hn3 in Hx2. congruence.
  Qed.

  Lemma refs_of_path_in path refs r : In r (refs_of_path path refs) <-> In r refs /\ rf_path r = path.
  Proof. unfold refs_of_path. rewrite filter_In. intuition lia. Qed.

  Lemma path_facts refs path : Forall (placed load) refs -> In path (map rf_path refs) ->
    exists f, load path = Ok f /\ refs_of_path path refs <> [] /\ (forall r, In r (refs_of_path path refs) -> rf_path r = path) /\
      Forall (placed_in f) (refs_of_path path refs).
  Proof.
    intros HF Hin. apply in_map_iff in Hin as (r0 & E & Hin). rewrite Forall_forall in HF. destruct (placed_load (HF r0 Hin)) as (f & Hl & Hp).
    exists f. rewrite <- E. split; [exact Hl|]. split; [|split].
    - intros Hnil. assert (H : In r0 (refs_of_path (rf_path r0) refs)) by (apply refs_of_path_in; auto). rewrite Hnil in H. exact H.
    - intros r Hr. now apply refs_of_path_in in Hr.
    - rewrite Forall_forall. intros r Hr. apply refs_of_path_in in Hr as [Hr Ep]. destruct (placed_load (HF r Hr)) as (f2 & Hl2 & Hp2). congruence.
  Qed.

  Lemma lax_stackable refs path rows : Forall (placed load) refs -> (forall r, In r refs -> rf_path r = path) ->
    mapM dlax refs = Ok rows -> stackable rows.
  Proof.
    intros HF Hp H a b Ha Hb. destruct (mapM_ok_in H Ha) as (ra & Ia & Ea). destruct (mapM_ok_in H Hb) as (rb & Ib & Eb).
    rewrite Forall_forall in HF. eapply lax_same_file; [|apply HF, Ia|apply HF, Ib|exact Ea|exact Eb]. rewrite (Hp ra Ia), (Hp rb Ib). reflexivity.
  Qed.

  Lemma grouped_rows refs paths d :
    refs <> [] -> Forall (placed load) refs -> (forall p, In p paths <-> In p (map rf_path refs)) ->
    dgrouped refs paths = Ok d <-> exists rows, mapM dlax refs = Ok rows /\ stackable rows /\ d = stacked rows.
  Proof.
    intros Hne HF Hpaths.
    assert (Hpn : paths <> []).
    { destruct refs as [|r rs]; [congruence|]. intros ->. assert (X : In (rf_path r) (map rf_path (r :: rs))) by now left. apply Hpaths in X. exact X. }
    assert (Hmain : forall rows, mapM dlax refs = Ok rows -> exists gs, mapM (path_group refs) paths = Ok gs /\ Forall (group_of rows) gs /\ gs <> [] /\
       (forall i, (i < List.length rows)%nat -> exists pg, In pg gs /\ In i (fst pg)) /\
       (forall ps rs g, In (ps, g) gs -> take rows ps = Ok rs -> stackable rs)).
    { intros rows Hrows.
      assert (Hg : forall p, In p (map rf_path refs) -> exists rs, take rows (positions_of p refs) = Ok rs /\ rs <> [] /\ stackable rs /\
                   path_group refs p = Ok (positions_of p refs, stacked rs)).
      { intros p Hp. destruct (path_facts HF Hp) as (f & Hl & Hnn & Hpp & HFf). destruct (take_rows_of p Hrows) as (rs & Ht & Hm).
        exists rs. split; [exact Ht|]. split; [intros ->; apply mapM_len in Hm; destruct (refs_of_path p refs); [congruence|discriminate]|]. split.
        - eapply lax_stackable; [|exact Hpp|exact Hm]. rewrite Forall_forall in *. intros r Hr. apply HF. now apply refs_of_path_in in Hr.
        - unfold path_group. rewrite Hl. cbn [bind].
          assert (E : dloaded (refs_of_path p refs) f = Ok (stacked rs)) by (apply (loaded_rows pz vz bz header hash64 junk_index junk_board junk_stm junk_value junk_policy junk_size junk_plane cfg (stacked rs) Hnn Hl Hpp HFf); eauto).
          rewrite E. reflexivity. }
      destruct (@mapM_total _ _ (path_group refs) paths) as [gs Hgs].
      { intros p Hp. apply Hpaths in Hp. destruct (Hg p Hp) as (rs & _ & _ & _ & E). eauto. }
      exists gs. split; [exact Hgs|].
      assert (Hgs2 : forall pg, In pg gs -> exists p rs, In p (map rf_path refs) /\ fst pg = positions_of p refs /\ take rows (positions_of p refs) = Ok rs /\ rs <> [] /\ stackable rs /\ snd pg = stacked rs).
      { intros pg Hin. destruct (mapM_ok_in Hgs Hin) as (p & Hp & E). apply Hpaths in Hp. destruct (Hg p Hp) as (rs & E1 & E2 & E3 & E4). rewrite E4 in E. injection E as <-. exists p, rs. auto 8. }
      split; [|split; [|split]].
      - rewrite Forall_forall. intros pg Hin. destruct (Hgs2 pg Hin) as (p & rs & _ & E1 & E2 & E3 & _ & E4). exists rs. rewrite E1. auto.
      - intros ->. apply mapM_len in Hgs. destruct paths; [congruence|discriminate].
      - intros i Hi. rewrite (mapM_len Hrows) in Hi. destruct (nth_error_in_range Hi) as [r Hr].
        assert (Hp : In (rf_path r) (map rf_path refs)) by (apply in_map; eapply nth_error_In; eauto).
        apply Hpaths in Hp. destruct (mapM_out_in Hgs Hp) as (pg & Hin & E). exists pg. split; [exact Hin|]. apply Hpaths in Hp.
        destruct (Hg _ Hp) as (rs & _ & _ & _ & E2). rewrite E2 in E. injection E as <-. cbn [fst]. apply positions_in. eauto.
      - intros ps rs g Hin Ht. destruct (Hgs2 _ Hin) as (p & rs2 & _ & E1 & E2 & _ & E3 & _). cbn [fst] in E1. subst ps. rewrite Ht in E2. injection E2 as <-. exact E3. }
    unfold decode_grouped_batch. split.
    - intros H. inv_bind H. destruct v as [[d1 s]|]; [|discriminate]. injection H as ->.
      apply grouped_loop_groups in Hm as (gs & Hgs & Hloop).
      destruct (@mapM_total _ _ dlax refs) as [rows Hrows].
      { intros r Hr. assert (Hp : In (rf_path r) (map rf_path refs)) by now apply in_map. destruct (path_facts HF Hp) as (f & Hl & Hnn & Hpp & HFf).
        apply Hpaths in Hp. destruct (mapM_out_in Hgs Hp) as (pg & _ & E). unfold path_group in E. rewrite Hl in E. cbn [bind] in E. inv_bind E.
        apply (loaded_rows pz vz bz header hash64 junk_index junk_board junk_stm junk_value junk_policy junk_size junk_plane cfg v Hnn Hl Hpp HFf) in Hm as (rs & Hrs & _).
        assert (Hin : In r (refs_of_path (rf_path r) refs)) by (apply refs_of_path_in; auto).
        destruct (mapM_out_in Hrs Hin) as (x & _ & Hx). eauto. }
      destruct (Hmain rows Hrows) as (gs2 & E & G1 & G2 & G3 & G4). rewrite Hgs in E. injection E as <-.
      exists rows. split; [exact Hrows|].
      assert (Hst : stackable rows) by (eapply groups_backward; eauto).
      split; [exact Hst|]. destruct (groups_forward Hst G1 G2 G3) as (s2 & E). rewrite (mapM_len Hrows) in E. rewrite E in Hloop. now injection Hloop as <- _.
    - intros (rows & Hrows & Hst & ->). destruct (Hmain rows Hrows) as (gs & E & G1 & G2 & G3 & G4).
      destruct (groups_forward Hst G1 G2 G3) as (s2 & E2). rewrite (mapM_len Hrows) in E2.
      assert (X : gloop refs paths None = Ok (Some (stacked rows, s2))) by (apply grouped_loop_groups; eauto). rewrite X. reflexivity.
  Qed.

  Lemma flat_decode refs d : refs <> [] -> Forall (placed load) refs ->
    match dedup Z.eqb (map rf_path refs) with
    | [path] => f <- load path ;; dloaded refs f
    | paths => dgrouped refs paths
    end = Ok d <-> exists rows, mapM dlax refs = Ok rows /\ stackable rows /\ d = stacked rows.
  Proof.
    intros Hne HF. assert (Hd : forall p, In p (dedup Z.eqb (map rf_path refs)) <-> In p (map rf_path refs)) by (intros p; apply in_dedup; intros; apply Z.eqb_eq).
    destruct (dedup Z.eqb (map rf_path refs)) as [|p [|q ps]].
    - apply grouped_rows; auto.
    - assert (Hall : forall r, In r refs -> rf_path r = p) by (intros r Hr; destruct (proj2 (Hd (rf_path r))) as [E|[]]; [now apply in_map|auto]).
      assert (Hp : In p (map rf_path refs)) by (apply Hd; now left).
      destruct (path_facts HF Hp) as (f & Hl & _ & _ & _). rewrite Hl. cbn [bind].
      assert (HFf : Forall (placed_in f) refs).
      { rewrite Forall_forall in *. intros r Hr. destruct (placed_load (HF r Hr)) as (f2 & Hl2 & Hp2). rewrite (Hall r Hr), Hl in Hl2. now injection Hl2 as <-. }
      rewrite (loaded_rows pz vz bz header hash64 junk_index junk_board junk_stm junk_value junk_policy junk_size junk_plane cfg d Hne Hl Hall HFf).
      split; [intros (rows & H & ->); exists rows; split; [exact H|split; [eapply lax_stackable; eauto|reflexivity]]|].
      intros (rows & H & _ & ->). eauto.
    - apply grouped_rows; auto.
  Qed.

  Lemma batch_lax refs d : d_fixed_board_size cfg = None -> refs <> [] -> Forall (placed load) refs ->
    dbatch refs = Ok (Some d) <-> exists rows, mapM dlax refs = Ok rows /\ stackable rows /\ d = stacked rows.
  Proof.
    intros Hn Hne HF. rewrite <- (flat_decode d Hne HF). unfold decode_batch. rewrite Hn.
    assert (Hm : forall (X : Type) (x y : X), match refs with [] => x | _ => y end = y) by (destruct refs; congruence). rewrite Hm.
    destruct (dedup Z.eqb (map rf_path refs)) as [|p [|q ps]].
    - destruct (dgrouped refs []); cbn [bind]; split; congruence.
    - destruct (load p) as [n|]; cbn [bind]; [|split; discriminate]. destruct (dloaded refs n); cbn [bind]; split; congruence.
    - destruct (dgrouped refs (p :: q :: ps)); cbn [bind]; split; congruence.
  Qed.
End Groups.
