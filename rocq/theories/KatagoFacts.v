(** Rows of tables, for C63. *)
From Verif Require Import Base BaseFacts Decoder DecoderFacts Katago KatagoSpec.
Set Implicit Arguments. Unset Strict Implicit.

Lemma mapM_two A C (f h : A -> res C) l : (forall a, List.In a l -> f a = h a) -> mapM f l = mapM h l.
Proof. apply mapM_Ok_ext. Qed.
Lemma take_unmap A C (f : A -> C) l ps : forall xs, take (map f l) ps = Ok xs -> exists ys, take l ps = Ok ys /\ xs = map f ys.
Proof.
  unfold take. induction ps as [|p ps IH]; intros xs H; cbn [mapM] in *; [injection H as <-; exists []; split; reflexivity|].
  apply bind_Ok in H. destruct H as (x & Hx & H). apply bind_Ok in H. destruct H as (r & Hr & H). injection H as <-. destruct (IH r Hr) as (ys & E & ->). rewrite E.
  unfold py_get in *. rewrite nth_error_map in Hx. destruct (nth_error l p) as [a|] eqn:N; cbn in Hx; [|discriminate]. injection Hx as <-. exists (a :: ys). split; reflexivity.
Qed.
Lemma filter_and A (p q : A -> bool) l : filter q (filter p l) = filter (fun a => p a && q a) l.
Proof. induction l as [|a l IH]; [reflexivity|]. cbn. destruct (p a); cbn; [destruct (q a); congruence|exact IH]. Qed.
Lemma mask_and A (p q : A -> bool) l : map (fun '(x, y) => x && y) (combine (map p l) (map q l)) = map (fun a => p a && q a) l.
Proof. induction l as [|a l IH]; [reflexivity|]. cbn. rewrite IH. reflexivity. Qed.

Section Rows.
Variables B G V P : Type.
Variable opt : poptions B G V P.
Notation table := (table B G V P).
Notation archive := (archive B G V P).
Notation prow := (prow B G V P).

Definition ocol A (o : option (list A)) (l : list (option A)) : Prop := match o with None => Forall (fun x => x = None) l | Some c => l = map Some c end.
Definition rep (t : table) (rs : list prow) : Prop :=
  t_bf t = map (@row_b _ _ _ _) rs /\ t_vt t = map (@row_v _ _ _ _) rs /\ ocol (t_gf t) (map (@row_g _ _ _ _) rs) /\ ocol (t_pt t) (map (@row_p _ _ _ _) rs)
  /\ Forall (fun r => row_size r = t_size t) rs.

Lemma ocol_get A (o : option (list A)) l i x : ocol o l -> nth_error l i = Some x -> optM (fun c => py_get c i) o = Ok x.
Proof.
  destruct o as [c|]; cbn; intros H E.
  - subst l. rewrite nth_error_map in E. unfold py_get. destruct (nth_error c i) as [a|]; cbn in *; [|discriminate]. injection E as <-. reflexivity.
  - f_equal. rewrite Forall_forall in H. symmetry. apply H. eapply nth_error_In. exact E.
Qed.
Lemma rep_rows t rs : rep t rs -> rows_of t = Ok rs.
Proof.
  intros (Hb & Hv & Hg & Hp & Hs). unfold rows_of. rewrite Hb, map_length. apply mapM_intro; [rewrite seq_length; reflexivity|].
  intros i k r Hi Er. rewrite nth_error_seq in Hi. destruct (i <? List.length rs)%nat eqn:L; [|discriminate]. injection Hi as <-. cbn [Nat.add]. unfold row_at. rewrite Hb, Hv. unfold py_get at 1. rewrite nth_error_map, Er. cbn [option_map bind].
  rewrite (ocol_get Hg (x := row_g r)) by (rewrite nth_error_map, Er; reflexivity). cbn [bind].
  unfold py_get at 1. rewrite nth_error_map, Er. cbn [option_map bind].
  rewrite (ocol_get Hp (x := row_p r)) by (rewrite nth_error_map, Er; reflexivity). cbn [bind].
  rewrite Forall_forall in Hs. rewrite <- (Hs r) by (eapply nth_error_In; exact Er). destruct r; reflexivity.
Qed.
Definition same_len A (n : nat) (o : option (list A)) : Prop := match o with None => True | Some l => List.length l = n end.
Lemma rep_exists (t : table) : List.length (t_vt t) = List.length (t_bf t) -> same_len (List.length (t_bf t)) (t_gf t) -> same_len (List.length (t_bf t)) (t_pt t) -> exists rs, rep t rs /\ List.length rs = List.length (t_bf t).
Proof.
  destruct t as [sz bf gf vt pt]. cbn [t_bf t_gf t_vt t_pt]. revert gf vt pt. induction bf as [|b bf IH]; intros gf vt pt Hv Hg Hp.
  - destruct vt; [|discriminate]. exists []. split; [|reflexivity]. unfold rep. cbn. destruct gf as [[|]|], pt as [[|]|]; cbn in *; try discriminate; repeat split; constructor.
  - destruct vt as [|v vt]; [discriminate|]. cbn in Hv.
    assert (Xg : exists g gf', same_len (List.length bf) gf' /\ (forall l, ocol gf' l -> ocol gf (g :: l))).
    { destruct gf as [[|g0 l0]|]; cbn in Hg; [discriminate| |].
      - exists (Some g0), (Some l0). split; [cbn; lia|]. intros l E. cbn in *. congruence.
      - exists None, None. split; [exact I|]. intros l E. cbn in *. constructor; [reflexivity|exact E]. }
    assert (Xp : exists g gf', same_len (List.length bf) gf' /\ (forall l, ocol gf' l -> ocol pt (g :: l))).
    { destruct pt as [[|g0 l0]|]; cbn in Hp; [discriminate| |].
      - exists (Some g0), (Some l0). split; [cbn; lia|]. intros l E. cbn in *. congruence.
      - exists None, None. split; [exact I|]. intros l E. cbn in *. constructor; [reflexivity|exact E]. }
    destruct Xg as (g & gf' & Lg & Xg). destruct Xp as (p & pt' & Lp & Xp).
    destruct (IH gf' vt pt' ltac:(lia) Lg Lp) as (rs & (A1 & A2 & A3 & A4 & A5) & L). cbn [t_bf t_gf t_vt t_pt t_size] in *.
    exists ({| row_size := sz; row_b := b; row_g := g; row_v := v; row_p := p |} :: rs). split; [|cbn; lia]. unfold rep. cbn [t_bf t_gf t_vt t_pt t_size map row_b row_v row_g row_p].
    split; [congruence|]. split; [congruence|]. split; [apply Xg; exact A3|]. split; [apply Xp; exact A4|]. constructor; [reflexivity|exact A5].
Qed.
Lemma ocol_take A (o : option (list A)) (h : prow -> option A) rs idx out : ocol o (map h rs) -> take rs idx = Ok out ->
  exists o', optM (fun c => take c idx) o = Ok o' /\ ocol o' (map h out) /\ (o = None <-> o' = None).
Proof.
  intros H T. destruct o as [c|]; cbn in *.
  - pose proof (take_map h T) as T'. rewrite H in T'. apply take_unmap in T'. destruct T' as (ys & E & F). rewrite E. exists (Some ys). split; [reflexivity|]. split; [exact F|]. split; discriminate.
  - exists None. split; [reflexivity|]. split; [|tauto]. apply Forall_forall. intros x Hx. apply in_map_iff in Hx. destruct Hx as (r & <- & Hr). rewrite Forall_forall in H. apply H. apply in_map_iff. exists r. split; [reflexivity|].
    clear H. revert out T Hr. unfold take. induction idx as [|i idx IH]; intros out T Hr; cbn in T; [injection T as <-; destruct Hr|]. apply bind_Ok in T. destruct T as (y & Hy & T). apply bind_Ok in T. destruct T as (q & Hq & T). injection T as <-.
    destruct Hr as [->|Hr]; [|eapply IH; eassumption]. unfold py_get in Hy. destruct (nth_error rs i) eqn:N; [|discriminate]. injection Hy as <-. eapply nth_error_In. exact N.
Qed.
Lemma rep_select (keep : prow -> bool) t rs : rep t rs ->
  exists t', select_table (flatnonzero (map keep rs)) t = Ok t' /\ rep t' (filter keep rs) /\ t_size t' = t_size t /\ (t_gf t = None <-> t_gf t' = None).
Proof.
  intros (Hb & Hv & Hg & Hp & Hs). pose proof (take_flat_filter keep rs) as T. unfold select_table. rewrite Hb, (take_map _ T). cbn [bind].
  destruct (ocol_take Hg T) as (g' & Eg & Cg & Ng). rewrite Eg. cbn [bind]. rewrite Hv, (take_map _ T). cbn [bind]. destruct (ocol_take Hp T) as (p' & Ep & Cp & _). rewrite Ep. cbn [bind].
  eexists. split; [reflexivity|]. cbn [t_size t_gf]. split; [|split; [reflexivity|exact Ng]]. unfold rep. cbn [t_bf t_vt t_gf t_pt t_size]. split; [reflexivity|]. split; [reflexivity|]. split; [exact Cg|]. split; [exact Cp|].
  apply Forall_forall. intros r Hr. apply filter_In in Hr. rewrite Forall_forall in Hs. apply Hs. tauto.
Qed.

Notation chan := (channel_row opt).
Lemma chan_columns rs : forall rs', mapM chan rs = Ok rs' ->
  match board_input_channels opt with None => Ok (map (@row_b _ _ _ _) rs) | Some f => mapM f (map (@row_b _ _ _ _) rs) end = Ok (map (@row_b _ _ _ _) rs')
  /\ match value_target_channels opt with None => Ok (map (@row_v _ _ _ _) rs) | Some f => mapM f (map (@row_v _ _ _ _) rs) end = Ok (map (@row_v _ _ _ _) rs')
  /\ map (@row_p _ _ _ _) rs' = map (@row_p _ _ _ _) rs /\ map (@row_size _ _ _ _) rs' = map (@row_size _ _ _ _) rs
  /\ match stm_input_channel opt with
     | None => map (@row_g _ _ _ _) rs' = map (@row_g _ _ _ _) rs
     | Some f => exists l l', map (@row_g _ _ _ _) rs = map Some l /\ mapM f l = Ok l' /\ map (@row_g _ _ _ _) rs' = map Some l'
     end.
Proof.
  induction rs as [|r rs IH]; intros rs' H; cbn [mapM] in H.
  - injection H as <-. cbn. destruct (board_input_channels opt), (value_target_channels opt), (stm_input_channel opt); repeat split; exists [], []; repeat split; reflexivity.
  - apply bind_Ok in H. destruct H as (r' & Hr & H). apply bind_Ok in H. destruct H as (q & Hq & H). injection H as <-. destruct (IH q Hq) as (A1 & A2 & A3 & A4 & A5). clear IH.
    unfold channel_row in Hr. apply bind_Ok in Hr. destruct Hr as (b & Hb & Hr). apply bind_Ok in Hr. destruct Hr as (g & Hg & Hr). apply bind_Ok in Hr. destruct Hr as (v & Hv & Hr). injection Hr as <-. cbn [map row_b row_v row_p row_size row_g].
    split; [destruct (board_input_channels opt) as [f|]; [cbn [mapM]; rewrite Hb; cbn [bind]; rewrite A1; reflexivity|congruence]|].
    split; [destruct (value_target_channels opt) as [f|]; [cbn [mapM]; rewrite Hv; cbn [bind]; rewrite A2; reflexivity|congruence]|].
    split; [congruence|]. split; [congruence|]. destruct (stm_input_channel opt) as [f|]; [|congruence]. destruct (row_g r) as [x|] eqn:Ex; [|discriminate]. apply bind_Ok in Hg. destruct Hg as (y & Hy & Hg). injection Hg as <-.
    destruct A5 as (l & l' & B1 & B2 & B3). exists (x :: l), (y :: l'). cbn [map mapM]. rewrite Hy, B2. cbn [bind]. split; [congruence|]. split; [reflexivity|congruence].
Qed.
Lemma Some_inj A (l m : list A) : map Some l = map Some m -> l = m.
Proof. revert m. induction l as [|a l IH]; intros [|b m] H; cbn in H; try discriminate; [reflexivity|]. injection H as -> H. f_equal. apply IH. exact H. Qed.
Lemma sizes_same (rs rs' : list prow) sz : map (@row_size _ _ _ _) rs' = map (@row_size _ _ _ _) rs -> Forall (fun r => row_size r = sz) rs -> Forall (fun r => row_size r = sz) rs'.
Proof.
  intros E H. rewrite Forall_forall in *. intros r Hr. assert (X : List.In (row_size r) (map (@row_size _ _ _ _) rs)) by (rewrite <- E; apply in_map; exact Hr). apply in_map_iff in X. destruct X as (q & Eq & Hq). rewrite <- Eq. apply H. exact Hq.
Qed.
Lemma rep_channels t rs rs' : rep t rs -> mapM chan rs = Ok rs' -> (stm_input_channel opt <> None -> t_gf t <> None) -> exists t', channels opt t = Ok t' /\ rep t' rs' /\ t_size t' = t_size t.
Proof.
  intros (Hb & Hv & Hg & Hp & Hs) H Hn. destruct (chan_columns H) as (A1 & A2 & A3 & A4 & A5). unfold channels. rewrite Hb, A1. cbn [bind].
  destruct (stm_input_channel opt) as [f|].
  - destruct (t_gf t) as [c|]; [|destruct Hn; [discriminate|reflexivity]]. destruct A5 as (l & l' & B1 & B2 & B3). cbn in Hg. rewrite Hg in B1. apply Some_inj in B1. subst l. rewrite B2. cbn [bind]. rewrite Hv, A2. cbn [bind].
    eexists. split; [reflexivity|]. split; [|reflexivity]. unfold rep. cbn [t_bf t_vt t_gf t_pt t_size]. split; [reflexivity|]. split; [reflexivity|]. split; [exact B3|]. split; [rewrite A3; exact Hp|]. eapply sizes_same; eassumption.
  - cbn [bind]. rewrite Hv, A2. cbn [bind]. eexists. split; [reflexivity|]. split; [|reflexivity]. unfold rep. cbn [t_bf t_vt t_gf t_pt t_size]. split; [reflexivity|]. split; [reflexivity|]. split; [rewrite A5; exact Hg|]. split; [rewrite A3; exact Hp|]. eapply sizes_same; eassumption.
Qed.
Lemma channels_rep t rs t' : rep t rs -> channels opt t = Ok t' -> exists rs', mapM chan rs = Ok rs' /\ rep t' rs'.
Proof.
  intros R H. assert (X : exists rs', mapM chan rs = Ok rs').
  { destruct R as (Hb & Hv & Hg & Hp & Hs). unfold channels in H. apply bind_Ok in H. destruct H as (b & Eb & H). apply bind_Ok in H. destruct H as (g & Eg & H). apply bind_Ok in H. destruct H as (v & Ev & H). clear H.
    rewrite Hb in Eb. rewrite Hv in Ev. apply mapM_total. intros r Hr. apply In_nth_error in Hr. destruct Hr as (i & Hi). unfold channel_row.
    assert (X1 : exists y, match board_input_channels opt with None => Ok (row_b r) | Some f => f (row_b r) end = Ok y).
    { destruct (board_input_channels opt) as [f|]; [|eexists; reflexivity]. destruct (mapM_nth (i := i) (a := row_b r) Eb) as (y & Y & _); [rewrite nth_error_map, Hi; reflexivity|]. exists y. exact Y. }
    assert (X2 : exists y, match value_target_channels opt with None => Ok (row_v r) | Some f => f (row_v r) end = Ok y).
    { destruct (value_target_channels opt) as [f|]; [|eexists; reflexivity]. destruct (mapM_nth (i := i) (a := row_v r) Ev) as (y & Y & _); [rewrite nth_error_map, Hi; reflexivity|]. exists y. exact Y. }
    assert (X3 : exists y, match stm_input_channel opt with None => Ok (row_g r) | Some f => match row_g r with None => Err ValueError | Some x => y <- f x ;; Ok (Some y) end end = Ok y).
    { destruct (stm_input_channel opt) as [f|]; [|eexists; reflexivity]. destruct (t_gf t) as [c|]; [|discriminate]. apply bind_Ok in Eg. destruct Eg as (c' & Ec & _). cbn in Hg.
      assert (N : nth_error (map Some c) i = Some (row_g r)) by (rewrite <- Hg, nth_error_map, Hi; reflexivity). rewrite nth_error_map in N. destruct (nth_error c i) as [x|] eqn:Nc; [|discriminate]. cbn in N. injection N as <-.
      destruct (mapM_nth (i := i) (a := x) Ec Nc) as (y & Y & _). rewrite Y. eexists. reflexivity. }
    destruct X1 as (y1 & ->). destruct X2 as (y2 & ->). destruct X3 as (y3 & ->). eexists. reflexivity. }
  destruct X as (rs' & X). exists rs'. split; [exact X|].
  destruct (rep_channels R X) as (t2 & E & R2 & _).
  - intros Hn N. unfold channels in H. rewrite N in H. destruct (stm_input_channel opt); [|congruence]. apply bind_Ok in H. destruct H as (b & _ & H). discriminate.
  - rewrite E in H. injection H as <-. exact R2.
Qed.
End Rows.
