(** Facts about the pipeline composer: declared fields, one stage, the chain, the blob. *)
From Verif Require Import Base BaseFacts Rng RngFacts Checkpoint Json JsonFacts StateCodec StateCodecSpec StateCodecFacts
  DecoderFacts DecoderBatch FieldDigest FieldDigestFacts Composer ComposerSpec Prop_StateCodec.
Set Implicit Arguments. Unset Strict Implicit.

Lemma has_in l k : has l k = true <-> In k l.
Proof.
  unfold has. rewrite existsb_exists. split.
  - intros (x & Hx & E). apply ustr_eqb_eq in E. subst. exact Hx.
  - intros H. exists k. split; [exact H|apply ustr_eqb_refl].
Qed.
Lemma has_false l k : has l k = false <-> ~ In k l.
Proof. rewrite <- has_in. destruct (has l k); split; congruence. Qed.
Lemma distinct_NoDup l : distinct l = true <-> NoDup l.
Proof.
  induction l as [|x l IH]; cbn [distinct]; [split; [constructor|reflexivity]|].
  rewrite andb_true_iff, negb_true_iff, has_false, IH. split.
  - intros [H1 H2]. constructor; assumption.
  - intros H. inversion H; subst. auto.
Qed.
Lemma no_common l m : existsb (has l) m = false <-> forall k, In k m -> ~ In k l.
Proof.
  split.
  - intros H k Hk Hl. apply not_true_iff_false in H. apply H. apply existsb_exists. exists k. split; [exact Hk|apply has_in; exact Hl].
  - intros H. apply not_true_iff_false. intros E. apply existsb_exists in E. destruct E as (k & Hk & E). apply has_in in E. apply (H k); assumption.
Qed.
Lemma obj_get_in (A : Type) (d : list (ustr * A)) k v : obj_get d k = Some v -> In (k, v) d.
Proof.
  induction d as [|[k' v'] d IH]; cbn [obj_get]; [discriminate|].
  destruct (ustr_eqb k k') eqn:E; [apply ustr_eqb_eq in E; subst; intros H; injection H as <-; left; reflexivity|right; auto].
Qed.
Lemma obj_get_key (A : Type) (d : list (ustr * A)) k : In k (dkeys d) <-> exists v, obj_get d k = Some v.
Proof.
  unfold dkeys. induction d as [|[k' v'] d IH]; cbn [obj_get map fst In].
  - split; [tauto|]. intros (v & H). discriminate.
  - destruct (ustr_eqb k k') eqn:E.
    + apply ustr_eqb_eq in E. subst. split; eauto.
    + apply ustr_eqb_neq in E. rewrite IH. split; [intros [H|H]; [congruence|exact H]|auto].
Qed.
Lemma obj_get_none (A : Type) (d : list (ustr * A)) k : obj_get d k = None <-> ~ In k (dkeys d).
Proof.
  rewrite obj_get_key. destruct (obj_get d k) as [v|]; split; try congruence.
  - intros H. exfalso. apply H. eauto.
  - intros _ (v & H). discriminate.
Qed.
Lemma obj_get_nodup (A : Type) (d : list (ustr * A)) k v : NoDup (dkeys d) -> In (k, v) d -> obj_get d k = Some v.
Proof.
  unfold dkeys. induction d as [|[k' v'] d IH]; cbn [obj_get map fst]; intros N H; [destruct H|]. inversion N as [|? ? N1 N2]; subst.
  destruct (ustr_eqb k k') eqn:E.
  - apply ustr_eqb_eq in E. subst. destruct H as [H|H]; [congruence|]. exfalso. apply N1. apply (in_map fst) in H. exact H.
  - apply ustr_eqb_neq in E. destruct H as [H|H]; [congruence|]. apply IH; assumption.
Qed.
Lemma mapM_all_ok (A B : Type) (f : A -> res B) l : (exists r, mapM f l = Ok r) <-> forall a, In a l -> exists b, f a = Ok b.
Proof.
  split.
  - intros (r & H) a Ha. destruct (mapM_out_in H Ha) as (c & _ & E). eauto.
  - induction l as [|x l IH]; intros H; [exists []; reflexivity|]. destruct (H x) as (b & E); [left; reflexivity|].
    destruct IH as (r & Er); [intros a Ha; apply H; right; exact Ha|]. exists (b :: r). cbn [mapM]. rewrite E. cbn [bind]. rewrite Er. reflexivity.
Qed.

(** ** Declared fields *)
Section Fields.
Variable asarray : fv -> res (list Z * Z).
Variable int_pairs : fv -> list (Z * Z).
Variable row_equal : fv -> nat -> bool.

Lemma spatial_axis_ok sc rank axis a : spatial_axis sc rank axis = Ok a <-> placed sc rank axis a.
Proof.
  unfold spatial_axis, placed. cbv zeta.
  set (x := match sc with PerSample => if 0 <=? axis then axis + 1 else rank + axis | BatchShared => if 0 <=? axis then axis else rank + axis end).
  assert (X : forall a, (axis < 0 /\ a = rank + axis \/ 0 <= axis /\ a = axis + match sc with PerSample => 1 | BatchShared => 0 end) <-> a = x).
  { intros y. unfold x. destruct sc, (0 <=? axis) eqn:E; lia. }
  rewrite X. destruct ((0 <=? x) && (x <? rank)) eqn:E; split; intros H.
  - injection H as <-. split; [reflexivity|lia].
  - destruct H as [-> _]. reflexivity.
  - discriminate.
  - exfalso. destruct H as [-> H]. lia.
Qed.
Lemma axes_ok sc rank l axes : mapM (spatial_axis sc rank) l = Ok axes <-> Forall2 (placed sc rank) l axes.
Proof.
  split.
  - revert axes. induction l as [|x l IH]; intros axes H; cbn [mapM] in H; [injection H as <-; constructor|].
    inv_bind H. inv_bind H. injection H as <-. constructor; [apply spatial_axis_ok; exact Hm|apply IH; exact Hm0].
  - induction 1 as [|x a l axes P _ IH]; [reflexivity|]. cbn [mapM]. rewrite (proj2 (spatial_axis_ok _ _ _ _) P). cbn [bind]. rewrite IH. reflexivity.
Qed.
Lemma boards_ok data n boards : board_sizes_of asarray int_pairs data n = Ok boards <-> boards_are asarray int_pairs data n boards.
Proof.
  unfold board_sizes_of, boards_are. destruct (obj_get data (ulit "board_size")) as [v|].
  - destruct (view asarray v) as [[shape kind]|e]; cbn [bind].
    + split.
      * intros H. injection H as <-. exists shape, kind. split; [reflexivity|]. destruct (ustr_eqb shape [n; 2]) eqn:E; [apply ustr_eqb_eq in E|apply ustr_eqb_neq in E]; auto.
      * intros (s & k & E & H). injection E as <- <-. destruct H as [[-> ->]|[N ->]]; [rewrite ustr_eqb_refl; reflexivity|].
        apply ustr_eqb_neq in N. rewrite N. reflexivity.
    + split; [discriminate|]. intros (s & k & E & _). discriminate.
  - split; [intros H; injection H as <-; reflexivity|intros ->; reflexivity].
Qed.
Lemma from_end_two s h w : from_end s 1 = Ok h -> from_end s 0 = Ok w -> exists pre, s = pre ++ [h; w].
Proof.
  unfold from_end. intros H1 H2. destruct (rev s) as [|b [|a l]] eqn:E; try discriminate. cbn in H1, H2. injection H1 as <-. injection H2 as <-.
  exists (rev l). rewrite <- (rev_involutive s), E. cbn [rev]. rewrite <- app_assoc. reflexivity.
Qed.
Lemma from_end_app pre h w : from_end (pre ++ [h; w]) 1 = Ok h /\ from_end (pre ++ [h; w]) 0 = Ok w.
Proof. unfold from_end. rewrite rev_app_distr. cbn. auto. Qed.
Lemma lead_ok (s : list Z) (n : Z) : match s with [] => false | x :: _ => x =? n end = true <-> exists rest, s = n :: rest.
Proof.
  destruct s as [|x s]; split; try discriminate.
  - intros (r & E). discriminate.
  - intros E. apply Z.eqb_eq in E. subst. eauto.
  - intros (r & E). injection E as -> _. apply Z.eqb_refl.
Qed.

(** Each check of [validate_field] as a proposition. *)
Definition scope_check (n : Z) (sp : field_spec) (v : fv) (shape : list Z) : res unit :=
  match f_scope sp with
  | PerSample =>
      guard match shape with [] => false | s :: _ => s =? n end else ValueError ;;
      guard match f_collate sp with AsList => is_list v && (rows_of v =? n) | _ => true end else ValueError ;;
      Ok tt
  | BatchShared =>
      guard match f_collate sp with AsList => is_list v | _ => true end else ValueError ;;
      guard match shape with [] => false | s :: _ => s =? n end else ValueError ;;
      guard 0 <? n else IndexError ;;
      guard forallb (row_equal v) (seq 1 (Z.to_nat n - 1)) else ValueError ;;
      Ok tt
  end.
Lemma rows_ok v n : 0 < n -> (forallb (row_equal v) (seq 1 (Z.to_nat n - 1)) = true <-> forall i, (0 < i < Z.to_nat n)%nat -> row_equal v i = true).
Proof.
  intros Hn. rewrite forallb_forall. split; intros H i Hi.
  - apply H. apply in_seq. lia.
  - apply H. apply in_seq in Hi. lia.
Qed.
Lemma scope_ok n sp v shape : scope_check n sp v shape = Ok tt <->
  (exists rest, shape = n :: rest) /\
  (f_collate sp = AsList -> is_list v = true /\ (f_scope sp = PerSample -> rows_of v = n)) /\
  (f_scope sp = BatchShared -> 0 < n /\ forall i, (0 < i < Z.to_nat n)%nat -> row_equal v i = true).
Proof.
  unfold scope_check. rewrite <- lead_ok. destruct (f_scope sp).
  - destruct (match shape with [] => false | s :: _ => s =? n end); [|split; [discriminate|intros (H & _); discriminate]].
    destruct (f_collate sp); try (split; [intros _; repeat split; try discriminate; auto; intros; discriminate|reflexivity]).
    destruct (is_list v) eqn:L; cbn [andb]; [|split; [discriminate|intros (_ & H & _); destruct (H eq_refl); discriminate]].
    destruct (rows_of v =? n) eqn:E; split; intros H; try reflexivity; try discriminate.
    + repeat split; try discriminate; intros; lia.
    + destruct H as (_ & H & _). destruct (H eq_refl) as (_ & X). specialize (X eq_refl). lia.
  - assert (X : (guard match shape with [] => false | s :: _ => s =? n end else ValueError ;;
      guard 0 <? n else IndexError ;; guard forallb (row_equal v) (seq 1 (Z.to_nat n - 1)) else ValueError ;; Ok tt) = Ok tt <->
      match shape with [] => false | s :: _ => s =? n end = true /\ 0 < n /\ forall i, (0 < i < Z.to_nat n)%nat -> row_equal v i = true).
    { destruct (match shape with [] => false | s :: _ => s =? n end); [|split; [discriminate|intros (H & _); discriminate]].
      destruct (0 <? n) eqn:Hn; [|split; [discriminate|intros (_ & H & _); lia]]. assert (Hn' : 0 < n) by lia.
      destruct (forallb (row_equal v) (seq 1 (Z.to_nat n - 1))) eqn:F; split; intros H; try discriminate; try reflexivity.
      - repeat split; [exact Hn'|]. apply rows_ok; assumption.
      - exfalso. destruct H as (_ & _ & H). apply rows_ok in H; [congruence|exact Hn']. }
    destruct (f_collate sp); try (rewrite X; clear X; split; [intros (H1 & H2 & H3); repeat split; auto; try discriminate|intros (H1 & H2 & H3); destruct (H3 eq_refl); auto]).
    destruct (is_list v) eqn:L; [|split; [discriminate|intros (_ & H & _); destruct (H eq_refl); discriminate]].
    rewrite X; clear X; split; [intros (H1 & H2 & H3); repeat split; auto; try discriminate|intros (H1 & H2 & H3); destruct (H3 eq_refl); auto].
Qed.
Definition board_fits (physical : list Z) (hw : Z * Z) : bool :=
  match physical with [] => true | [a] => fst hw <=? a | a :: b :: _ => (fst hw <=? a) && (snd hw <=? b) end.
Lemma board_fits_ok shape axes h w : board_fits (map (dim shape) axes) (h, w) = true <->
  (forall a, nth_error axes 0 = Some a -> h <= dim shape a) /\ (forall a, nth_error axes 1 = Some a -> w <= dim shape a).
Proof.
  destruct axes as [|a [|b axes]]; cbn [map board_fits fst snd nth_error].
  - split; [intros _; split; discriminate|reflexivity].
  - rewrite Z.leb_le. split; [intros H; split; [intros x E; injection E as <-; exact H|discriminate]|intros (H & _); apply H; reflexivity].
  - rewrite andb_true_iff, !Z.leb_le. split.
    + intros (H1 & H2). split; intros x E; injection E as <-; assumption.
    + intros (H1 & H2). split; auto.
Qed.
Definition boards_check (boards : option (list (Z * Z))) (shape axes : list Z) : res unit :=
  match boards with
  | Some bs => let physical := map (dim shape) axes in guard forallb (board_fits physical) bs else ValueError ;; Ok tt
  | None => Ok tt
  end.
Lemma boards_check_ok boards shape axes : boards_check boards shape axes = Ok tt <->
  forall bs h w, boards = Some bs -> In (h, w) bs ->
    (forall a, nth_error axes 0 = Some a -> h <= dim shape a) /\ (forall a, nth_error axes 1 = Some a -> w <= dim shape a).
Proof.
  unfold boards_check. destruct boards as [bs|]; [|split; [intros _; discriminate|reflexivity]]. cbv zeta.
  destruct (forallb (board_fits (map (dim shape) axes)) bs) eqn:F; split; intros H; try reflexivity; try discriminate.
  - intros bs' h w E Hin. injection E as <-. rewrite forallb_forall in F. apply board_fits_ok. apply F. exact Hin.
  - exfalso. apply not_true_iff_false in F. apply F. apply forallb_forall. intros (h & w) Hin. apply board_fits_ok. apply (H bs h w eq_refl Hin).
Qed.
Definition side_check (sp : field_spec) (shape axes : list Z) : res unit :=
  match f_side sp with
  | None => Ok tt
  | Some axis =>
      a <- spatial_axis (f_scope sp) (zlen shape) axis ;;
      guard 0 <? dim shape a else ValueError ;;
      guard negb (existsb (Z.eqb a) axes) else ValueError ;;
      Ok tt
  end.
Lemma existsb_eqb a l : existsb (Z.eqb a) l = true <-> In a l.
Proof. rewrite existsb_exists. split; [intros (x & H & E); apply Z.eqb_eq in E; subst; exact H|intros H; exists a; split; [exact H|apply Z.eqb_refl]]. Qed.
Lemma side_ok sp shape axes : side_check sp shape axes = Ok tt <->
  forall axis, f_side sp = Some axis -> exists a, placed (f_scope sp) (zlen shape) axis a /\ 0 < dim shape a /\ ~ In a axes.
Proof.
  unfold side_check. destruct (f_side sp) as [axis|]; [|split; [intros _; discriminate|reflexivity]].
  split; intros H.
  - intros x E. injection E as <-. inv_bind H. apply guard_Ok in H. destruct H as [H1 H]. apply guard_Ok in H. destruct H as [H2 _].
    exists v. split; [apply spatial_axis_ok; exact Hm|]. split; [lia|]. rewrite <- existsb_eqb. apply negb_true_iff in H2. congruence.
  - destruct (H axis eq_refl) as (a & P & D & N). rewrite (proj2 (spatial_axis_ok _ _ _ _) P). cbn [bind].
    replace (0 <? dim shape a) with true by lia. rewrite <- existsb_eqb in N. apply not_true_iff_false in N. rewrite N. reflexivity.
Qed.
Definition transform_check (data : fields) (boards : option (list (Z * Z))) (sp : field_spec) (shape : list Z) : res unit :=
  match f_transform sp with
  | Plain => Ok tt
  | BoardPolicy =>
      match boards with
      | None => Err ValueError
      | Some bs =>
          input <- match obj_get data (ulit "board_input") with Some x => Ok x | None => Err KeyError end ;;
          ishape <- shape_attr input ;;
          h <- from_end ishape 1 ;;
          w <- from_end ishape 0 ;;
          let spatial_policy := match shape with
                                | [_; a; b] => forallb (fun hw => (fst hw =? a) && (snd hw =? b)) bs
                                | _ => false
                                end in
          let flat_policy := match shape with
                             | [_; a] => forallb (fun hw => (a =? fst hw * snd hw) || (a =? fst hw * snd hw + 1) ||
                                                            (a =? h * w) || (a =? h * w + 1)) bs
                             | _ => false
                             end in
          guard spatial_policy || flat_policy else ValueError ;; Ok tt
      end
  | FlatPolicyWithPass =>
      match boards with
      | None => Err ValueError
      | Some bs =>
          guard match shape with
                | [_; a] => forallb (fun hw => a =? fst hw * snd hw + 1) bs
                | _ => false
                end else ValueError ;; Ok tt
      end
  | Moves => guard match f_collate sp with AsList => true | _ => false end else ValueError ;; Ok tt
  end.
Lemma forallb_pairs (f : Z * Z -> bool) (P : Z -> Z -> Prop) bs : (forall h w, f (h, w) = true <-> P h w) ->
  (forallb f bs = true <-> forall h w, In (h, w) bs -> P h w).
Proof.
  intros E. rewrite forallb_forall. split.
  - intros H h w Hin. apply E. apply H. exact Hin.
  - intros H (h & w) Hin. apply E. apply H. exact Hin.
Qed.
Lemma transform_ok data boards sp shape : transform_check data boards sp shape = Ok tt <->
  match f_transform sp with
  | Plain => True
  | BoardPolicy => exists bs input ishape ih iw pre, boards = Some bs /\ obj_get data (ulit "board_input") = Some input /\
      shape_attr input = Ok ishape /\ ishape = pre ++ [ih; iw] /\
      ((exists r a b, shape = [r; a; b] /\ forall h w, In (h, w) bs -> h = a /\ w = b) \/
       (exists r a, shape = [r; a] /\ forall h w, In (h, w) bs -> In a [h * w; h * w + 1; ih * iw; ih * iw + 1]))
  | FlatPolicyWithPass => exists bs r a, boards = Some bs /\ shape = [r; a] /\ forall h w, In (h, w) bs -> a = h * w + 1
  | Moves => f_collate sp = AsList
  end.
Proof.
  unfold transform_check. destruct (f_transform sp).
  - tauto.
  - destruct boards as [bs|]; [|split; [discriminate|intros (bs & a & b & c & d & e & H & _); discriminate]].
    assert (X : forall ih iw,
      (match shape with [_; a; b] => forallb (fun hw : Z * Z => (fst hw =? a) && (snd hw =? b)) bs | _ => false end ||
       match shape with [_; a] => forallb (fun hw : Z * Z => (a =? fst hw * snd hw) || (a =? fst hw * snd hw + 1) || (a =? ih * iw) || (a =? ih * iw + 1)) bs | _ => false end = true)
      <-> ((exists r a b, shape = [r; a; b] /\ forall h w, In (h, w) bs -> h = a /\ w = b) \/
       (exists r a, shape = [r; a] /\ forall h w, In (h, w) bs -> In a [h * w; h * w + 1; ih * iw; ih * iw + 1]))).
    { intros ih iw. rewrite orb_true_iff. apply or_iff_compat_1 || idtac.
      assert (P1 : match shape with [_; a; b] => forallb (fun hw : Z * Z => (fst hw =? a) && (snd hw =? b)) bs | _ => false end = true <->
                   (exists r a b, shape = [r; a; b] /\ forall h w, In (h, w) bs -> h = a /\ w = b)).
      { destruct shape as [|r [|a [|b [|c s]]]]; try (split; [discriminate|intros (r' & a' & b' & E & _); discriminate]).
        rewrite (@forallb_pairs _ (fun h w => h = a /\ w = b)) by (intros h w; cbn [fst snd]; lia).
        split; [intros H; exists r, a, b; auto|intros (r' & a' & b' & E & H); injection E as -> -> ->; exact H]. }
      assert (P2 : match shape with [_; a] => forallb (fun hw : Z * Z => (a =? fst hw * snd hw) || (a =? fst hw * snd hw + 1) || (a =? ih * iw) || (a =? ih * iw + 1)) bs | _ => false end = true <->
                   (exists r a, shape = [r; a] /\ forall h w, In (h, w) bs -> In a [h * w; h * w + 1; ih * iw; ih * iw + 1])).
      { destruct shape as [|r [|a [|b s]]]; try (split; [discriminate|intros (r' & a' & E & _); discriminate]).
        rewrite (@forallb_pairs _ (fun h w => In a [h * w; h * w + 1; ih * iw; ih * iw + 1])).
        2:{ intros h w. cbn [fst snd In]. rewrite !orb_true_iff, !Z.eqb_eq. clear. intuition congruence. }
        split; [intros H; exists r, a; auto|intros (r' & a' & E & H); injection E as -> ->; exact H]. }
      rewrite P1, P2. reflexivity. }
    split; intros H.
    + inv_bind H. inv_bind H. inv_bind H. inv_bind H. cbv zeta in H. apply guard_Ok in H. destruct H as [H _]. apply X in H.
      destruct (obj_get data (ulit "board_input")) as [input|]; [|discriminate]. injection Hm as <-.
      destruct (from_end_two Hm1 Hm2) as (pre & E). exists bs, input, v0, v1, v2, pre. auto.
    + destruct H as (bs' & input & ishape & ih & iw & pre & E & Ei & Es & -> & H). injection E as <-. rewrite Ei. cbn [bind]. rewrite Es. cbn [bind].
      destruct (from_end_app pre ih iw) as (-> & ->). cbn [bind]. cbv zeta. apply X in H. rewrite H. reflexivity.
  - destruct boards as [bs|]; [|split; [discriminate|intros (bs & a & b & H & _); discriminate]].
    destruct shape as [|r [|a [|b s]]]; try (split; [discriminate|intros (bs' & r' & a' & E' & E & _); discriminate]).
    pose proof (@forallb_pairs (fun hw => a =? fst hw * snd hw + 1) (fun h w => a = h * w + 1) bs) as X.
    specialize (X ltac:(intros h w; cbn [fst snd]; rewrite Z.eqb_eq; reflexivity)).
    destruct (forallb (fun hw => a =? fst hw * snd hw + 1) bs); split; intros H; try reflexivity; try discriminate.
    + exists bs, r, a. split; [reflexivity|]. split; [reflexivity|]. apply X. reflexivity.
    + destruct H as (bs' & r' & a' & E & E2 & H). injection E as <-. injection E2 as -> ->. apply X in H. discriminate.
  - destruct (f_collate sp); split; intros H; try discriminate; reflexivity.
Qed.

Lemma unit_bind (m : res unit) (A : Type) (k : res A) r : (_ <- m ;; k) = Ok r <-> m = Ok tt /\ k = Ok r.
Proof.
  destruct m as [[]|e]; cbn [bind]; split; intros H; auto; try discriminate; try (destruct H; discriminate).
  destruct H as [_ H]. exact H.
Qed.
Lemma field_ok data boards n sp :
  validate_field asarray row_equal data boards n sp = Ok tt <->
  match obj_get data (f_name sp) with None => f_required sp = false | Some v => conforms asarray row_equal data boards n sp v end.
Proof.
  unfold validate_field. destruct (obj_get data (f_name sp)) as [v|].
  2:{ destruct (f_required sp); cbn; split; intros H; try discriminate; reflexivity. }
  fold (scope_check n sp v). unfold conforms.
  destruct (view asarray v) as [[shape kind]|e]; cbn [bind].
  2:{ split; [discriminate|]. intros (s & k & E & _). discriminate. }
  assert (X : (guard existsb (Z.eqb kind) (f_kinds sp) else ValueError ;;
               _ <- scope_check n sp v shape ;;
               axes <- mapM (spatial_axis (f_scope sp) (zlen shape)) (f_spatial sp) ;;
               _ <- boards_check boards shape axes ;; _ <- side_check sp shape axes ;; transform_check data boards sp shape) = Ok tt <->
    In kind (f_kinds sp) /\ scope_check n sp v shape = Ok tt /\
    (exists axes, Forall2 (placed (f_scope sp) (zlen shape)) (f_spatial sp) axes /\ boards_check boards shape axes = Ok tt /\ side_check sp shape axes = Ok tt) /\
    transform_check data boards sp shape = Ok tt).
  { rewrite <- existsb_eqb. destruct (existsb (Z.eqb kind) (f_kinds sp)); [|split; [discriminate|intros (H & _); discriminate]].
    rewrite unit_bind. split.
    - intros (H1 & H). inv_bind H. rewrite !unit_bind in H. destruct H as (H2 & H3 & H4). split; [reflexivity|]. split; [exact H1|]. split; [|exact H4].
      exists v0. split; [apply axes_ok; exact Hm|auto].
    - intros (_ & H1 & (axes & Ha & Hb & Hs) & Ht). split; [exact H1|]. apply axes_ok in Ha. rewrite Ha. cbn [bind]. rewrite Hb, Hs. cbn [bind]. exact Ht. }
  refine (iff_trans X _). clear X. rewrite scope_ok, transform_ok. split.
  - intros (H1 & (H2 & H3 & H4) & (axes & Ha & Hb & Hs) & Ht). exists shape, kind. split; [reflexivity|].
    split; [exact H1|]. split; [exact H2|]. split; [exact H3|]. split; [exact H4|]. split; [|exact Ht].
    exists axes. split; [exact Ha|]. split; [apply boards_check_ok; exact Hb|apply side_ok; exact Hs].
  - intros (s & k & E & H1 & H2 & H3 & H4 & (axes & Ha & Hb & Hs) & Ht). injection E as <- <-.
    split; [exact H1|]. split; [auto|]. split; [|exact Ht]. exists axes. split; [exact Ha|]. split; [apply boards_check_ok; exact Hb|apply side_ok; exact Hs].
Qed.
Lemma validate_ok data specs n : validate_fields asarray int_pairs row_equal data specs n = Ok tt <-> fields_ok asarray int_pairs row_equal data specs n.
Proof.
  unfold validate_fields, fields_ok. split.
  - intros H. inv_bind H. inv_bind H. exists v. split; [apply boards_ok; exact Hm|]. intros sp Hsp.
    apply field_ok. destruct (mapM_out_in Hm0 Hsp) as ([] & _ & E). exact E.
  - intros (boards & Hb & H). apply boards_ok in Hb. rewrite Hb. cbn [bind].
    destruct (proj2 (mapM_all_ok (validate_field asarray row_equal data boards n) specs)) as (r & ->); [|reflexivity].
    intros sp Hsp. exists tt. apply field_ok. apply H. exact Hsp.
Qed.
End Fields.
