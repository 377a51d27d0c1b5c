(** Facts about the numpy primitives of Decoder.v: gathers, scatters, masks. *)
From Verif Require Import Base BaseFacts Rng RngFacts Symmetry Checkpoint CheckpointFacts Decoder.
Set Implicit Arguments.
Unset Strict Implicit.

Lemma mapM_Ok_ext A B (f g : A -> res B) l : (forall a, In a l -> f a = g a) -> mapM f l = mapM g l.
Proof.
  induction l as [|a r IH]; intros H; cbn; [reflexivity|].
  rewrite (H a (or_introl eq_refl)), IH; [reflexivity|]. intros; apply H; now right.
Qed.

Lemma mapM_nth A B (f : A -> res B) l out i a :
  mapM f l = Ok out -> nth_error l i = Some a -> exists b, f a = Ok b /\ nth_error out i = Some b.
Proof.
  revert l out; induction i as [|i IH]; intros [|x r] out H Hi; cbn in *; try discriminate.
  - injection Hi as ->. destruct (f a) as [b|] eqn:E; [|discriminate]. cbn in H.
    destruct (mapM f r) as [bs|]; [|discriminate]. injection H as <-. now exists b.
  - destruct (f x) as [b|]; [|discriminate]. cbn in H.
    destruct (mapM f r) as [bs|] eqn:E; [|discriminate]. injection H as <-. cbn. eauto.
Qed.

Lemma mapM_len A B (f : A -> res B) l out : mapM f l = Ok out -> List.length out = List.length l.
Proof.
  revert out; induction l as [|x r IH]; intros out H; cbn in H; [now injection H as <-|].
  destruct (f x); [|discriminate]. cbn in H. destruct (mapM f r); [|discriminate]. injection H as <-. cbn. now rewrite (IH _ eq_refl).
Qed.

Lemma mapM_intro A B (f : A -> res B) l out :
  List.length out = List.length l ->
  (forall i a b, nth_error l i = Some a -> nth_error out i = Some b -> f a = Ok b) -> mapM f l = Ok out.
Proof.
  revert out; induction l as [|x r IH]; intros [|b out] HL H; cbn in *; try discriminate; [reflexivity|].
  rewrite (H 0%nat x b eq_refl eq_refl). cbn.
  rewrite (IH out); [reflexivity|lia|]. intros i a b' Ha Hb. exact (H (S i) a b' Ha Hb).
Qed.

Lemma mapM_total A B (f : A -> res B) l :
  (forall a, In a l -> exists b, f a = Ok b) -> exists out, mapM f l = Ok out.
Proof.
  induction l as [|x r IH]; intros H; cbn; [eauto|].
  destruct (H x (or_introl eq_refl)) as [b ->]. destruct IH as [out ->]; [intros; apply H; now right|]. cbn. eauto.
Qed.

Lemma mapM_app A B (f : A -> res B) l m :
  mapM f (l ++ m) = (a <- mapM f l ;; b <- mapM f m ;; Ok (a ++ b)).
Proof.
  induction l as [|x r IH]; cbn; [now destruct (mapM f m)|].
  destruct (f x); cbn; [|reflexivity]. rewrite IH. destruct (mapM f r); cbn; [|reflexivity].
  now destruct (mapM f m).
Qed.

Lemma list_ext A (l m : list A) : List.length l = List.length m ->
  (forall i a, nth_error l i = Some a -> nth_error m i = Some a) -> l = m.
Proof.
  revert m; induction l as [|x r IH]; intros [|y m] HL H; cbn in *; try discriminate; [reflexivity|].
  specialize (H 0%nat x eq_refl) as H0. cbn in H0. injection H0 as ->. f_equal.
  apply IH; [lia|]. intros i a Hi. exact (H (S i) a Hi).
Qed.

Lemma nth_error_in_range A (l : list A) i : (i < List.length l)%nat -> exists a, nth_error l i = Some a.
Proof. intros H. destruct (nth_error l i) eqn:E; [eauto|]. apply nth_error_None in E; lia. Qed.

(** ** masks *)
Lemma flat_aux mask k i :
  In i (map fst (filter snd (combine (seq k (List.length mask)) mask))) <->
  (k <= i)%nat /\ nth_error mask (i - k) = Some true.
Proof.
  revert k; induction mask as [|b m IH]; intros k; cbn.
  - split; [intros []|]. intros [_ H]. now destruct (i - k)%nat.
  - assert (Hs : In i (map fst (filter snd (combine (seq (S k) (List.length m)) m))) <->
                 (S k <= i)%nat /\ nth_error m (i - S k) = Some true) by apply IH.
    destruct b; cbn.
    + split.
      * intros [<-|H]; [rewrite Nat.sub_diag; split; [lia|reflexivity]|].
        apply Hs in H as [H1 H2]. split; [lia|]. replace (i - k)%nat with (S (i - S k)) by lia. exact H2.
      * intros [H1 H2]. destruct (Nat.eq_dec k i) as [->|Hn]; [now left|]. right. apply Hs. split; [lia|].
        replace (i - k)%nat with (S (i - S k)) in H2 by lia. exact H2.
    + rewrite Hs. split.
      * intros [H1 H2]. split; [lia|]. replace (i - k)%nat with (S (i - S k)) by lia. exact H2.
      * intros [H1 H2]. destruct (Nat.eq_dec k i) as [->|Hn]; [rewrite Nat.sub_diag in H2; discriminate|].
        split; [lia|]. replace (i - k)%nat with (S (i - S k)) in H2 by lia. exact H2.
Qed.

Lemma in_flatnonzero mask i : In i (flatnonzero mask) <-> nth_error mask i = Some true.
Proof. unfold flatnonzero. rewrite flat_aux, Nat.sub_0_r. split; [tauto|]. intros; split; [lia|assumption]. Qed.

Lemma in_flat_map A (p : A -> bool) l i :
  In i (flatnonzero (map p l)) <-> exists a, nth_error l i = Some a /\ p a = true.
Proof.
  rewrite in_flatnonzero, nth_error_map. destruct (nth_error l i) as [a|]; cbn.
  - split; [intros H; injection H as H; eauto|]. intros (b & E & H). injection E as <-. now rewrite H.
  - split; [discriminate|]. intros (a & E & _). discriminate.
Qed.

(** taking the selected rows is filtering *)
Lemma take_flat_filter A (p : A -> bool) l : take l (flatnonzero (map p l)) = Ok (filter p l).
Proof.
  unfold take, flatnonzero. rewrite map_length.
  enough (H : forall pre, mapM (py_get (pre ++ l)) (map fst (filter snd (combine (seq (List.length pre) (List.length l)) (map p l)))) = Ok (filter p l))
    by exact (H []).
  induction l as [|a r IH]; intros pre; [reflexivity|].
  cbn [List.length seq map combine filter]. specialize (IH (pre ++ [a])).
  rewrite <- app_assoc in IH. cbn [app] in IH. rewrite app_length in IH. cbn [List.length] in IH.
  replace (List.length pre + 1)%nat with (S (List.length pre)) in IH by lia.
  destruct (p a); cbn [filter snd map fst].
  - cbn [mapM]. unfold py_get at 1. rewrite nth_error_app2, Nat.sub_diag by lia. cbn [nth_error bind]. now rewrite IH.
  - exact IH.
Qed.

(** ** scatters *)
(** [out] agrees with [tgt] at the positions of [D]. *)
Definition agree A (out tgt : list A) (D : nat -> Prop) : Prop :=
  List.length out = List.length tgt /\ forall i, D i -> nth_error out i = nth_error tgt i.

Lemma agree_all A (out tgt : list A) (D : nat -> Prop) :
  agree out tgt D -> (forall i, (i < List.length tgt)%nat -> D i) -> out = tgt.
Proof.
  intros [HL H] HD. apply list_ext; [exact HL|]. intros i a Hi.
  rewrite <- (H i); [exact Hi|]. apply HD. rewrite <- HL. apply nth_error_Some. congruence.
Qed.

Lemma agree_empty A (junk : nat -> A) tgt n : n = List.length tgt -> agree (np_empty junk n) tgt (fun _ => False).
Proof. intros ->. split; [|tauto]. unfold np_empty. now rewrite map_length, seq_length. Qed.

Lemma agree_self A (l : list A) D : agree l l D.
Proof. split; auto. Qed.

Lemma put_rows_agree A (tgt : list A) ps : forall vs out D,
  mapM (py_get tgt) ps = Ok vs -> agree out tgt D ->
  exists out', put_rows out ps vs = Ok out' /\ agree out' tgt (fun i => D i \/ In i ps).
Proof.
  induction ps as [|p ps IH]; intros vs out D H [HL HA]; cbn in H.
  - injection H as <-. exists out. split; [reflexivity|]. split; [exact HL|]. intros i [Hi|[]]; auto.
  - destruct (py_get tgt p) as [v|] eqn:Ev; [|discriminate]. cbn in H.
    destruct (mapM (py_get tgt) ps) as [vs'|] eqn:E; [|discriminate]. injection H as <-.
    unfold py_get in Ev. destruct (nth_error tgt p) as [v'|] eqn:En; [|discriminate]. injection Ev as ->.
    assert (Hp : (p < List.length tgt)%nat) by (apply nth_error_Some; congruence).
    cbn [put_rows]. unfold py_set. rewrite HL. rewrite (proj2 (Nat.ltb_lt _ _) Hp). cbn [bind].
    destruct (IH vs' (upd out p v) (fun i => D i \/ i = p) eq_refl) as (out' & E1 & [HL' HA']).
    { split; [now rewrite upd_length|]. intros i Hi. destruct (Nat.eq_dec i p) as [->|Hn].
      - rewrite nth_error_upd. rewrite Nat.eqb_refl, HL, (proj2 (Nat.ltb_lt _ _) Hp). symmetry; exact En.
      - rewrite nth_error_upd. rewrite (proj2 (Nat.eqb_neq _ _) Hn). destruct Hi as [Hi|Hi]; [auto|contradiction]. }
    exists out'. split; [exact E1|]. split; [exact HL'|]. intros i Hi. apply HA'. destruct Hi as [Hi|[->|Hi]]; auto.
Qed.

Lemma put_agree A (tgt : list A) ps vs out D :
  mapM (py_get tgt) ps = Ok vs -> agree out tgt D ->
  exists out', put out ps vs = Ok out' /\ agree out' tgt (fun i => D i \/ In i ps).
Proof.
  intros H HA. unfold put. rewrite (mapM_len H), Nat.eqb_refl. now apply put_rows_agree.
Qed.

Lemma agree_weaken A (out tgt : list A) (D E : nat -> Prop) :
  agree out tgt D -> (forall i, E i -> D i) -> agree out tgt E.
Proof. intros [HL H] HE. split; auto. Qed.

(** a masked update: rows satisfying [p] (a predicate on row indices) are replaced *)
Lemma take_map A C (f : A -> C) l ps xs : take l ps = Ok xs -> take (map f l) ps = Ok (map f xs).
Proof.
  unfold take. revert xs; induction ps as [|p ps IH]; intros xs H; cbn in *; [injection H as <-; reflexivity|].
  unfold py_get in *. rewrite nth_error_map. destruct (nth_error l p) as [a|]; [|discriminate]. cbn in *.
  destruct (mapM _ ps) as [ys|]; [|discriminate]. injection H as <-. now rewrite (IH _ eq_refl).
Qed.

Lemma take_total A (l : list A) ps : (forall p, In p ps -> (p < List.length l)%nat) -> exists xs, take l ps = Ok xs.
Proof.
  intros H. apply mapM_total. intros p Hp. unfold py_get.
  destruct (nth_error_in_range (H p Hp)) as [a ->]. eauto.
Qed.

(** ** dedup and sorting *)
Lemma in_dedup A (eqb : A -> A -> bool) (Heq : forall a b, eqb a b = true <-> a = b) l a :
  In a (dedup eqb l) <-> In a l.
Proof.
  induction l as [|x r IH]; cbn; [tauto|]. rewrite filter_In, IH.
  split; [intros [->|[H _]]; auto|]. intros [->|H]; [now left|].
  destruct (eqb x a) eqn:E; [left; now apply Heq|right; split; [exact H|reflexivity]].
Qed.

Lemma nodup_dedup A (eqb : A -> A -> bool) (Heq : forall a b, eqb a b = true <-> a = b) l : NoDup (dedup eqb l).
Proof.
  induction l as [|x r IH]; cbn; constructor.
  - rewrite filter_In. intros [_ H]. rewrite (proj2 (Heq x x) eq_refl) in H. discriminate.
  - now apply NoDup_filter.
Qed.

Lemma in_insert_by A (lt : A -> A -> bool) x l a : In a (insert_by lt x l) <-> a = x \/ In a l.
Proof.
  induction l as [|y r IH]; cbn; [intuition congruence|]. destruct (lt y x); cbn; [rewrite IH|]; intuition congruence.
Qed.
Lemma in_sort_by A (lt : A -> A -> bool) l a : In a (sort_by lt l) <-> In a l.
Proof.
  unfold sort_by. induction l as [|y r IH]; cbn; [tauto|]. rewrite in_insert_by, IH. intuition congruence.
Qed.
Lemma in_unique l a : In a (np_unique l) <-> In a l.
Proof. unfold np_unique. rewrite in_sort_by. apply in_dedup. intros; apply Nat.eqb_eq. Qed.

(** ** slices *)
Lemma py_slice_nth A (l : list A) start n i :
  0 <= start -> start + n <= zlen l -> 0 <= n -> (i < Z.to_nat n)%nat ->
  nth_error (py_slice l start (start + n)) i = nth_error l (Z.to_nat start + i).
Proof.
  unfold zlen. intros H0 H1 H2 Hi. unfold py_slice, zlen.
  replace (start <? 0) with false by lia. replace (start + n <? 0) with false by lia.
  rewrite !Z.max_r by lia. rewrite !Z.min_r by lia.
  replace (Z.to_nat (start + n) - Z.to_nat start)%nat with (Z.to_nat n) by lia.
  set (k := Z.to_nat start). clearbody k. set (m := Z.to_nat n) in *. clearbody m. clear -Hi.
  revert m i Hi l; induction k as [|k IH]; intros m i Hi l.
  - cbn. revert i Hi l; induction m as [|m IHm]; intros i Hi l; [lia|]. destruct l as [|a l]; [now destruct i|].
    destruct i; cbn; [reflexivity|]. apply IHm. lia.
  - destruct l as [|a l]; cbn; [rewrite firstn_nil; now destruct i|]. apply IH. lia.
Qed.
Lemma py_slice_len A (l : list A) start n :
  0 <= start -> start + n <= zlen l -> 0 <= n -> List.length (py_slice l start (start + n)) = Z.to_nat n.
Proof.
  unfold zlen. intros H0 H1 H2. unfold py_slice, zlen.
  replace (start <? 0) with false by lia. replace (start + n <? 0) with false by lia.
  rewrite !Z.max_r by lia. rewrite !Z.min_r by lia. rewrite firstn_length, skipn_length. lia.
Qed.

Lemma py_index_nat A (l : list A) i : 0 <= i -> py_index l i = py_get l (Z.to_nat i).
Proof. intros H. unfold py_index. now rewrite (proj2 (Z.leb_le _ _) H). Qed.

Lemma combine_nth_error A C (l : list A) (m : list C) i :
  nth_error (combine l m) i =
  match nth_error l i, nth_error m i with Some a, Some b => Some (a, b) | _, _ => None end.
Proof.
  revert m i; induction l as [|x r IH]; intros [|y m] [|i]; cbn; try reflexivity.
  - now destruct (nth_error r i).
  - apply IH.
Qed.
Lemma nth_error_seq k n i : nth_error (seq k n) i = if (i <? n)%nat then Some (k + i)%nat else None.
Proof.
  revert k i; induction n as [|n IH]; intros k [|i]; cbn [seq nth_error]; try reflexivity.
  - now rewrite Nat.add_0_r.
  - rewrite IH. change (S i <? S n)%nat with (i <? n)%nat. destruct (i <? n)%nat; [|reflexivity].
    f_equal. symmetry. apply Nat.add_succ_r.
Qed.
