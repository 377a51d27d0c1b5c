(** Which files the operations of a save touch, and what they leave behind. *)
From Coq Require Import Ascii String Sorted Permutation.
From Verif Require Import Base BaseFacts Checkpoint CheckpointFacts CheckpointSet.
Set Implicit Arguments.
Unset Strict Implicit.

(** ** Operations and the paths they touch *)
Section Ops.
Variable obj : Type.
Implicit Types d : disk obj.

Definition touches (o : op obj) (p : str) : Prop :=
  match o with
  | Write q _ => p = q | Replace a b => p = a \/ p = b | Link _ b => p = b | Remove a => p = a
  end.
Definition local (K : str -> Prop) (o : op obj) : Prop :=
  match o with Write q _ => K q | Replace a b => K a /\ K b | Link a b => K a /\ K b | Remove a => K a end.

Lemma run_op_untouched d o p : ~ touches o p -> run_op d o p = d p.
Proof.
  destruct o as [q c|a b|a b|a]; cbn; intros H.
  - apply put_other. exact H.
  - destruct (d a) eqn:E; [|reflexivity]. rewrite put_other, put_other by tauto. reflexivity.
  - destruct (d a); [|reflexivity]. destruct (d b); [reflexivity|]. apply put_other. exact H.
  - apply put_other. exact H.
Qed.
Lemma run_ops_untouched l : forall d p, (forall o, In o l -> ~ touches o p) -> run_ops d l p = d p.
Proof.
  induction l as [|o l IH]; intros d p H; [reflexivity|]. change (run_ops (run_op d o) l p = d p).
  rewrite IH by (intros; apply H; right; assumption). apply run_op_untouched. apply H. left. reflexivity.
Qed.
Lemma in_firstn (A : Type) k (l : list A) x : In x (firstn k l) -> In x l.
Proof. intros H. rewrite <- (firstn_skipn k l). apply in_or_app. left. exact H. Qed.

Lemma run_op_agree K d1 d2 o : local K o -> (forall p, K p -> d1 p = d2 p) -> forall p, K p -> run_op d1 o p = run_op d2 o p.
Proof.
  intros Hl H p Hp. assert (Pp : forall (e1 e2 : disk obj) q c, (forall p, K p -> e1 p = e2 p) -> forall p, K p -> put e1 q c p = put e2 q c p).
  { intros e1 e2 q c He r Hr. unfold put. destruct (str_eqb r q); auto. }
  destruct o as [q c|a b|a b|a]; cbn in *.
  - apply Pp; auto.
  - destruct Hl as [Ha Hb]. rewrite (H a Ha). destruct (d2 a); [|auto]. apply Pp; auto.
  - destruct Hl as [Ha Hb]. rewrite (H a Ha), (H b Hb). destruct (d2 a); [|auto]. destruct (d2 b); [auto|]. apply Pp; auto.
  - apply Pp; auto.
Qed.

(** The operations of one rank act as if the others did not exist. *)
Lemma interleave_local ls rt : interleave ls rt -> forall r l K, nth_error ls r = Some l ->
  (forall o, In o l -> local K o) ->
  (forall r1 l1 o p, r1 <> r -> nth_error ls r1 = Some l1 -> In o l1 -> K p -> ~ touches o p) ->
  forall d1 d2, (forall p, K p -> d1 p = d2 p) -> forall p, K p -> run_ops d1 rt p = run_ops d2 l p.
Proof.
  induction 1 as [ls Hall|ls r0 x l0 t Hx Hil IH]; intros r l K Hr Hl Ho d1 d2 Hd p Hp.
  - rewrite Forall_forall in Hall. rewrite (Hall l) by (eapply nth_error_In; eassumption). apply Hd. exact Hp.
  - change (run_ops (run_op d1 x) t p = run_ops d2 l p).
    assert (Hlen : (r0 < List.length ls)%nat) by (apply nth_error_Some; congruence).
    destruct (Nat.eq_dec r0 r) as [->|Hne].
    + rewrite Hr in Hx. inversion Hx; subst l; clear Hx.
      change (run_ops d2 (x :: l0) p) with (run_ops (run_op d2 x) l0 p).
      apply (IH r l0 K); [| | | |exact Hp].
      * rewrite nth_error_upd. rewrite Nat.eqb_refl. apply Nat.ltb_lt in Hlen. rewrite Hlen. reflexivity.
      * intros o Hi. apply Hl. right. exact Hi.
      * intros r1 l1 o q Hr1 Hn Hi Hq. rewrite nth_error_upd in Hn.
        assert (E : (r1 =? r)%nat = false) by (apply Nat.eqb_neq; exact Hr1).
        first [rewrite E in Hn | rewrite Nat.eqb_sym, E in Hn]. eapply Ho; eassumption.
      * apply run_op_agree; [apply Hl; left; reflexivity|exact Hd].
    + apply (IH r l K); [|exact Hl| | |exact Hp].
      * rewrite nth_error_upd. assert (E : (r =? r0)%nat = false) by (apply Nat.eqb_neq; congruence).
        first [rewrite E | rewrite Nat.eqb_sym, E]. exact Hr.
      * intros r1 l1 o q Hr1 Hn Hi Hq. rewrite nth_error_upd in Hn. destruct (Nat.eq_dec r1 r0) as [->|Hr2].
        -- apply (Ho r0 (x :: l0) o q Hne Hx); [|exact Hq]. rewrite Nat.eqb_refl in Hn.
           apply Nat.ltb_lt in Hlen. rewrite Hlen in Hn. inversion Hn; subst. right. exact Hi.
        -- assert (E : (r1 =? r0)%nat = false) by (apply Nat.eqb_neq; congruence).
           first [rewrite E in Hn | rewrite Nat.eqb_sym, E in Hn]. eapply Ho; eassumption.
      * intros q Hq. rewrite run_op_untouched; [apply Hd; exact Hq|].
        apply (Ho r0 (x :: l0) x q Hne Hx); [left; reflexivity|exact Hq].
Qed.
Lemma interleave_in (A : Type) (ls : list (list A)) rt : interleave ls rt -> forall o, In o rt -> exists l, In l ls /\ In o l.
Proof.
  induction 1 as [ls Hall|ls r0 x l0 t Hx Hil IH]; intros o Ho; [destruct Ho|].
  destruct Ho as [<-|Ho]; [exists (x :: l0); split; [eapply nth_error_In; eassumption|left; reflexivity]|].
  destruct (IH o Ho) as (l & Hl & Hi). apply In_nth_error in Hl. destruct Hl as [k Hk]. rewrite nth_error_upd in Hk.
  destruct (Nat.eq_dec k r0) as [->|Hne].
  - rewrite Nat.eqb_refl in Hk. assert (Hlen : (r0 < List.length ls)%nat) by (apply nth_error_Some; congruence).
    apply Nat.ltb_lt in Hlen. rewrite Hlen in Hk. inversion Hk; subst. exists (x :: l).
    split; [eapply nth_error_In; eassumption|right; exact Hi].
  - assert (E : (k =? r0)%nat = false) by (apply Nat.eqb_neq; congruence).
    first [rewrite E in Hk | rewrite Nat.eqb_sym, E in Hk]. exists l. split; [eapply nth_error_In; eassumption|exact Hi].
Qed.

Lemma atomic_touches n (x : obj) p o q : In o (atomic_torch_save n x p) -> touches o q -> q = p \/ q = p ++ lit ".tmp".
Proof.
  unfold atomic_torch_save, torch_save. intros Ho Ht. apply in_app_or in Ho. destruct Ho as [Ho|[<-|[]]].
  - apply in_app_or in Ho. destruct Ho as [Ho|[<-|[]]]; [apply repeat_spec in Ho; subst|]; cbn in Ht; auto.
  - cbn in Ht. tauto.
Qed.
Lemma atomic_full n (x : obj) p d : run_ops d (atomic_torch_save n x p) p = Some (Whole x).
Proof.
  pose proof (atomic_save_prefix n x p d (List.length (atomic_torch_save n x p))) as (_ & _ & H).
  rewrite firstn_all in H. apply H. apply Nat.le_refl.
Qed.
Lemma atomic_any n (x : obj) p d k : run_ops d (firstn k (atomic_torch_save n x p)) p = d p
  \/ run_ops d (firstn k (atomic_torch_save n x p)) p = Some (Whole x).
Proof.
  destruct (atomic_save_prefix n x p d k) as (_ & H2 & H3).
  destruct (Nat.lt_ge_cases k (List.length (atomic_torch_save n x p))) as [Hk|Hk]; [left; auto|right; apply H3; auto].
Qed.
Lemma run_removes l : forall d p, (forall o, In o l -> exists q, o = Remove q) ->
  run_ops d l p = if existsb (fun o => match o with Remove q => str_eqb p q | _ => false end) l then None else d p.
Proof.
  induction l as [|o l IH]; intros d p H; [reflexivity|]. change (run_ops (run_op d o) l p = if existsb (fun o => match o with Remove q => str_eqb p q | _ => false end) (o :: l) then None else d p).
  rewrite IH by (intros; apply H; right; assumption). destruct (H o (or_introl eq_refl)) as [q ->]. cbn [existsb].
  destruct (existsb _ l); [rewrite orb_true_r; reflexivity|]. rewrite orb_false_r. cbn. unfold put. destruct (str_eqb p q); reflexivity.
Qed.
End Ops.

(** ** File names *)
Lemma at_tmp dir f : at_ dir f ++ lit ".tmp" = at_ dir (f ++ lit ".tmp").
Proof. unfold at_, join_path. destruct (endswith [slash] dir); rewrite <- app_assoc; reflexivity. Qed.
Lemma at_inj dir f g : at_ dir f = at_ dir g -> f = g.
Proof. apply join_inj. Qed.
Lemma state_inj i j : 0 <= i -> 0 <= j -> state_name i = state_name j -> i = j.
Proof. intros Hi Hj H. unfold state_name in H. apply app_inv_head in H. apply app_inv_tail in H. apply padded_inj; assumption. Qed.
Lemma model_iteration n i : 0 <= i -> ~ In slash n -> get_iteration_from_ckpt_filename (model_ckpt_name n i) = Some i.
Proof.
  intros Hi Hn. unfold model_ckpt_name. replace (lit "ckpt_" ++ n ++ underscore :: padded i ++ lit ".pt")
      with ((lit "ckpt_" ++ n) ++ underscore :: padded i ++ lit ".pt") by (rewrite <- app_assoc; reflexivity).
  apply iteration_of_name; [exact Hi| |discriminate]. rewrite in_app_iff. intros [H|H]; [|contradiction]. cbn in H.
  repeat (destruct H as [H|H]; [discriminate|]). exact H.
Qed.
Lemma state_iteration i : 0 <= i -> get_iteration_from_ckpt_filename (state_name i) = Some i.
Proof.
  intros Hi. apply (@iteration_of_name (lit "state") i Hi); [|discriminate]. cbn. intros H.
  repeat (destruct H as [H|H]; [discriminate|]). exact H.
Qed.
Lemma model_inj n m i j : 0 <= i -> 0 <= j -> ~ In slash n -> ~ In slash m -> model_ckpt_name n i = model_ckpt_name m j -> n = m /\ i = j.
Proof.
  intros Hi Hj Hn Hm H. assert (E : i = j).
  { pose proof (model_iteration Hi Hn) as X. pose proof (model_iteration Hj Hm) as Y. rewrite H in X. congruence. }
  subst j. split; [|reflexivity]. unfold model_ckpt_name in H. apply app_inv_head in H. apply app_inv_tail in H. exact H.
Qed.
Lemma not_tmp_suffix f g : endswith (lit ".pt") f = true -> f <> g ++ lit ".tmp".
Proof.
  intros H ->. apply endswith_spec in H. destruct H as [h H]. apply (f_equal (@rev ascii)) in H. rewrite !rev_app_distr in H. discriminate.
Qed.
Lemma model_pt n i : endswith (lit ".pt") (model_ckpt_name n i) = true.
Proof. apply endswith_spec. exists (lit "ckpt_" ++ n ++ underscore :: padded i). unfold model_ckpt_name. rewrite <- !app_assoc. reflexivity. Qed.
Lemma state_pt i : endswith (lit ".pt") (state_name i) = true.
Proof. apply endswith_spec. exists (lit "state_" ++ padded i). unfold state_name. rewrite <- !app_assoc. reflexivity. Qed.
(** The temporary file of a state is never taken for a state. *)
Lemma state_tmp_iteration i : 0 <= i -> get_iteration_from_ckpt_filename (state_name i ++ lit ".tmp") = None.
Proof.
  intros Hi. destruct (padded_ok Hi) as (_ & _ & P3).
  assert (Nu : ~ In underscore (padded i)) by (apply digits_no; [reflexivity|exact P3]).
  assert (Ns : ~ In slash (padded i)) by (apply digits_no; [reflexivity|exact P3]).
  assert (Sl : ~ In slash (state_name i)).
  { unfold state_name. rewrite !in_app_iff. cbn. intros [H|[H|H]]; [|contradiction|];
    repeat (destruct H as [H|H]; [discriminate|]); exact H. }
  unfold get_iteration_from_ckpt_filename. rewrite basename_no_slash.
  - replace (state_name i ++ lit ".tmp") with (state_name i ++ dot :: lit "tmp") by reflexivity.
    rewrite splitext_ext; [cbn [fst]|exact Sl| | |].
    + replace (state_name i) with (lit "state" ++ underscore :: (padded i ++ lit ".pt")) by (unfold state_name; cbn; reflexivity).
      rewrite split_on_app, (split_on_none (l := lit "state")), (split_on_none (l := padded i ++ lit ".pt")).
      * cbn [app rev]. cbn [find].
        assert (E : isdigit (padded i ++ lit ".pt") = false).
        { assert (F : forallb is_digit (padded i ++ lit ".pt") = false) by (rewrite forallb_app; cbn; apply andb_false_r).
          unfold isdigit. destruct (padded i ++ lit ".pt"); [reflexivity|exact F]. }
        rewrite E. reflexivity.
      * rewrite in_app_iff. intros [H|H]; [contradiction|]. cbn in H. repeat (destruct H as [H|H]; [discriminate|]). exact H.
      * cbn. intros H. repeat (destruct H as [H|H]; [discriminate|]). exact H.
    + cbn. intros H. repeat (destruct H as [H|H]; [discriminate|]). exact H.
    + cbn. intros H. repeat (destruct H as [H|H]; [discriminate|]). exact H.
    + exists "s"%char. split; [left; reflexivity|discriminate].
  - rewrite in_app_iff. intros [H|H]; [contradiction|]. cbn in H. repeat (destruct H as [H|H]; [discriminate|]). exact H.
Qed.

(** Sidecar names are told apart from everything else by their first letter. *)
Lemma sidecar_head f : is_sidecar f = true -> exists t, f = "r"%char :: t.
Proof.
  unfold is_sidecar. destruct f as [|x t]; [cbn; discriminate|]. cbn [split_on].
  destruct (Ascii.eqb x underscore) eqn:E.
  - destruct (split_on underscore t) as [|b [|c [|d [|e [|]]]]]; discriminate.
  - destruct (split_on underscore t) as [|a r]; [discriminate|].
    destruct r as [|b [|c [|d [|e r]]]]; try discriminate. destruct r; [|discriminate].
    intros H. exists t. destruct (str_eqb (x :: a) (lit "runtime")) eqn:Ea; [|discriminate].
    apply str_eqb_eq in Ea. inversion Ea; subst. reflexivity.
Qed.
Lemma temp_head f : is_runtime_temp f = true -> exists t, f = "."%char :: t.
Proof.
  unfold is_runtime_temp. destruct f as [|x t]; [cbn; discriminate|]. cbn [split_on].
  destruct (Ascii.eqb x underscore) eqn:E.
  - destruct (split_on underscore t) as [|b [|c [|d [|e [|p [|q [|]]]]]]]; discriminate.
  - destruct (split_on underscore t) as [|a r]; [discriminate|].
    destruct r as [|b [|c [|d [|e [|p [|q r]]]]]]; try discriminate. destruct r; [|discriminate].
    intros H. exists t. destruct (str_eqb (x :: a) (lit ".runtime-tmp")) eqn:Ea; [|discriminate].
    apply str_eqb_eq in Ea. inversion Ea; subst. reflexivity.
Qed.
