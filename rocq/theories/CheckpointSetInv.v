(** The invariant of the checkpoint directory over all histories of CheckpointSet.v. *)
From Coq Require Import Ascii String Sorted Permutation.
From Verif Require Import Base BaseFacts Checkpoint CheckpointFacts CheckpointSet CheckpointSetFacts.
Set Implicit Arguments.
Unset Strict Implicit.

Section Inv.
Variables W T P : Type.
Variable dir : str.
Variable names : list str.
Variable world : nat.
Variable num_keep_states : Z.
Variable save_interval : Z.
Variable state_save_interval : option Z.
Variable valid : T -> bool.
Hypothesis names_plain : forall n, In n names -> ~ In slash n.
Hypothesis names_distinct : NoDup names.
Notation obj := (obj W T P).
Notation at_ := (at_ dir).
Notation disk := (disk obj).
Notation save := (save W T P).
Notation saves_state := (saves_state state_save_interval).
Notation write_ops := (write_ops dir names world state_save_interval).
Notation model_ops := (model_ops dir names).
Notation state_ops := (state_ops dir world state_save_interval).
Notation sidecars := (sidecars world).
Implicit Types (d : disk) (s : save).

Definition models_whole d s := forall n, In n names ->
  d (at_ (model_ckpt_name n (sv_it s))) = Some (Whole (OModel (sv_it s) (sv_weights s n))).
Definition sidecars_whole d (l : list str) := forall f, In f l -> exists p, d (at_ f) = Some (Whole (OSidecar p)).

Definition base s r := runtime_basename (sv_it s) (sv_generation s) r.
Definition temp_ s r := runtime_temp (sv_it s) (sv_generation s) r (sv_pid s r) (sv_nonce s r).

Lemma base_head s r : exists t, base s r = "r"%char :: t.
Proof. eexists. reflexivity. Qed.
Lemma temp_head_ s r : exists t, temp_ s r = "."%char :: t.
Proof. eexists. reflexivity. Qed.

(** ** The sidecar phase *)
Lemma sidecar_touches s r o p : In o (sidecar_ops dir s r) -> touches o p -> p = at_ (base s r) \/ p = at_ (temp_ s r).
Proof.
  unfold sidecar_ops, torch_save. intros Ho Ht. apply in_app_or in Ho. destruct Ho as [Ho|[<-|[<-|[]]]].
  - apply in_app_or in Ho. destruct Ho as [Ho|[<-|[]]]; [apply repeat_spec in Ho; subst|]; cbn in Ht; auto.
  - cbn in Ht. auto.
  - cbn in Ht. auto.
Qed.
Lemma rt_touches s rt o p : interleave (map (sidecar_ops dir s) (seq 0 world)) rt -> In o rt -> touches o p ->
  exists r, p = at_ (base s r) \/ p = at_ (temp_ s r).
Proof.
  intros Hi Ho Ht. destruct (interleave_in Hi Ho) as (l & Hl & Hin). apply in_map_iff in Hl. destruct Hl as (r & <- & _).
  exists r. eapply sidecar_touches; eassumption.
Qed.
Lemma decimal_inj a b : 0 <= a -> 0 <= b -> decimal a = decimal b -> a = b.
Proof. intros Ha Hb H. rewrite <- (proj1 (decimal_ok Ha)), <- (proj1 (decimal_ok Hb)), H. reflexivity. Qed.
Lemma base_inj s r q : base s r = base s q -> r = q.
Proof.
  unfold base, runtime_basename. intros H. repeat apply app_inv_head in H. apply app_inv_tail in H.
  apply decimal_inj in H; lia.
Qed.
Lemma cut_first (c : ascii) a b x y : ~ In c a -> ~ In c b -> a ++ c :: x = b ++ c :: y -> a = b.
Proof.
  revert b. induction a as [|u a IH]; intros [|v b] Ha Hb H; cbn in H.
  - reflexivity.
  - inversion H; subst. exfalso. apply Hb. left. reflexivity.
  - inversion H; subst. exfalso. apply Ha. left. reflexivity.
  - inversion H; subst. f_equal. apply (IH b); [intros X; apply Ha; right; exact X|intros X; apply Hb; right; exact X|assumption].
Qed.
Lemma temp_inj s r q : temp_ s r = temp_ s q -> r = q.
Proof.
  unfold temp_, runtime_temp. intros H. do 5 (apply app_inv_head in H).
  assert (Z0 : forall n, ~ In underscore (decimal (Z.of_nat n))).
  { intros n. apply digits_no; [reflexivity|]. apply decimal_ok. lia. }
  apply cut_first in H; [|apply Z0|apply Z0]. apply decimal_inj in H; lia.
Qed.

Lemma rt_whole d s rt : interleave (map (sidecar_ops dir s) (seq 0 world)) rt -> tokens_fresh dir d s ->
  sidecars_whole (run_ops d rt) (sidecars s).
Proof.
  intros Hi [_ Hf] f Hin. unfold CheckpointSet.sidecars in Hin. apply in_map_iff in Hin. destruct Hin as (r & <- & Hr).
  apply in_seq in Hr. exists (sv_payload s r).
  set (K := fun p => p = at_ (base s r) \/ p = at_ (temp_ s r)).
  assert (Hn : nth_error (map (sidecar_ops dir s) (seq 0 world)) r = Some (sidecar_ops dir s r)).
  { apply map_nth_error. rewrite (nth_error_nth' _ 0%nat) by (rewrite seq_length; lia). rewrite seq_nth by lia. reflexivity. }
  fold (base s r).
  rewrite (interleave_local (K := K) Hi Hn) with (d2 := d).
  - unfold sidecar_ops. rewrite run_ops_app. unfold torch_save. rewrite run_ops_app.
    fold (temp_ s r). fold (base s r).
    set (d1 := run_ops d (repeat (Write (at_ (temp_ s r)) Torn) (S (sv_chunks s)))).
    assert (E1 : d1 (at_ (base s r)) = None).
    { unfold d1. rewrite run_ops_untouched; [apply Hf|]. intros o Ho Ht. apply repeat_spec in Ho. subst o. cbn in Ht.
      apply at_inj in Ht. discriminate. }
    cbn [run_ops fold_left run_op]. rewrite put_same.
    assert (Nb : at_ (base s r) <> at_ (temp_ s r)) by (intros X; apply at_inj in X; discriminate).
    rewrite (put_other (p := at_ (temp_ s r)) d1) by exact Nb. rewrite E1. rewrite put_other by exact Nb. apply put_same.
  - intros o Ho. unfold sidecar_ops, torch_save in Ho. fold (temp_ s r) in Ho. fold (base s r) in Ho.
    apply in_app_or in Ho. destruct Ho as [Ho|[<-|[<-|[]]]]; unfold K; cbn; auto.
    apply in_app_or in Ho. destruct Ho as [Ho|[<-|[]]]; [apply repeat_spec in Ho; subst|]; cbn; auto.
  - intros r1 l1 o p Hr1 Hn1 Ho HK Ht. apply nth_error_In in Hn1 as Hin1.
    assert (Er : l1 = sidecar_ops dir s r1).
    { assert (L : (r1 < List.length (map (sidecar_ops dir s) (seq 0 world)))%nat) by (apply nth_error_Some; congruence).
      rewrite map_length, seq_length in L. rewrite (map_nth_error (sidecar_ops dir s) r1 (seq 0 world) (d := r1)) in Hn1; [congruence|].
      rewrite (nth_error_nth' _ 0%nat) by (rewrite seq_length; lia). rewrite seq_nth by lia. reflexivity. }
    subst l1. destruct (sidecar_touches Ho Ht) as [E|E]; destruct HK as [E2|E2]; rewrite E in E2; apply at_inj in E2.
    + apply base_inj in E2. congruence.
    + discriminate.
    + discriminate.
    + apply temp_inj in E2. congruence.
  - auto.
  - unfold K. auto.
Qed.

(** ** The model phase *)
Lemma model_touches s o p : In o (model_ops s) -> touches o p ->
  exists n, In n names /\ (p = at_ (model_ckpt_name n (sv_it s)) \/ p = at_ (model_ckpt_name n (sv_it s) ++ lit ".tmp")).
Proof.
  intros Ho Ht. unfold CheckpointSet.model_ops in Ho. apply in_flat_map in Ho. destruct Ho as (n & Hn & Ho). exists n. split; [exact Hn|].
  destruct (atomic_touches Ho Ht) as [E|E]; [auto|]. right. rewrite E. apply at_tmp.
Qed.
Lemma state_touches s o p : In o (state_ops s) -> touches o p ->
  p = at_ (state_name (sv_it s)) \/ p = at_ (state_name (sv_it s) ++ lit ".tmp").
Proof.
  intros Ho Ht. unfold CheckpointSet.state_ops in Ho. destruct (saves_state s); [|destruct Ho].
  destruct (atomic_touches Ho Ht) as [E|E]; [auto|]. right. rewrite E. apply at_tmp.
Qed.
Lemma model_any s ns : 0 <= sv_it s -> (forall n, In n ns -> ~ In slash n) -> NoDup ns -> forall d n k, In n ns ->
  let ops := flat_map (fun n => atomic_torch_save (sv_chunks s) (OModel (sv_it s) (sv_weights s n) : obj) (at_ (model_ckpt_name n (sv_it s)))) ns in
  (run_ops d (firstn k ops) (at_ (model_ckpt_name n (sv_it s))) = d (at_ (model_ckpt_name n (sv_it s)))
   \/ run_ops d (firstn k ops) (at_ (model_ckpt_name n (sv_it s))) = Some (Whole (OModel (sv_it s) (sv_weights s n))))
  /\ run_ops d ops (at_ (model_ckpt_name n (sv_it s))) = Some (Whole (OModel (sv_it s) (sv_weights s n))).
Proof.
  intros Hit Hp Hnd. induction ns as [|m ns IH]; intros d n k Hn; [destruct Hn|]. cbn zeta. cbn [flat_map].
  set (a := atomic_torch_save (sv_chunks s) (OModel (sv_it s) (sv_weights s m)) (at_ (model_ckpt_name m (sv_it s)))).
  inversion Hnd as [|? ? Hm Hnd2]; subst.
  set (rest := flat_map (fun n => atomic_torch_save (sv_chunks s) (OModel (sv_it s) (sv_weights s n) : obj) (at_ (model_ckpt_name n (sv_it s)))) ns).
  assert (Ht : forall q x o, In q (m :: ns) -> In x (m :: ns) -> q <> x ->
     In o (atomic_torch_save (sv_chunks s) (OModel (sv_it s) (sv_weights s x) : obj) (at_ (model_ckpt_name x (sv_it s)))) ->
     ~ touches o (at_ (model_ckpt_name q (sv_it s)))).
  { intros q x o Hq Hx Hne Ho Ht. destruct (atomic_touches Ho Ht) as [E|E].
    - apply at_inj in E. apply model_inj in E; auto. destruct E; contradiction.
    - rewrite at_tmp in E. apply at_inj in E. revert E. apply not_tmp_suffix. apply model_pt. }
  rewrite firstn_app, !run_ops_app.
  destruct Hn as [->|Hn].
  - assert (Hu : forall e : CheckpointSet.obj W T P -> Prop, forall k d, run_ops d (firstn k rest) (at_ (model_ckpt_name n (sv_it s))) = d (at_ (model_ckpt_name n (sv_it s)))).
    { intros _ k1 d1. apply run_ops_untouched. intros o Ho. apply in_firstn in Ho. apply in_flat_map in Ho. destruct Ho as (x & Hx & Ho).
      apply (Ht n x); auto; [left; reflexivity|right; exact Hx|]. intros ->. contradiction. }
    rewrite (Hu (fun _ => True)). split.
    + apply atomic_any.
    + rewrite <- (firstn_all rest). rewrite (Hu (fun _ => True)). apply atomic_full.
  - assert (Ha : forall k d, run_ops d (firstn k a) (at_ (model_ckpt_name n (sv_it s))) = d (at_ (model_ckpt_name n (sv_it s)))).
    { intros k1 d1. apply run_ops_untouched. intros o Ho. apply in_firstn in Ho. apply (Ht n m); auto; [right; exact Hn|left; reflexivity|].
      intros ->. contradiction. }
    assert (Hp2 : forall x, In x ns -> ~ In slash x) by (intros x Hx; apply Hp; right; exact Hx).
    split.
    + destruct (IH Hp2 Hnd2 (run_ops d (firstn k a)) n (k - List.length a)%nat Hn) as [[E|E] _]; fold rest in E; rewrite E.
      * left. apply Ha.
      * right. reflexivity.
    + destruct (IH Hp2 Hnd2 (run_ops d a) n 0%nat Hn) as [_ E]. exact E.
Qed.

(** ** All writes of a save, stopped anywhere *)
Lemma firstn_app3 (A : Type) k (a b c : list A) :
  (exists k1, firstn k (a ++ b ++ c) = firstn k1 a)
  \/ (exists k1, firstn k (a ++ b ++ c) = a ++ firstn k1 b)
  \/ exists k1, firstn k (a ++ b ++ c) = a ++ b ++ firstn k1 c.
Proof.
  destruct (Nat.le_gt_cases k (List.length a)) as [H|H].
  - left. exists k. rewrite firstn_app. replace (k - List.length a)%nat with 0%nat by lia. apply app_nil_r.
  - right. destruct (Nat.le_gt_cases k (List.length a + List.length b)) as [H2|H2].
    + left. exists (k - List.length a)%nat. rewrite firstn_app, firstn_all2 by lia. f_equal.
      rewrite firstn_app. replace (k - List.length a - List.length b)%nat with 0%nat by lia. apply app_nil_r.
    + right. exists (k - List.length a - List.length b)%nat. rewrite firstn_app, firstn_all2 by lia. f_equal.
      rewrite firstn_app, firstn_all2 by lia. reflexivity.
Qed.

Section Writes.
Variables (d : disk) (s : save) (rt : list (op obj)).
Hypothesis Hit : 0 <= sv_it s.
Hypothesis Hil : interleave (map (sidecar_ops dir s) (seq 0 world)) rt.
Hypothesis Hfresh : tokens_fresh dir d s.

Definition rt1 := if saves_state s then rt else [].
Lemma rt1_touches o p : In o rt1 -> touches o p -> exists r, p = at_ (base s r) \/ p = at_ (temp_ s r).
Proof. unfold rt1. destruct (saves_state s); [apply rt_touches; exact Hil|intros []]. Qed.

Lemma writes_untouched k f :
  (forall r, f <> base s r) -> (forall r, f <> temp_ s r) ->
  (forall n, In n names -> f <> model_ckpt_name n (sv_it s) /\ f <> model_ckpt_name n (sv_it s) ++ lit ".tmp") ->
  f <> state_name (sv_it s) -> f <> state_name (sv_it s) ++ lit ".tmp" ->
  run_ops d (firstn k (write_ops s rt)) (at_ f) = d (at_ f).
Proof.
  intros H1 H2 H3 H4 H5. apply run_ops_untouched. intros o Ho Ht. apply in_firstn in Ho. unfold CheckpointSet.write_ops in Ho. fold rt1 in Ho.
  apply in_app_or in Ho. destruct Ho as [Ho|Ho].
  - destruct (rt1_touches Ho Ht) as (r & [E|E]); apply at_inj in E; [apply (H1 r E)|apply (H2 r E)].
  - apply in_app_or in Ho. destruct Ho as [Ho|Ho].
    + destruct (model_touches Ho Ht) as (n & Hn & [E|E]); apply at_inj in E; apply (H3 n Hn) in E; exact E.
    + destruct (state_touches Ho Ht) as [E|E]; apply at_inj in E; auto.
Qed.

Lemma model_names n : model_ckpt_name n (sv_it s) = "c"%char :: (lit "kpt_" ++ n ++ underscore :: padded (sv_it s) ++ lit ".pt").
Proof. reflexivity. Qed.
Lemma state_names : state_name (sv_it s) = "s"%char :: (lit "tate_" ++ padded (sv_it s) ++ lit ".pt").
Proof. reflexivity. Qed.

Lemma rt1_model n d0 k : run_ops d0 (firstn k rt1) (at_ (model_ckpt_name n (sv_it s))) = d0 (at_ (model_ckpt_name n (sv_it s))).
Proof.
  apply run_ops_untouched. intros o Ho Ht. apply in_firstn in Ho. destruct (rt1_touches Ho Ht) as (r & [E|E]); apply at_inj in E; discriminate.
Qed.
Lemma rt1_state d0 k : run_ops d0 (firstn k rt1) (at_ (state_name (sv_it s))) = d0 (at_ (state_name (sv_it s))).
Proof.
  apply run_ops_untouched. intros o Ho Ht. apply in_firstn in Ho. destruct (rt1_touches Ho Ht) as (r & [E|E]); apply at_inj in E; discriminate.
Qed.
Lemma models_state d0 k : run_ops d0 (firstn k (model_ops s)) (at_ (state_name (sv_it s))) = d0 (at_ (state_name (sv_it s))).
Proof.
  apply run_ops_untouched. intros o Ho Ht. apply in_firstn in Ho. destruct (model_touches Ho Ht) as (n & _ & [E|E]); apply at_inj in E; discriminate.
Qed.
Lemma state_model n d0 k : run_ops d0 (firstn k (state_ops s)) (at_ (model_ckpt_name n (sv_it s))) = d0 (at_ (model_ckpt_name n (sv_it s))).
Proof.
  apply run_ops_untouched. intros o Ho Ht. apply in_firstn in Ho. destruct (state_touches Ho Ht) as [E|E]; apply at_inj in E; discriminate.
Qed.
Lemma tail_base r d0 k : run_ops d0 (firstn k (model_ops s ++ state_ops s)) (at_ (base s r)) = d0 (at_ (base s r)).
Proof.
  apply run_ops_untouched. intros o Ho Ht. apply in_firstn in Ho. apply in_app_or in Ho. destruct Ho as [Ho|Ho].
  - destruct (model_touches Ho Ht) as (n & _ & [E|E]); apply at_inj in E; discriminate.
  - destruct (state_touches Ho Ht) as [E|E]; apply at_inj in E; discriminate.
Qed.

Lemma writes_model k n : In n names ->
  let d1 := run_ops d (firstn k (write_ops s rt)) in
  d1 (at_ (model_ckpt_name n (sv_it s))) = d (at_ (model_ckpt_name n (sv_it s)))
  \/ d1 (at_ (model_ckpt_name n (sv_it s))) = Some (Whole (OModel (sv_it s) (sv_weights s n))).
Proof.
  intros Hn. unfold CheckpointSet.write_ops. fold rt1. cbn zeta.
  destruct (firstn_app3 k rt1 (model_ops s) (state_ops s)) as [(k1 & ->)|[(k1 & ->)|(k1 & ->)]].
  - left. apply rt1_model.
  - rewrite run_ops_app. destruct (model_any Hit names_plain names_distinct (run_ops d rt1) k1 Hn) as [[E|E] _];
    unfold CheckpointSet.model_ops; rewrite E; [left|right; reflexivity]. rewrite <- (firstn_all rt1). apply rt1_model.
  - rewrite !run_ops_app, state_model. right. apply (model_any Hit names_plain names_distinct (run_ops d rt1) k1 Hn).
Qed.
Lemma all_models k1 : models_whole (run_ops (run_ops (run_ops d rt1) (model_ops s)) (firstn k1 (state_ops s))) s.
Proof. intros n Hn. rewrite state_model. apply (model_any Hit names_plain names_distinct (run_ops d rt1) 0 Hn). Qed.
Lemma all_sidecars k : saves_state s = true -> sidecars_whole (run_ops (run_ops d rt1) (firstn k (model_ops s ++ state_ops s))) (sidecars s).
Proof.
  intros Hs f Hf. destruct (rt_whole Hil Hfresh Hf) as [p Hp]. exists p.
  unfold CheckpointSet.sidecars in Hf. apply in_map_iff in Hf. destruct Hf as (r & <- & _).
  change (runtime_basename (sv_it s) (sv_generation s) r) with (base s r) in *. rewrite tail_base. unfold rt1. rewrite Hs. exact Hp.
Qed.

Lemma writes_state k :
  let d1 := run_ops d (firstn k (write_ops s rt)) in
  d1 (at_ (state_name (sv_it s))) = d (at_ (state_name (sv_it s)))
  \/ (saves_state s = true /\ d1 (at_ (state_name (sv_it s))) = Some (Whole (OState (sv_it s) (sv_training s) (sidecars s)))
      /\ models_whole d1 s /\ sidecars_whole d1 (sidecars s)).
Proof.
  unfold CheckpointSet.write_ops. fold rt1. cbn zeta.
  destruct (firstn_app3 k rt1 (model_ops s) (state_ops s)) as [(k1 & ->)|[(k1 & ->)|(k1 & ->)]].
  - left. apply rt1_state.
  - left. rewrite run_ops_app, models_state. rewrite <- (firstn_all rt1). apply rt1_state.
  - destruct (saves_state s) eqn:Es.
    + assert (E0 : run_ops (run_ops d rt1) (model_ops s) (at_ (state_name (sv_it s))) = d (at_ (state_name (sv_it s)))).
      { rewrite <- (firstn_all (model_ops s)), models_state, <- (firstn_all rt1). apply rt1_state. }
      assert (Eo : state_ops s = atomic_torch_save (sv_chunks s) (OState (sv_it s) (sv_training s) (sidecars s)) (at_ (state_name (sv_it s)))).
      { unfold CheckpointSet.state_ops. rewrite Es. reflexivity. }
      rewrite !run_ops_app.
      destruct (atomic_any (sv_chunks s) (OState (sv_it s) (sv_training s) (sidecars s)) (at_ (state_name (sv_it s))) (run_ops (run_ops d rt1) (model_ops s)) k1) as [E|E];
        rewrite <- Eo in E.
      * left. rewrite E. exact E0.
      * right. split; [reflexivity|]. split; [exact E|]. split; [apply all_models|].
        pose proof (all_sidecars (List.length (model_ops s) + k1)%nat Es) as X.
        rewrite firstn_app_2, run_ops_app in X. exact X.
    + left. assert (Eo : state_ops s = []) by (unfold CheckpointSet.state_ops; rewrite Es; reflexivity).
      rewrite Eo, firstn_nil, app_nil_r, run_ops_app. rewrite <- (firstn_all (model_ops s)), models_state, <- (firstn_all rt1). apply rt1_state.
Qed.
Lemma writes_done : models_whole (run_ops d (write_ops s rt)) s
  /\ (saves_state s = true -> run_ops d (write_ops s rt) (at_ (state_name (sv_it s))) = Some (Whole (OState (sv_it s) (sv_training s) (sidecars s)))
       /\ sidecars_whole (run_ops d (write_ops s rt)) (sidecars s)).
Proof.
  unfold CheckpointSet.write_ops. fold rt1. rewrite !run_ops_app. split.
  - rewrite <- (firstn_all (state_ops s)). apply all_models.
  - intros Es. split.
    + unfold CheckpointSet.state_ops. rewrite Es. apply atomic_full.
    + pose proof (all_sidecars (List.length (model_ops s ++ state_ops s)) Es) as X. rewrite firstn_all, run_ops_app in X. exact X.
Qed.
End Writes.
End Inv.
