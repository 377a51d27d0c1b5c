(** * C31: evaluation metrics do not depend on how the data is spread over ranks.
    Specification vocabulary: MetricsSpec.v (exact numbers, rows, means). *)
From Coq Require Import QArith Qcanon.
From Coq Require Import Sorting.Sorted.
From Verif Require Import Base BaseFacts Checkpoint CheckpointFacts Json JsonFacts Metrics MetricsFacts MetricsSpec MetricsExact MetricsClose MetricsMore.
Open Scope Z_scope.
Set Implicit Arguments. Unset Strict Implicit.

Section C31.
Variable X : Type. (* rows *)
Variable finalizers : ustr -> option (list (ustr * tensor) -> list (ustr * Z) -> res tensor).
Variable schema_valid : ustr -> list ustr -> list ustr -> bool.
Variable reduce_max : list tensor -> res tensor.
Notation evaluate := (@evaluate exact finalizers schema_valid reduce_max).
Notation key_run := (@key_run exact finalizers schema_valid).
Notation close_key := (@close_key exact finalizers schema_valid).
Notation gather_key := (@gather_key exact finalizers schema_valid reduce_max).
(** The statistics computed from a batch (the model's forward pass included). *)
Variable metrics_of : batch X -> metrics exact.
(** The whole evaluation: [loaders] are the batches of each rank. *)
Definition evaluation (loaders : list (list (batch X))) : res (list (ustr * xq)) :=
  evaluate (List.length loaders) (map (map (fun p => (fst p, metrics_of (snd p)))) (iter_batches loaders)).

Section Key.
Variables (loaders : list (list (batch X))) (out : list (ustr * xq)) (k : ustr) (v : xq).
Hypothesis unique_keys : forall b, NoDup (map fst (metrics_of b)).
Hypothesis has_key : forall b, exists s, obj_get (metrics_of b) k = Some s.
Hypothesis done : evaluation loaders = Ok out.
Hypothesis reported : obj_get out k = Some v.

Definition col_rel (i : nat) (l : list (batch X)) (c : bool * stat) : Prop :=
  match nth_error l i with
  | Some b => fst c = true /\ obj_get (metrics_of b) k = Some (snd c)
  | None => fst c = false /\ exists b, obj_get (metrics_of b) k = Some (snd c)
  end.
Lemma columns_spec : exists columns column t,
  Forall2 (fun i c => Forall2 (col_rel i) loaders c) (seq 0 (num_steps loaders)) columns /\
  key_run (repeat None (List.length loaders)) columns = Ok (map Some column) /\ gather_key column = Ok t /\ item t = Ok v.
Proof.
  unfold evaluation in done. destruct (@evaluate_key exact finalizers schema_valid reduce_max _ _ _ _ _ done reported) as (columns & column & t & C1 & C2 & C3 & C4 & _).
  { intros s r Hs Hr. apply in_map_iff in Hs as (s' & <- & _). apply in_map_iff in Hr as (p & <- & _). cbn [snd]. split; [apply unique_keys|apply has_key]. }
  exists columns, column, t. split; [|auto]. pose proof (iter_spec loaders) as I. revert C1 I. generalize (iter_batches loaders), (seq 0 (num_steps loaders)). clear. intros steps is C I.
  revert columns C. induction I as [|i s is ss H _ IH]; intros columns C; cbn in C; inversion C as [|? c ? cs C1 C2]; subst; [constructor|]. constructor; [|apply IH; exact C2].
  clear - H C1. revert c C1. induction H as [|l p ls ps Hp _ IH]; intros c C1; cbn in C1; inversion C1 as [|? c1 ? cs C2 C3]; subst; [constructor|]. constructor; [|apply IH; exact C3].
  cbn [fst snd] in C2. destruct C2 as (E1 & E2). unfold col_rel. unfold yields in Hp. destruct (nth_error l i) as [b|].
  - subst p. cbn in *. auto.
  - rewrite E1. split; [exact Hp|]. eauto.
Qed.
Lemma key_run_closeds columns : forall ts ts', key_run ts columns = Ok ts' -> exists closeds, Forall2 (fun c cl => close_key c = Ok cl) columns closeds.
Proof.
  induction columns as [|c cs IH]; intros ts ts' H; [exists []; constructor|]. cbn in H. unfold MetricsFacts.key_step in H at 1.
  destruct (close_key c) as [cl|] eqn:E; [|discriminate]. cbn [bind] in H. match type of H with bind ?m _ = _ => destruct m as [ts1|] end; [|discriminate]. cbn [bind] in H.
  destruct (IH _ _ H) as (cls & Hc). exists (cl :: cls). constructor; assumption.
Qed.
Lemma ones_present i ls column : Forall2 (col_rel i) ls column -> zlen (ones column) = present ls i.
Proof.
  unfold ones, present. induction 1 as [|l c ls cs H _ IH]; [reflexivity|]. cbn [map filter]. unfold col_rel in H. destruct (nth_error l i) eqn:E.
  - destruct H as (-> & _). assert (L : (i <? List.length l)%nat = true) by (apply Nat.ltb_lt; apply nth_error_Some; congruence). rewrite L, !zlen_cons, IH. reflexivity.
  - destruct H as (-> & _). apply nth_error_None in E. assert (L : (i <? List.length l)%nat = false) by (apply Nat.ltb_ge; exact E). rewrite L. exact IH.
Qed.
(** Closed global batches: the mean over the steps. *)
Lemma steps_mean (m : nat -> xq) : (forall i c cl, In i (seq 0 (num_steps loaders)) -> Forall2 (col_rel i) loaders c -> close_key c = Ok cl ->
    exists val, cl = map (fun _ => SumCount Evaluation val 1) c /\ t_data val = [m i]) ->
  v = xdiv (xsum (flat_map (fun i => repeat (m i) (Z.to_nat (present loaders i))) (seq 0 (num_steps loaders))))
           (zsum (map (present loaders) (seq 0 (num_steps loaders)))).
Proof.
  intros Hm. destruct columns_spec as (columns & column & t & C1 & C2 & C3 & C4). destruct (key_run_closeds C2) as (closeds & CL).
  assert (G : Forall2 (fun c cl => close_key c = Ok cl /\ Forall sum_stat cl) columns closeds /\
    xsum (flat_map (fun p => map shown (List.combine (map fst (fst p)) (snd p))) (List.combine columns closeds)) = xsum (flat_map (fun i => repeat (m i) (Z.to_nat (present loaders i))) (seq 0 (num_steps loaders))) /\
    zsum (flat_map (fun p => map shown_count (List.combine (map fst (fst p)) (snd p))) (List.combine columns closeds)) = zsum (map (present loaders) (seq 0 (num_steps loaders)))).
  { clear C2. revert C1 Hm. generalize (seq 0 (num_steps loaders)). intros is C1 Hm. revert closeds CL. induction C1 as [|i c is cs H _ IH]; intros closeds CL; inversion CL as [|? cl ? cls E CL']; subst.
    - split; [constructor|split; reflexivity].
    - destruct (IH (fun i c cl Hi => Hm i c cl (or_intror Hi)) cls CL') as (I1 & I2 & I3). destruct (Hm i c cl (or_introl eq_refl) H E) as (val & -> & D).
      destruct (shown_const c D) as (S1 & S2 & S3). split; [constructor; [split; [exact E|exact S3]|exact I1]|].
      cbn [List.combine flat_map map fst snd]. rewrite !xsum_app, zsum_app, zsum_cons, I2, I3, S1, S2. rewrite (ones_present H). split; [|reflexivity].
      f_equal. f_equal. f_equal. rewrite <- (ones_present H). unfold zlen. lia. }
  destruct G as (G1 & G2 & G3). rewrite (sum_result G1 C2 C3 C4), G2, G3. reflexivity.
Qed.
End Key.

Lemma total_app (f : X -> Qc) a b : total f (a ++ b) = (total f a + total f b)%Qc.
Proof.
  unfold total. rewrite map_app. induction (map f a) as [|x l IH]; cbn [app]; [change (qsum []) with 0%Qc; ring|].
  change (qsum (x :: l ++ map f b)) with (x + qsum (l ++ map f b))%Qc. change (qsum (x :: l)) with (x + qsum l)%Qc. rewrite IH. ring.
Qed.
Lemma weight_app (w : X -> Z) a b : weight w (a ++ b) = weight w a + weight w b.
Proof. unfold weight. rewrite map_app. apply zsum_app. Qed.

(** The statistic at [k] is the sum of [f] and the total weight [w] of the batch's real rows. *)
Definition reports_sum (s : scope) (k : ustr) (f : X -> Qc) (w : X -> Z) : Prop := forall b, exists t : tensor,
  obj_get (metrics_of b) k = Some (SumCount s t (weight w (real b))) /\ t_data t = [Fin (total f (real b))].

Lemma column_sum sc k f w i ls column : reports_sum sc k f w -> Forall2 (col_rel k i) ls column ->
  xsum (map shown column) = Fin (total f (global_batch ls i)) /\ zsum (map shown_count column) = weight w (global_batch ls i) /\
  Forall (fun p : bool * stat => exists t n, snd p = SumCount sc t n /\ scalar t) column.
Proof.
  intros Hp. unfold global_batch. induction 1 as [|l c ls cs H _ (I1 & I2 & I3)]; [split; [reflexivity|split; [reflexivity|constructor]]|].
  cbn [map flat_map]. rewrite xsum_cons, zsum_cons, total_app, weight_app, I1, I2. unfold col_rel in H. destruct c as [inc s]. cbn [fst snd] in H. unfold shown at 1, shown_count at 1. cbn [fst snd].
  destruct (nth_error l i) as [b|].
  - destruct H as (-> & H). destruct (Hp b) as (t & P1 & P2). rewrite P1 in H. injection H as <-. cbn [value_of count_of]. rewrite (data1_eq P2).
    split; [reflexivity|]. split; [reflexivity|]. constructor; [eexists _, _; split; [reflexivity|eexists; exact P2]|exact I3].
  - destruct H as (-> & b & H). destruct (Hp b) as (t & P1 & P2). rewrite P1 in H. injection H as <-. split; [reflexivity|]. split; [reflexivity|].
    constructor; [eexists _, _; split; [reflexivity|eexists; exact P2]|exact I3].
Qed.

(** ** Statistics of scope "global_batch" (every loss and accuracy): the mean, over the global
    batches, of the metric of the whole global batch; a batch is weighted by the number of
    ranks that had rows for it. *)
Theorem C31_mean_of_batch_metrics : forall loaders out k v f w,
  (forall b, NoDup (map fst (metrics_of b))) -> reports_sum GlobalBatch k f w ->
  evaluation loaders = Ok out -> obj_get out k = Some v ->
  let steps := seq 0 (num_steps loaders) in
  v = Fin (qsum (map (fun i => inj (present loaders i) * mean f w (global_batch loaders i)) steps) / inj (zsum (map (present loaders) steps)))%Qc
  /\ zsum (map (present loaders) steps) <> 0 /\ (forall i, In i steps -> weight w (global_batch loaders i) <> 0).
Proof.
  intros loaders out k v f w Hk Hp Hd Hr steps.
  assert (has : forall b, exists s, obj_get (metrics_of b) k = Some s) by (intros b; destruct (Hp b) as (t & H & _); eauto).
  assert (Close : forall i c cl, Forall2 (col_rel k i) loaders c -> close_key c = Ok cl ->
     exists val, cl = map (fun _ => SumCount Evaluation val 1) c /\ weight w (global_batch loaders i) <> 0 /\ t_data val = [Fin (mean f w (global_batch loaders i))]).
  { intros i c cl H E. destruct (column_sum Hp H) as (S1 & S2 & S3). destruct (close_global_sum S3 E) as (val & V1 & V2 & V3). rewrite S2 in V2. exists val. split; [exact V1|]. split; [exact V2|].
    rewrite V3, S1, S2. unfold xdiv, mean. replace (weight w (global_batch loaders i) =? 0) with false by lia. reflexivity. }
  pose proof (steps_mean Hk has Hd Hr (m := fun i => Fin (mean f w (global_batch loaders i)))) as M.
  assert (N : zsum (map (present loaders) steps) <> 0 /\ forall i, In i steps -> weight w (global_batch loaders i) <> 0).
  { split.
    - unfold evaluation in Hd. destruct (@evaluate_key exact finalizers schema_valid reduce_max _ _ _ _ _ Hd Hr) as (_ & _ & _ & _ & _ & _ & _ & Nz).
      { intros s r Hs Hr'. apply in_map_iff in Hs as (s' & <- & _). apply in_map_iff in Hr' as (p & <- & _). cbn [snd]. split; [apply Hk|apply has]. }
      intros E. apply Nz. etransitivity; [|exact E]. clear - steps. pose proof (iter_spec loaders) as I. fold steps in I. induction I as [|i s is ss H _ IH]; [reflexivity|].
      cbn [map]. rewrite !zsum_cons, IH. f_equal. clear - H. unfold present. induction H as [|l p ls ps Hp _ IHp]; [reflexivity|]. cbn [map filter]. rewrite zsum_cons, IHp. cbn [fst]. unfold yields in Hp.
      destruct (nth_error l i) eqn:E.
      + subst p. assert (L : (i <? List.length l)%nat = true) by (apply Nat.ltb_lt; apply nth_error_Some; congruence). rewrite L, zlen_cons. reflexivity.
      + rewrite Hp. apply nth_error_None in E. assert (L : (i <? List.length l)%nat = false) by (apply Nat.ltb_ge; exact E). rewrite L. reflexivity.
    - destruct (columns_spec Hk has Hd Hr) as (columns & column & t & C1 & C2 & _). destruct (key_run_closeds C2) as (closeds & CL). fold steps in C1.
      clear - C1 CL Close. revert closeds CL. induction C1 as [|i c is cs H _ IH]; intros closeds CL j Hj; inversion CL as [|? cl ? cls E CL']; subst; [destruct Hj|].
      destruct Hj as [<-|Hj]; [|apply (IH cls CL' j Hj)]. destruct (Close i c cl H E) as (_ & _ & Z & _). exact Z. }
  destruct N as (N1 & N2). split; [|split; [exact N1|exact N2]].
  rewrite M; [|intros i c cl _ H E; destruct (Close i c cl H E) as (val & V1 & _ & V3); exists val; auto].
  fold steps. replace (xsum _) with (Fin (qsum (map (fun i => inj (present loaders i) * mean f w (global_batch loaders i)) steps)))%Qc.
  - unfold xdiv. replace (zsum (map (present loaders) steps) =? 0) with false by lia. reflexivity.
  - clear N1 N2 M. induction steps as [|i l IH]; [reflexivity|]. cbn [map flat_map]. rewrite xsum_app, <- IH. rewrite xsum_repeat. rewrite Z2Nat.id; [reflexivity|]. apply zlen_nonneg.
Qed.

(** With planned evaluation batches (every rank has a slice of every global batch). *)
Theorem C31_planned_batches : forall loaders out k v f w n,
  (forall b, NoDup (map fst (metrics_of b))) -> reports_sum GlobalBatch k f w ->
  loaders <> [] -> (forall l, In l loaders -> List.length l = n) ->
  evaluation loaders = Ok out -> obj_get out k = Some v ->
  v = Fin (qsum (map (fun i => mean f w (global_batch loaders i)) (seq 0 n)) / inj (Z.of_nat n))%Qc.
Proof.
  intros loaders out k v f w n Hk Hp Hne Hl Hd Hr. destruct (C31_mean_of_batch_metrics Hk Hp Hd Hr) as (E & Nz & _).
  assert (Hn : num_steps loaders = n).
  { unfold num_steps. destruct loaders as [|l ls]; [congruence|]. clear - Hl. revert l Hl. induction ls as [|l' ls IH]; intros l Hl; cbn [map fold_right].
    - rewrite (Hl l (or_introl eq_refl)). lia.
    - cbn [map fold_right] in IH. rewrite (IH l') by (intros l0 H; apply Hl; right; exact H). rewrite (Hl l (or_introl eq_refl)). lia. }
  rewrite Hn in *.
  assert (P : forall i, In i (seq 0 n) -> present loaders i = zlen loaders).
  { intros i Hi. apply in_seq in Hi. unfold present. clear - Hl Hi. induction loaders as [|l ls IH]; [reflexivity|]. cbn [filter]. rewrite (Hl l (or_introl eq_refl)).
    assert (L : (i <? n)%nat = true) by (apply Nat.ltb_lt; lia). rewrite L, !zlen_cons, IH; [reflexivity|]. intros l0 H. apply Hl. right; exact H. }
  rewrite E. f_equal.
  assert (W : zsum (map (present loaders) (seq 0 n)) = zlen loaders * Z.of_nat n).
  { rewrite (map_ext_in _ (fun _ => zlen loaders) _ P). clear. rewrite <- (seq_length n 0) at 2. generalize (seq 0 n). intros l. induction l as [|i l IH]; [cbn; lia|]. cbn [map List.length]. rewrite zsum_cons, IH. lia. }
  assert (Q : qsum (map (fun i => inj (present loaders i) * mean f w (global_batch loaders i)) (seq 0 n))%Qc = (inj (zlen loaders) * qsum (map (fun i => mean f w (global_batch loaders i)) (seq 0 n)))%Qc).
  { clear - P. revert P. generalize (seq 0 n). intros l P. induction l as [|i l IH]; [change (0 = inj (zlen loaders) * 0)%Qc; ring|].
    change (inj (present loaders i) * mean f w (global_batch loaders i) + qsum (map (fun i => inj (present loaders i) * mean f w (global_batch loaders i)) l) =
      inj (zlen loaders) * (mean f w (global_batch loaders i) + qsum (map (fun i => mean f w (global_batch loaders i)) l)))%Qc.
    rewrite (P i (or_introl eq_refl)).
    rewrite IH by (intros j Hj; apply P; right; exact Hj). ring. }
  rewrite W in Nz |- *. rewrite Q.
  assert (M : inj (zlen loaders * Z.of_nat n) = (inj (zlen loaders) * inj (Z.of_nat n))%Qc).
  { apply Qc_is_canon. unfold inj, Qcmult, Q2Qc. cbn [this]. rewrite !Qred_correct, inject_Z_mult. reflexivity. }
  rewrite M. field. split; intros H; apply inj_0 in H; apply Nz; rewrite H; lia.
Qed.
(** So only the rows of each global batch matter, not the number of ranks, the slices, the
    padding or the order of the rows. *)
Lemma qsum_perm a b : Permutation a b -> qsum a = qsum b.
Proof.
  induction 1 as [|x a b _ IH|x y a|a b c _ IH1 _ IH2]; [reflexivity| | |congruence].
  - change (x + qsum a = x + qsum b)%Qc. rewrite IH. reflexivity.
  - change (y + (x + qsum a) = x + (y + qsum a))%Qc. ring.
Qed.
Lemma total_perm (f : X -> Qc) a b : Permutation a b -> total f a = total f b.
Proof. intros P. apply qsum_perm. apply Permutation_map. exact P. Qed.
Lemma weight_perm (w : X -> Z) a b : Permutation a b -> weight w a = weight w b.
Proof. intros P. apply zsum_perm. apply Permutation_map. exact P. Qed.
Theorem C31_distribution_does_not_matter : forall loaders1 loaders2 out1 out2 k v1 v2 f w n,
  (forall b, NoDup (map fst (metrics_of b))) -> reports_sum GlobalBatch k f w ->
  loaders1 <> [] -> (forall l, In l loaders1 -> List.length l = n) ->
  loaders2 <> [] -> (forall l, In l loaders2 -> List.length l = n) ->
  (forall i, (i < n)%nat -> Permutation (global_batch loaders1 i) (global_batch loaders2 i)) ->
  evaluation loaders1 = Ok out1 -> obj_get out1 k = Some v1 ->
  evaluation loaders2 = Ok out2 -> obj_get out2 k = Some v2 -> v1 = v2.
Proof.
  intros loaders1 loaders2 out1 out2 k v1 v2 f w n Hk Hp N1 L1 N2 L2 P D1 R1 D2 R2.
  rewrite (C31_planned_batches Hk Hp N1 L1 D1 R1), (C31_planned_batches Hk Hp N2 L2 D2 R2). f_equal. f_equal. f_equal.
  apply map_ext_in. intros i Hi. apply in_seq in Hi. unfold mean. rewrite (total_perm f (P i ltac:(lia))), (weight_perm w (P i ltac:(lia))). reflexivity.
Qed.

(** ** Statistics of scope "evaluation": the mean over all real rows. *)
Lemma flat_map_swap (A B C : Type) (g : A -> B -> list C) (la : list A) : forall lb : list B,
  Permutation (flat_map (fun a => flat_map (g a) lb) la) (flat_map (fun b => flat_map (fun a => g a b) la) lb).
Proof.
  induction la as [|a la IH]; intros lb; cbn [flat_map].
  - induction lb as [|b lb IHb]; [constructor|exact IHb].
  - rewrite IH. clear. induction lb as [|b lb IHb]; [constructor|]. cbn [flat_map]. rewrite <- IHb. rewrite <- !app_assoc. apply Permutation_app_head.
    rewrite !app_assoc. apply Permutation_app_tail. apply Permutation_app_comm.
Qed.
Lemma nth_all (l : list (batch X)) : forall n, (List.length l <= n)%nat ->
  flat_map (fun i => match nth_error l i with Some b => real b | None => [] end) (seq 0 n) = flat_map (@real X) l.
Proof.
  induction l as [|b l IH]; intros n Hn.
  - cbn [flat_map]. generalize 0%nat. induction n as [|n IHn]; intros a; [reflexivity|]. cbn [seq flat_map]. rewrite IHn by (cbn; lia). destruct a; reflexivity.
  - cbn [List.length] in Hn. destruct n as [|n]; [lia|]. cbn [seq flat_map nth_error]. f_equal. rewrite <- seq_shift, flat_map_concat_map, map_map, <- flat_map_concat_map. apply IH. lia.
Qed.
Lemma all_steps (loaders : list (list (batch X))) : Permutation (flat_map (global_batch loaders) (seq 0 (num_steps loaders))) (all_rows loaders).
Proof.
  unfold global_batch, all_rows. rewrite flat_map_swap. assert (H : forall l, In l loaders -> (List.length l <= num_steps loaders)%nat).
  { unfold num_steps. induction loaders as [|l ls IH]; intros l' []; cbn [map fold_right]; [subst; lia|]. specialize (IH l' H). lia. }
  revert H. generalize (num_steps loaders). intros n H. induction loaders as [|l ls IH]; [constructor|]. cbn [flat_map]. rewrite (nth_all (H l (or_introl eq_refl))).
  apply Permutation_app_head. apply IH. intros l' Hl. apply H. right; exact Hl.
Qed.
Theorem C31_mean_over_all_rows : forall loaders out k v f w,
  (forall b, NoDup (map fst (metrics_of b))) -> reports_sum Evaluation k f w ->
  evaluation loaders = Ok out -> obj_get out k = Some v ->
  v = if weight w (all_rows loaders) =? 0 then NotANumber else Fin (mean f w (all_rows loaders)).
Proof.
  intros loaders out k v f w Hk Hp Hd Hr.
  assert (has : forall b, exists s, obj_get (metrics_of b) k = Some s) by (intros b; destruct (Hp b) as (t & H & _); eauto).
  destruct (columns_spec Hk has Hd Hr) as (columns & column & t & C1 & C2 & C3 & C4). destruct (key_run_closeds C2) as (closeds & CL).
  assert (G : Forall2 (fun c cl => close_key c = Ok cl /\ Forall sum_stat cl) columns closeds /\
    xsum (flat_map (fun p => map shown (List.combine (map fst (fst p)) (snd p))) (List.combine columns closeds)) = Fin (total f (flat_map (global_batch loaders) (seq 0 (num_steps loaders)))) /\
    zsum (flat_map (fun p => map shown_count (List.combine (map fst (fst p)) (snd p))) (List.combine columns closeds)) = weight w (flat_map (global_batch loaders) (seq 0 (num_steps loaders)))).
  { clear C2. revert C1. generalize (seq 0 (num_steps loaders)). intros is C1. revert closeds CL. induction C1 as [|i c is cs H _ IH]; intros closeds CL; inversion CL as [|? cl ? cls E CL']; subst.
    - split; [constructor|split; reflexivity].
    - destruct (IH cls CL') as (I1 & I2 & I3). destruct (column_sum Hp H) as (S1 & S2 & S3).
      destruct (close_evaluation_sum S3 E) as (V1 & V2 & V3). split; [constructor; [split; assumption|exact I1]|].
      cbn [List.combine flat_map map fst snd]. rewrite xsum_app, zsum_app, I2, I3, V2, V3, S1, S2, total_app, weight_app. split; reflexivity. }
  destruct G as (G1 & G2 & G3). rewrite (sum_result G1 C2 C3 C4), G2, G3. rewrite (total_perm f (all_steps loaders)), (weight_perm w (all_steps loaders)). reflexivity.
Qed.

(** ** Maxima: the largest value over all real rows, if the library's reduction "max" takes
    the maximum. *)
Definition reports_max (k : ustr) (f : X -> Qc) : Prop := forall b, exists t : tensor,
  obj_get (metrics_of b) k = Some (Maximum t (zlen (real b))) /\ t_data t = [fold_right xmax MinusInf (map (fun x => Fin (f x)) (real b))].
Theorem C31_maximum_over_all_rows : forall loaders out k v f, takes_maximum reduce_max ->
  (forall b, NoDup (map fst (metrics_of b))) -> reports_max k f -> all_rows loaders <> [] ->
  evaluation loaders = Ok out -> obj_get out k = Some v ->
  exists m, v = Fin m /\ (exists x, In x (all_rows loaders) /\ f x = m) /\ forall x, In x (all_rows loaders) -> (f x <= m)%Qc.
Proof.
  intros loaders out k v f Hm Hk Hp Hne Hd Hr.
  assert (has : forall b, exists s, obj_get (metrics_of b) k = Some s) by (intros b; destruct (Hp b) as (t & H & _); eauto).
  destruct (columns_spec Hk has Hd Hr) as (columns & column & t & C1 & C2 & C3 & C4).
  assert (G : Forall (Forall (fun p : bool * stat => max_stat (snd p))) columns /\
    xmaxs (flat_map (map shown_max) columns) = xmaxs (map (fun x => Fin (f x)) (flat_map (global_batch loaders) (seq 0 (num_steps loaders))))).
  { clear C2. induction C1 as [|i c is cs H _ (I1 & I2)]; [split; [constructor|reflexivity]|]. cbn [flat_map]. rewrite map_app, !xmaxs_app, I2.
    assert (L : Forall (fun p : bool * stat => max_stat (snd p)) c /\ xmaxs (map shown_max c) = xmaxs (map (fun x => Fin (f x)) (global_batch loaders i))).
    { clear - H Hp. unfold global_batch. induction H as [|l p ls ps Hl _ (J1 & J2)]; [split; [constructor|reflexivity]|]. cbn [map flat_map]. rewrite map_app, xmaxs_app, <- J2.
      change (xmaxs (shown_max p :: map shown_max ps)) with (xmax (shown_max p) (xmaxs (map shown_max ps))).
      assert (K : max_stat (snd p) /\ shown_max p = xmaxs (map (fun x => Fin (f x)) (match nth_error l i with Some b => real b | None => [] end))).
      { unfold col_rel in Hl. destruct p as [inc s]. cbn [fst snd] in Hl. unfold shown_max. cbn [fst snd]. destruct (nth_error l i) as [b|].
        - destruct Hl as (-> & Hl). destruct (Hp b) as (t & P1 & P2). rewrite P1 in Hl. injection Hl as <-. split; [eexists _, _; split; [reflexivity|split; [eexists; exact P2|apply zlen_nonneg]]|].
          cbn [candidate]. rewrite (data1_eq P2). destruct (real b); [reflexivity|]. rewrite zlen_cons. pose proof (zlen_nonneg l0). replace (1 + zlen l0 =? 0) with false by lia. reflexivity.
        - destruct Hl as (-> & b & Hl). destruct (Hp b) as (t & P1 & P2). rewrite P1 in Hl. injection Hl as <-. split; [eexists _, _; split; [reflexivity|split; [eexists; exact P2|apply zlen_nonneg]]|reflexivity]. }
      destruct K as (K1 & K2). split; [constructor; assumption|]. rewrite K2. reflexivity. }
    destruct L as (L1 & L2). split; [constructor; assumption|]. rewrite L2. reflexivity. }
  destruct G as (G1 & G2). pose proof (max_result Hm G1 C2 C3 C4) as E. rewrite G2 in E. rewrite <- (map_map f Fin) in E.
  destruct (@xmaxs_fin (map f (flat_map (global_batch loaders) (seq 0 (num_steps loaders))))) as (m & M1 & M2 & M3).
  { intros H. apply map_eq_nil in H. pose proof (all_steps loaders) as P. rewrite H in P. apply Hne. apply Permutation_nil. exact P. }
  exists m. rewrite E, M1. split; [reflexivity|]. split.
  - apply in_map_iff in M2 as (x & Hx & Hi). exists x. split; [|exact Hx]. eapply Permutation_in; [apply all_steps|exact Hi].
  - intros x Hx. apply M3. apply in_map. eapply Permutation_in; [symmetry; apply all_steps|exact Hx].
Qed.

(** ** Statistics with a finalizer (regularizers, composed losses), scope "global_batch": the
    finalizer is applied to the sums over the whole global batch. *)
Theorem C31_finalizers_see_the_whole_batch : forall loaders out k v fid F tn cn shape_of dtype_of len_of vec cnt (m : nat -> xq),
  (forall b, NoDup (map fst (metrics_of b))) -> finalizers fid = Some F ->
  StronglySorted (fun a b => ustr_ltb a b = true) tn -> StronglySorted (fun a b => ustr_ltb a b = true) cn ->
  (forall nm (x : X), List.length (vec nm x) = len_of nm) ->
  (forall b, exists x n, obj_get (metrics_of b) k = Some (Sufficient GlobalBatch fid x n) /\
     Permutation x (sums shape_of dtype_of len_of vec tn (real b)) /\ Permutation n (counts cnt cn (real b))) ->
  evaluation loaders = Ok out -> obj_get out k = Some v ->
  let steps := seq 0 (num_steps loaders) in
  (forall i val, In i steps -> F (sums shape_of dtype_of len_of vec tn (global_batch loaders i)) (counts cnt cn (global_batch loaders i)) = Ok val -> t_data val = [m i]) ->
  v = xdiv (fold_right xadd (Fin 0%Qc) (flat_map (fun i => repeat (m i) (Z.to_nat (present loaders i))) steps)) (zsum (map (present loaders) steps)).
Proof.
  intros loaders out k v fid F tn cn shape_of dtype_of len_of vec cnt m Hk HF St Sc Hv Hp Hd Hr steps Hm.
  assert (has : forall b, exists s, obj_get (metrics_of b) k = Some s) by (intros b; destruct (Hp b) as (x & n & H & _); eauto).
  apply (steps_mean Hk has Hd Hr). intros i c cl Hi H E.
  assert (G : exists parts, Forall2 (fun (p : bool * stat) (q : bool * list X) => fst p = fst q /\ named_stat shape_of dtype_of len_of vec cnt tn cn fid (snd q) (snd p)) c parts /\
     flat_map (@given X) parts = global_batch loaders i).
  { clear - H Hp. unfold global_batch. induction H as [|l p ls ps Hl _ (parts & J1 & J2)]; [exists []; split; [constructor|reflexivity]|].
    unfold col_rel in Hl. destruct (nth_error l i) as [b|] eqn:En.
    - destruct Hl as (Hl1 & Hl2). exists ((true, real b) :: parts). split; [constructor; [|exact J1]|cbn; rewrite En, J2; reflexivity]. split; [exact Hl1|].
      destruct (Hp b) as (x & n & P1 & P2 & P3). rewrite P1 in Hl2. injection Hl2 as <-. exists x, n. auto.
    - destruct Hl as (Hl1 & b & Hl2). exists ((false, real b) :: parts). split; [constructor; [|exact J1]|cbn; rewrite En, J2; reflexivity]. split; [exact Hl1|].
      destruct (Hp b) as (x & n & P1 & P2 & P3). rewrite P1 in Hl2. injection Hl2 as <-. exists x, n. auto. }
  destruct G as (parts & G1 & G2). destruct (close_named Hv St Sc HF G1 E) as (val & V1 & V2). exists val. split; [exact V1|]. apply (Hm i val Hi). rewrite <- G2. exact V2.
Qed.
End C31.

(** ** Concrete evaluations *)
Section Concrete.
Definition q (a : Z) (b : positive) : Qc := Q2Qc (a # b).
Definition no_finalizers : ustr -> option (list (ustr * tensor) -> list (ustr * Z) -> res tensor) := fun _ => None.
Definition no_schema : ustr -> list ustr -> list ustr -> bool := fun _ _ _ => false.
(** A reduction that takes the maximum of scalars, and one that adds (accelerate's
    [reduce] adds for every [reduction] except "mean", where it also divides). *)
Definition max_reduction (l : list tensor) : res tensor :=
  match l with [] => Err RuntimeError | t :: r => Ok (fold_left (fun a b => on_data (R:=exact) (fun _ => [xmax (data1 a) (data1 b)]) a) r t) end.
Definition adding_reduction : list tensor -> res tensor := @reduce_sum exact.
Definition scalar_of (x : xq) : tensor := mk_tensor (R:=exact) [] (DFloat 32) true [x].
Definition loss_k := ulit "loss". Definition seen_k := ulit "seen". Definition peak_k := ulit "peak".
(** The mean loss of the batch, a mean over the evaluation and a maximum. *)
Definition three (b : batch Qc) : metrics exact :=
  [(loss_k, SumCount (R:=exact) GlobalBatch (scalar_of (Fin (total (fun x => x) (real b)))) (weight (fun _ => 1) (real b)));
   (seen_k, SumCount (R:=exact) Evaluation (scalar_of (Fin (total (fun x => x) (real b)))) (weight (fun _ => 1) (real b)));
   (peak_k, Maximum (R:=exact) (scalar_of (fold_right xmax MinusInf (map (fun x => Fin x) (real b)))) (zlen (real b)))].
Notation run := (@evaluation Qc no_finalizers no_schema).
Definition reports (max : list tensor -> res tensor) (loaders : list (list (batch Qc))) (k : ustr) (a : Q) : bool :=
  match run max three loaders with Ok out => match obj_get out k with Some (Fin v) => Qeq_bool v a | _ => false end | Err _ => false end.
Lemma reports_ok max loaders k a : reports max loaders k a = true ->
  exists out v, run max three loaders = Ok out /\ obj_get out k = Some (Fin v) /\ (v == a)%Q.
Proof.
  unfold reports. intros H. destruct (run max three loaders) as [out|] eqn:E; [|discriminate]. destruct (obj_get out k) as [[v| |]|] eqn:E'; try discriminate.
  apply Qeq_bool_eq in H. eauto.
Qed.
Definition r (a : Z) (b : positive) : bool * Qc := (true, q a b).
Definition pad : bool * Qc := (false, q 77 1).

(** The hypotheses of the theorems are met. *)
Example C31_keys : forall b, NoDup (map fst (three b)).
Proof. intros b. cbn [three map fst]. repeat constructor; cbn [In]; intros H; repeat destruct H as [H|H]; try discriminate H; destruct H. Qed.
Example C31_sums : reports_sum three GlobalBatch loss_k (fun x => x) (fun _ => 1) /\ reports_sum three Evaluation seen_k (fun x => x) (fun _ => 1).
Proof. split; intros b; eexists; (split; [reflexivity|reflexivity]). Qed.
Example C31_peaks : reports_max three peak_k (fun x => x).
Proof. intros b; eexists; (split; [reflexivity|reflexivity]). Qed.
Example C31_maximum_exists : takes_maximum max_reduction.
Proof.
  intros ts xs Hne H. destruct ts as [|t ts]; [destruct xs; [congruence|discriminate H]|]. destruct xs as [|x xs]; [discriminate H|]. cbn [map] in H. injection H as Ht H.
  cbn [max_reduction]. eexists. split; [reflexivity|]. clear Hne. revert t x xs Ht H. induction ts as [|t' ts IH]; intros t x xs Ht H.
  - destruct xs; [|discriminate H]. cbn [fold_left fold_right]. rewrite Ht. f_equal. destruct x; reflexivity.
  - destruct xs as [|x' xs]; [discriminate H|]. cbn [map] in H. injection H as Ht' H. cbn [fold_left]. erewrite (IH _ (xmax x x') xs); [|cbn; unfold data1; rewrite Ht, Ht'; reflexivity|exact H].
    f_equal. cbn [fold_right]. clear. set (y := fold_right xmax MinusInf xs). clearbody y. pose proof (xmax_assoc x x' y) as A. congruence.
Qed.
(** Two ranks, two planned global batches {1, 2, 3} and {7} (the second rank's slice of the
    last one is padding only). *)
Definition two_ranks : list (list (batch Qc)) := [[[r 1 1; r 2 1]; [r 7 1; pad]]; [[r 3 1; pad]; [pad; pad]]].
Definition one_rank : list (list (batch Qc)) := [[[r 3 1; r 2 1; r 1 1]; [r 7 1; pad]]].
Example C31_run : reports max_reduction two_ranks loss_k (9 # 2) && reports max_reduction two_ranks seen_k (13 # 4) && reports max_reduction two_ranks peak_k (7 # 1) &&
  reports max_reduction one_rank loss_k (9 # 2) && reports max_reduction one_rank seen_k (13 # 4) && reports max_reduction one_rank peak_k (7 # 1) = true.
Proof. vm_compute. reflexivity. Qed.
Example C31_same_rows : forall i, (i < 2)%nat -> Permutation (global_batch two_ranks i) (global_batch one_rank i).
Proof.
  intros [|[|i]] H; [| |lia]; unfold global_batch, two_ranks, one_rank; cbn; [|apply Permutation_refl].
  apply (Permutation_rev [q 1 1; q 2 1; q 3 1]).
Qed.

(** *** What does not hold *)
(** A reported loss is not the mean over the samples: the rows of a smaller last batch
    weigh more. *)
Theorem C31_every_row_counts_equally_refuted : exists loaders out v,
  run max_reduction three loaders = Ok out /\ obj_get out loss_k = Some v /\ (forall l, In l loaders -> List.length l = 2%nat) /\
  v <> Fin (mean (fun x => x) (fun _ => 1) (all_rows loaders)).
Proof.
  destruct (@reports_ok max_reduction two_ranks loss_k (9 # 2)) as (out & v & E1 & E2 & E3); [vm_compute; reflexivity|].
  exists two_ranks, out, (Fin v). split; [exact E1|]. split; [exact E2|]. split; [intros l [<-|[<-|[]]]; reflexivity|].
  intros E. injection E as ->. revert E3. vm_compute. discriminate.
Qed.
(** Nor does it depend on the global batches only, if the ranks have unequally many batches:
    a batch counts once for every rank that has a part of it. *)
Theorem C31_only_the_global_batches_matter_refuted : exists loaders1 loaders2 out1 out2 v1 v2,
  run max_reduction three loaders1 = Ok out1 /\ obj_get out1 loss_k = Some v1 /\
  run max_reduction three loaders2 = Ok out2 /\ obj_get out2 loss_k = Some v2 /\
  num_steps loaders1 = num_steps loaders2 /\ (forall i, global_batch loaders1 i = global_batch loaders2 i) /\ v1 <> v2.
Proof.
  set (l1 := [[[r 0 1]; [r 1 1]]; [[r 0 1]]]). set (l2 := [[[r 0 1; r 0 1]; [r 1 1]]]).
  destruct (@reports_ok max_reduction l1 loss_k (1 # 3)) as (out1 & v1 & A1 & A2 & A3); [vm_compute; reflexivity|].
  destruct (@reports_ok max_reduction l2 loss_k (1 # 2)) as (out2 & v2 & B1 & B2 & B3); [vm_compute; reflexivity|].
  exists l1, l2, out1, out2, (Fin v1), (Fin v2). repeat (split; [assumption|]). split; [reflexivity|]. split.
  - intros [|[|[|i]]]; reflexivity.
  - intros E. injection E as ->. rewrite A3 in B3. discriminate B3.
Qed.
(** Finding F16: with a library whose [reduce] adds when asked for "max", a maximum is the
    sum of the maxima of the ranks. *)
Theorem C31_a_library_that_adds_reports_no_maximum_refuted : exists loaders out v,
  run adding_reduction three loaders = Ok out /\ obj_get out peak_k = Some (Fin v) /\ ~ In v (all_rows loaders).
Proof.
  destruct (@reports_ok adding_reduction two_ranks peak_k (10 # 1)) as (out & v & E1 & E2 & E3); [vm_compute; reflexivity|].
  exists two_ranks, out, v. split; [exact E1|]. split; [exact E2|]. intros H.
  assert (F : forallb (fun x : Qc => negb (Qeq_bool x (10 # 1))) (all_rows two_ranks) = true) by (vm_compute; reflexivity).
  rewrite forallb_forall in F. specialize (F v H). apply Qeq_eq_bool in E3. rewrite E3 in F. discriminate F.
Qed.
End Concrete.

(** Exact numbers are essential: in binary32 the same rows give another mean when they are
    split differently. *)
From Coq Require Import Floats.SpecFloat.
Definition single (z : Z) : spec_float := match z with Z0 => S754_zero false | Zpos p => binary_normalize 24 128 (Zpos p) 0 false | Zneg p => binary_normalize 24 128 (Zneg p) 0 false end.
Definition binary32 : arith := {| V := spec_float; zero := S754_zero false; add := SFadd 24 128; divz := fun x n => SFdiv 24 128 x (single n);
  vmax := fun x y => match SFcompare x y with Some Lt => y | _ => x end; neg_inf := S754_infinity true |}.
Definition float_metrics (b : list spec_float) : metrics binary32 :=
  [(ulit "seen", SumCount (R:=binary32) Evaluation (mk_tensor (R:=binary32) [] (DFloat 32) true [fold_left (SFadd 24 128) b (S754_zero false)]) (zlen b))].
Definition float_evaluation (loaders : list (list (list spec_float))) : res (list (ustr * spec_float)) :=
  @evaluate binary32 (fun _ => None) (fun _ _ _ => false) (@reduce_sum binary32) (List.length loaders) (map (map (fun p => (fst p, float_metrics (snd p)))) (iter_batches loaders)).
Theorem C31_float_distribution_does_not_matter_refuted : exists loaders1 loaders2 v1 v2,
  flat_map (fun l => List.concat l) loaders1 = flat_map (fun l => List.concat l) loaders2 /\
  float_evaluation loaders1 = Ok [(ulit "seen", v1)] /\ float_evaluation loaders2 = Ok [(ulit "seen", v2)] /\ v1 <> v2.
Proof.
  exists [[[single (2 ^ 24)]]; [[single 1; single 1]]], [[[single (2 ^ 24); single 1]]; [[single 1]]].
  eexists. eexists. split; [reflexivity|]. split; [vm_compute; reflexivity|]. split; [vm_compute; reflexivity|]. discriminate.
Qed.
