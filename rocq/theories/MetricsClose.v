(** Lemmas for C31: closing a global batch, exact numbers; the loaders. *)
From Coq Require Import QArith Qcanon.
From Verif Require Import Base BaseFacts Checkpoint CheckpointFacts Json JsonFacts Metrics MetricsFacts MetricsSpec MetricsExact.
Open Scope Z_scope.
Set Implicit Arguments. Unset Strict Implicit.

Section Close.
Variable finalizers : ustr -> option (list (ustr * tensor) -> list (ustr * Z) -> res tensor).
Variable schema_valid : ustr -> list ustr -> list ustr -> bool.
Notation close_key := (@close_key exact finalizers schema_valid).

Definition ones (column : list (bool * stat)) : list bool := filter (fun b => b) (map fst column).
(** The same closed value for every rank, counted once per included rank. *)
Lemma shown_const column val m : t_data val = [m] ->
  xsum (map shown (List.combine (map fst column) (map (fun _ : bool * stat => SumCount (R:=exact) Evaluation val 1) column))) = xsum (repeat m (List.length (ones column))) /\
  zsum (map shown_count (List.combine (map fst column) (map (fun _ : bool * stat => SumCount (R:=exact) Evaluation val 1) column))) = zlen (ones column) /\
  Forall sum_stat (map (fun _ : bool * stat => SumCount (R:=exact) Evaluation val 1) column).
Proof.
  intros Hm. unfold ones, zlen. induction column as [|[i s] c (I1 & I2 & I3)]; [split; [reflexivity|split; [reflexivity|constructor]]|].
  cbn [map List.combine fst]. rewrite xsum_cons, zsum_cons, I1, I2. unfold shown at 1, shown_count at 1. cbn [fst snd value_of count_of]. rewrite (data1_eq Hm). destruct i; cbn [filter List.length repeat].
  - split; [reflexivity|]. split; [lia|]. constructor; [exists val, 1; split; [reflexivity|eexists; exact Hm]|exact I3].
  - split; [apply xadd_0_l|]. split; [reflexivity|]. constructor; [exists val, 1; split; [reflexivity|eexists; exact Hm]|exact I3].
Qed.

Definition global_sum_stat (s : stat) : Prop := exists t n, s = SumCount GlobalBatch t n /\ scalar t.
Lemma masked_sums column ls : Forall (fun p : bool * stat => global_sum_stat (snd p)) column -> mapM (@masked_sum exact) column = Ok ls ->
  Forall scalar ls /\ map data1 ls = map shown column /\ map (@masked_count exact) column = map shown_count column.
Proof.
  intros Hc H. apply mapM_Forall2 in H. induction H as [|[i s] y c ys E _ IH]; [split; [constructor|split; reflexivity]|].
  inversion Hc as [|? ? (t & n & Hs & (z & Hz)) Hc2]; subst. cbn [snd] in Hs. subst s. destruct (IH Hc2) as (I1 & I2 & I3). cbn [masked_sum] in E. injection E as <-. cbn [map]. destruct i.
  - split; [constructor; [eexists; exact Hz|exact I1]|]. rewrite I2, I3. split; reflexivity.
  - assert (E : t_data (t_fill (Fin 0%Qc : V exact) t) = [Fin 0%Qc]) by (unfold t_fill, on_data; cbn; rewrite Hz; reflexivity).
    split; [constructor; [eexists; exact E|exact I1]|]. rewrite I2, I3. split; [f_equal; apply (data1_eq E)|reflexivity].
Qed.
Lemma close_global_sum column cl : Forall (fun p : bool * stat => global_sum_stat (snd p)) column -> close_key column = Ok cl ->
  exists val, cl = map (fun _ => SumCount Evaluation val 1) column /\ zsum (map shown_count column) <> 0 /\
    t_data val = [xdiv (xsum (map shown column)) (zsum (map shown_count column))].
Proof.
  intros Hc H. unfold Metrics.close_key in H. destruct column as [|[i0 s0] c0]; [discriminate|].
  inversion Hc as [|? ? (t0 & n0 & E0 & _) _]; subst. cbn [snd] in E0. subst s0.
  set (column := (i0, SumCount GlobalBatch t0 n0) :: c0) in *. clearbody column.
  destruct (mapM (@masked_sum exact) column) as [ls|] eqn:Em; [|discriminate]. cbn [bind] in H. destruct (masked_sums Hc Em) as (M1 & M2 & M3).
  destruct (reduce_sum ls) as [g|] eqn:Eg; [|discriminate]. cbn [bind] in H. pose proof (reduce_scalar Eg M1) as D.
  destruct (sum_count GlobalBatch g (zsum (map (@masked_count exact) column))) as [s|] eqn:Es; [|discriminate]. cbn [bind] in H. apply sum_count_Ok in Es. subst s.
  unfold finalize_sufficient in H. destruct (zsum (map (@masked_count exact) column) =? 0) eqn:Ez; [discriminate|]. apply Z.eqb_neq in Ez. cbn [negb bind] in H.
  destruct (sum_count Evaluation _ 1) as [s|] eqn:Es; [|discriminate]. cbn [bind] in H. apply sum_count_Ok in Es. subst s. injection H as H.
  rewrite M3 in *. eexists. split; [symmetry; exact H|]. split; [exact Ez|].
  unfold t_div, on_data. cbn [t_data]. rewrite D, M2. reflexivity.
Qed.
Lemma close_evaluation_sum column cl : Forall (fun p : bool * stat => sum_stat (snd p)) column -> close_key column = Ok cl ->
  Forall sum_stat cl /\ map shown (List.combine (map fst column) cl) = map shown column /\
  map shown_count (List.combine (map fst column) cl) = map shown_count column.
Proof.
  intros Hc H. assert (H' : mapM (keep_or_empty finalizers schema_valid) column = Ok cl).
  { unfold Metrics.close_key in H. destruct column as [|[i0 s0] c0]; [discriminate|].
    inversion Hc as [|? ? (t0 & n0 & E0 & _) _]; subst. cbn [snd] in E0. subst s0. exact H. }
  clear H. apply mapM_Forall2 in H'. induction H' as [|[i s] y c ys E _ IH]; [split; [constructor|split; reflexivity]|].
  inversion Hc as [|? ? (t & n & Hs & (z & Hz)) Hc2]; subst. cbn [snd] in Hs. subst s. destruct (IH Hc2) as (I1 & I2 & I3). cbn [map List.combine fst]. rewrite I2, I3. destruct i.
  - injection E as <-. split; [constructor; [exists t, n; split; [reflexivity|eexists; exact Hz]|exact I1]|]. split; reflexivity.
  - cbn [keep_or_empty] in E. apply sum_count_Ok in E. subst y.
    assert (E : t_data (t_fill (zero exact) t) = [Fin 0%Qc]) by (unfold t_fill, on_data; cbn; rewrite Hz; reflexivity).
    split; [constructor; [eexists _, 0; split; [reflexivity|eexists; exact E]|exact I1]|]. split; reflexivity.
Qed.
End Close.

(** ** The loaders *)
Section Loaders.
Variable B : Type.
Implicit Types loaders : list (list B).
Definition yields (i : nat) (l : list B) (p : bool * B) : Prop :=
  match nth_error l i with Some b => p = (true, b) | None => fst p = false end.
Lemma all_some_ok (l : list (option (bool * B))) : Forall (fun o => o <> None) l -> exists r, all_some l = Some r /\ l = map Some r.
Proof.
  induction 1 as [|o l Ho _ (r & I1 & I2)]; [exists []; split; reflexivity|]. destruct o as [x|]; [|congruence].
  exists (x :: r). cbn. rewrite I1, I2. split; reflexivity.
Qed.
Lemma iter_spec loaders : Forall2 (fun i s => Forall2 (yields i) loaders s) (seq 0 (num_steps loaders)) (iter_batches loaders).
Proof.
  unfold iter_batches. assert (G : forall n a, (a + n <= num_steps loaders)%nat ->
    Forall2 (fun i s => Forall2 (yields i) loaders s) (seq a n)
      (flat_map (fun i => match all_some (map (batch_at loaders i) loaders) with Some s => [s] | None => [] end) (seq a n))); [|apply (G _ 0%nat); lia].
  induction n as [|n IH]; intros a Ha; cbn [seq flat_map]; [constructor|].
  assert (F : first_candidate loaders <> None).
  { assert (P : (0 < num_steps loaders)%nat) by lia. clear - P. unfold num_steps, first_candidate in *. induction loaders as [|l r IHl]; [cbn in P; lia|].
    cbn. destruct l as [|b l]; [cbn; apply IHl; cbn in P; lia|]. discriminate. }
  destruct (@all_some_ok (map (batch_at loaders a) loaders)) as (s & S1 & S2).
  { apply Forall_map. apply Forall_forall. intros l _. unfold batch_at. destruct (nth_error l a); [discriminate|]. destruct (rev l); [|discriminate].
    destruct (first_candidate loaders); [discriminate|congruence]. }
  rewrite S1. cbn [app]. constructor; [|apply IH; lia]. clear - S2. assert (G : forall ls, map (batch_at loaders a) ls = map Some s -> Forall2 (yields a) ls s); [|apply (G loaders); exact S2].
  clear S2. induction s as [|p s IHs]; intros [|l ls] H; try discriminate; [constructor|]. cbn [map] in H. injection H as H1 H2. constructor; [|apply IHs; exact H2].
  unfold yields. unfold batch_at in H1. destruct (nth_error l a); [congruence|]. destruct (rev l); [|injection H1 as <-; reflexivity]. destruct (first_candidate loaders); [|discriminate]. injection H1 as <-. reflexivity.
Qed.
End Loaders.
