(** Lemmas for C31 with exact numbers. *)
From Coq Require Import QArith Qcanon.
From Verif Require Import Base BaseFacts Checkpoint CheckpointFacts Json JsonFacts Metrics MetricsFacts MetricsSpec.
Open Scope Z_scope.
Set Implicit Arguments. Unset Strict Implicit.

Lemma xadd_comm a b : xadd a b = xadd b a.
Proof. destruct a, b; cbn; try reflexivity. f_equal. ring. Qed.
Lemma xadd_assoc a b c : xadd a (xadd b c) = xadd (xadd a b) c.
Proof. destruct a, b, c; cbn; try reflexivity. f_equal. ring. Qed.
Lemma xadd_0_l a : xadd (Fin 0%Qc) a = a.
Proof. destruct a; cbn; try reflexivity. f_equal. ring. Qed.
Lemma xadd_0_r a : xadd a (Fin 0%Qc) = a.
Proof. rewrite xadd_comm. apply xadd_0_l. Qed.
Definition xsum (l : list xq) : xq := fold_right xadd (Fin 0%Qc) l.
Lemma xsum_app a b : xsum (a ++ b) = xadd (xsum a) (xsum b).
Proof. induction a as [|x a IH]; cbn; [symmetry; apply xadd_0_l|]. unfold xsum in *. rewrite IH. apply xadd_assoc. Qed.
Lemma xsum_cons x a : xsum (x :: a) = xadd x (xsum a).
Proof. reflexivity. Qed.
Lemma xsum_fin l : xsum (map Fin l) = Fin (qsum l).
Proof. induction l as [|q l IH]; [reflexivity|]. cbn [map]. rewrite xsum_cons, IH. reflexivity. Qed.
Lemma inj_plus a b : inj (a + b) = (inj a + inj b)%Qc.
Proof. apply Qc_is_canon. unfold inj, Qcplus, Q2Qc. cbn [this]. rewrite !Qred_correct, inject_Z_plus. reflexivity. Qed.
Lemma xsum_repeat m n : xsum (repeat (Fin m) n) = Fin (inj (Z.of_nat n) * m)%Qc.
Proof.
  induction n as [|n IH]; cbn [repeat].
  - change (Fin 0%Qc = Fin (inj 0 * m)%Qc). f_equal. replace (inj 0) with 0%Qc by (apply Qc_is_canon; reflexivity). ring.
  - rewrite xsum_cons, IH. cbn [xadd]. f_equal. replace (inj (Z.of_nat (S n))) with (inj (Z.of_nat n) + 1)%Qc; [ring|].
    rewrite Nat2Z.inj_succ, <- Z.add_1_r, inj_plus. reflexivity.
Qed.
Lemma inj_0 n : inj n = 0%Qc -> n = 0.
Proof.
  intros H. unfold inj in H. assert (X : (inject_Z n == 0)%Q).
  { rewrite <- (Qred_correct (inject_Z n)). change (Qred (inject_Z n)) with (this (Q2Qc (inject_Z n))). rewrite H. reflexivity. }
  unfold Qeq in X. cbn in X. lia.
Qed.

Notation stat := (Metrics.stat exact).
Notation tensor := (Metrics.tensor exact).

(** The single element of a scalar. *)
Definition data1 (t : tensor) : xq := match t_data t with [y] => y | _ => NotANumber end.
Definition scalar (t : tensor) : Prop := exists y : xq, t_data t = [y].
Lemma data1_eq t y : t_data t = [y] -> data1 t = y.
Proof. unfold data1. intros ->. reflexivity. Qed.
Lemma t_add_scalar (a b : tensor) x y : t_data a = [x] -> t_data b = [y] -> t_data (t_add a b) = [xadd x y].
Proof. unfold t_add, on_data. cbn. intros -> ->. reflexivity. Qed.
Lemma fold_add_scalar l : forall (a : tensor) x, t_data a = [x] -> Forall scalar l -> t_data (fold_left (@t_add exact) l a) = [xadd x (xsum (map data1 l))].
Proof.
  induction l as [|b l IH]; intros a x Ha Hl; cbn [fold_left map].
  - rewrite Ha. cbn. rewrite xadd_0_r. reflexivity.
  - inversion Hl as [|? ? (y & Hy) Hl']; subst. rewrite (IH _ (xadd x y)); [|apply t_add_scalar; assumption|exact Hl'].
    rewrite xsum_cons, (data1_eq Hy), xadd_assoc. reflexivity.
Qed.
Lemma reduce_scalar l t : reduce_sum l = Ok t -> Forall scalar l -> t_data t = [xsum (map data1 l)].
Proof.
  destruct l as [|a l]; [discriminate|]. cbn. intros H Hl. injection H as <-. inversion Hl as [|? ? (x & Hx) Hl']; subst.
  rewrite (fold_add_scalar Hx Hl'). rewrite (data1_eq Hx). reflexivity.
Qed.

Section Key.
Variable finalizers : ustr -> option (list (ustr * tensor) -> list (ustr * Z) -> res tensor).
Variable schema_valid : ustr -> list ustr -> list ustr -> bool.
Variable reduce_max : list tensor -> res tensor.
Notation key_run := (@key_run exact finalizers schema_valid).
Notation key_step := (@key_step exact finalizers schema_valid).
Notation acc_column := (@acc_column exact finalizers schema_valid).
Notation close_key := (@close_key exact finalizers schema_valid).
Notation gather_key := (@gather_key exact finalizers schema_valid reduce_max).

(** ** Sums *)
Definition sum_stat (s : stat) : Prop := exists t n, s = SumCount Evaluation t n /\ scalar t.
Definition value_of (s : stat) : xq := match s with SumCount _ t _ => data1 t | _ => NotANumber end.
Definition count_of (s : stat) : Z := match s with SumCount _ _ n => n | _ => 0 end.
Definition sum_state (ts : list (option stat)) : Prop := Forall (fun o => match o with None => True | Some s => sum_stat s end) ts.
Definition state_sum (ts : list (option stat)) : xq := xsum (map (fun o => match o with Some s => value_of s | None => Fin 0%Qc end) ts).
Definition state_count (ts : list (option stat)) : Z := zsum (map (fun o => match o with Some s => count_of s | None => 0 end) ts).
Definition shown (p : bool * stat) : xq := if fst p then value_of (snd p) else Fin 0%Qc.
Definition shown_count (p : bool * stat) : Z := if fst p then count_of (snd p) else 0.

Lemma sum_count_Ok s (t : tensor) n r : sum_count s t n = Ok r -> r = SumCount s t n.
Proof. unfold sum_count. intros H. apply guard_Ok in H as (_ & H). congruence. Qed.
Lemma acc_key_sum t inc s x : accumulate_key finalizers schema_valid t inc s = Ok x ->
  match t with None => True | Some s => sum_stat s end -> sum_stat s ->
  sum_stat x /\ value_of x = xadd (match t with Some s => value_of s | None => Fin 0%Qc end) (shown (inc, s)) /\
  count_of x = match t with Some s => count_of s | None => 0 end + shown_count (inc, s).
Proof.
  unfold accumulate_key, shown, shown_count. cbn [fst snd]. intros H Ht (t0 & n & -> & (y & Hy)).
  destruct t as [s|]; destruct inc.
  - destruct Ht as (t1 & m & -> & (z & Hz)). cbn in H. destruct (compatible t1 t0); [|discriminate]. apply sum_count_Ok in H. subst x.
    pose proof (t_add_scalar Hz Hy) as E. cbn [value_of count_of]. rewrite (data1_eq E), (data1_eq Hy), (data1_eq Hz).
    split; [|split; reflexivity]. exists (t_add t1 t0), (m + n). split; [reflexivity|eexists; exact E].
  - injection H as <-. split; [exact Ht|]. rewrite xadd_0_r, Z.add_0_r. split; reflexivity.
  - injection H as <-. split; [exists t0, n; split; [reflexivity|eexists; exact Hy]|]. rewrite xadd_0_l. split; reflexivity.
  - unfold zero_stat in H. apply sum_count_Ok in H. subst x. cbn [value_of count_of].
    assert (E : t_data (t_fill (zero exact) t0) = [Fin 0%Qc]) by (unfold t_fill, on_data; cbn; rewrite Hy; reflexivity).
    rewrite (data1_eq E). split; [|split; [rewrite xadd_0_r; reflexivity|reflexivity]]. exists (t_fill (zero exact) t0), 0. split; [reflexivity|eexists; exact E].
Qed.
Lemma swap4 a b c d : xadd (xadd a b) (xadd c d) = xadd (xadd a c) (xadd b d).
Proof. rewrite <- !xadd_assoc. f_equal. rewrite !xadd_assoc. f_equal. apply xadd_comm. Qed.
Lemma acc_sum incs : forall ts closed ts', acc_column ts incs closed = Ok ts' -> sum_state ts -> Forall sum_stat closed ->
  Forall (fun o => exists s, o = Some s /\ sum_stat s) ts' /\
  state_sum ts' = xadd (state_sum ts) (xsum (map shown (List.combine incs closed))) /\
  state_count ts' = state_count ts + zsum (map shown_count (List.combine incs closed)).
Proof.
  induction incs as [|i is IH]; intros [|t ts] [|c cs] ts' H Hs Hc; cbn in H; try discriminate.
  - injection H as <-. split; [constructor|]. split; reflexivity.
  - destruct (accumulate_key finalizers schema_valid t i c) as [x|] eqn:E; [|discriminate]. cbn [bind] in H. destruct (acc_column ts is cs) as [r|] eqn:Er; [|discriminate]. injection H as <-.
    inversion Hs as [|? ? Hs1 Hs2]; subst. inversion Hc as [|? ? Hc1 Hc2]; subst.
    destruct (acc_key_sum E Hs1 Hc1) as (S1 & S2 & S3). destruct (IH ts cs r Er Hs2 Hc2) as (R1 & R2 & R3).
    split; [constructor; [eauto|exact R1]|]. unfold state_sum, state_count in *. cbn [List.combine map]. rewrite !xsum_cons, !zsum_cons, R2, R3, S2, S3. split; [apply swap4|lia].
Qed.
Lemma gather_sum column t : gather_key column = Ok t -> Forall sum_stat column ->
  t_data t = [xdiv (xsum (map value_of column)) (zsum (map count_of column))].
Proof.
  intros H Hc. destruct column as [|c cs]; [discriminate|]. inversion Hc as [|? ? Hc1 _]; subst. destruct Hc1 as (t0 & n & -> & _).
  set (column := SumCount Evaluation t0 n :: cs) in *. unfold Metrics.gather_key in H. unfold column at 1 in H. 
  destruct (mapM _ column) as [sums|] eqn:Em; [|discriminate]. cbn [bind] in H. destruct (reduce_sum sums) as [t1|] eqn:Er; [|discriminate]. cbn [bind] in H. injection H as <-.
  assert (X : Forall scalar sums /\ map data1 sums = map value_of column).
  { apply mapM_Forall2 in Em. clear - Em Hc. clearbody column. induction Em as [|s y ss ys E _ IH]; [split; [constructor|reflexivity]|].
    inversion Hc as [|? ? (t & m & -> & Ht) Hc2]; subst. injection E as <-. destruct (IH Hc2) as (I1 & I2). split; [constructor; assumption|]. cbn. rewrite I2. reflexivity. }
  destruct X as (X1 & X2). pose proof (reduce_scalar Er X1) as D. unfold t_div, on_data. cbn [t_data]. rewrite D. cbn [map]. rewrite X2. reflexivity.
Qed.

(** A run in which each step's statistics are closed to scalar sums. *)
Lemma run_sum columns closeds : Forall2 (fun c cl => close_key c = Ok cl /\ Forall sum_stat cl) columns closeds ->
  forall ts ts', key_run ts columns = Ok ts' -> sum_state ts ->
  sum_state ts' /\
  state_sum ts' = xadd (state_sum ts) (xsum (flat_map (fun p => map shown (List.combine (map fst (fst p)) (snd p))) (List.combine columns closeds))) /\
  state_count ts' = state_count ts + zsum (flat_map (fun p => map shown_count (List.combine (map fst (fst p)) (snd p))) (List.combine columns closeds)).
Proof.
  induction 1 as [|c cl cs cls (Hc & Hf) _ IH]; intros ts ts' H Hs; cbn in H.
  - injection H as <-. split; [exact Hs|]. cbn. rewrite xadd_0_r. split; [reflexivity|lia].
  - unfold MetricsFacts.key_step in H. rewrite Hc in H. cbn [bind] in H. destruct (acc_column ts (map fst c) cl) as [ts1|] eqn:E; [|discriminate]. cbn [bind] in H.
    destruct (acc_sum E Hs Hf) as (A1 & A2 & A3).
    destruct (IH ts1 ts' H) as (B1 & B2 & B3).
    { eapply Forall_impl; [|exact A1]. intros o (s & -> & Ho). exact Ho. }
    split; [exact B1|]. rewrite B2, B3, A2, A3. cbn [List.combine flat_map fst snd]. rewrite xsum_app, zsum_app, xadd_assoc. split; [reflexivity|lia].
Qed.
Lemma state_none n : sum_state (repeat None n) /\ state_sum (repeat None n) = Fin 0%Qc /\ state_count (repeat None n) = 0.
Proof.
  induction n as [|n (I1 & I2 & I3)]; [split; [constructor|split; reflexivity]|]. cbn [repeat]. split; [constructor; [exact I|exact I1]|].
  unfold state_sum, state_count in *. cbn [map]. rewrite xsum_cons, zsum_cons, I2, I3. split; reflexivity.
Qed.
Theorem sum_result columns closeds world column t v :
  Forall2 (fun c cl => close_key c = Ok cl /\ Forall sum_stat cl) columns closeds ->
  key_run (repeat None world) columns = Ok (map Some column) -> gather_key column = Ok t -> item t = Ok v ->
  v = xdiv (xsum (flat_map (fun p => map shown (List.combine (map fst (fst p)) (snd p))) (List.combine columns closeds)))
           (zsum (flat_map (fun p => map shown_count (List.combine (map fst (fst p)) (snd p))) (List.combine columns closeds))).
Proof.
  intros Hc Hr Hg Hi. destruct (state_none world) as (N1 & N2 & N3). destruct (run_sum Hc Hr N1) as (S1 & S2 & S3).
  assert (Hs : Forall sum_stat column).
  { clear - S1. unfold sum_state in S1. apply Forall_forall. intros s Hs. rewrite Forall_forall in S1. apply (S1 (Some s)). apply in_map. exact Hs. }
  pose proof (gather_sum Hg Hs) as D. unfold item in Hi. rewrite D in Hi. injection Hi as <-.
  rewrite N2, xadd_0_l in S2. rewrite N3 in S3. unfold state_sum, state_count in S2, S3. rewrite map_map in S2, S3. change (xsum (map value_of column) = xsum (flat_map (fun p => map shown (List.combine (map fst (fst p)) (snd p))) (List.combine columns closeds))) in S2.
  change (zsum (map count_of column) = 0 + zsum (flat_map (fun p => map shown_count (List.combine (map fst (fst p)) (snd p))) (List.combine columns closeds))) in S3.
  rewrite S2, S3. reflexivity.
Qed.
End Key.
