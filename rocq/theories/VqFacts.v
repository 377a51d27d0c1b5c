(** Facts for C70-C73: the ranks in step, and tables over the codebook. *)
From Coq Require Import QArith Qcanon Lqa.
From Verif Require Import Base BaseFacts Vq VqSpec.
Set Implicit Arguments. Unset Strict Implicit.
Local Open Scope Qc_scope.

(** ** Running *)
Lemma run_reduce A T (f : T -> matrix) (k : T -> matrix -> prog A) t ts :
  run_all (map (fun t => Reduce (f t) (k t)) (t :: ts)) = let s := fold_left madd (map f ts) (f t) in run_all (map (fun t => k t s) (t :: ts)).
Proof.
  cbn [map run_all run].
  assert (E : mapM (fun q : prog A => match q with Reduce m k => Ok (m, k) | _ => Err RuntimeError end) (map (fun t => Reduce (f t) (k t)) ts) = Ok (map (fun t => (f t, k t)) ts)).
  { induction ts as [|u ts IH]; [reflexivity|]. cbn [map mapM]. cbn. now rewrite IH. }
  rewrite E. cbn. now rewrite !map_map.
Qed.
Lemma run_gather A T (f : T -> matrix) (k : T -> matrix -> prog A) t ts :
  run_all (map (fun t => Gather (f t) (k t)) (t :: ts)) = let s := flat_map f (t :: ts) in run_all (map (fun t => k t s) (t :: ts)).
Proof.
  cbn [map run_all run].
  assert (E : mapM (fun q : prog A => match q with Gather m k => Ok (m, k) | _ => Err RuntimeError end) (map (fun t => Gather (f t) (k t)) ts) = Ok (map (fun t => (f t, k t)) ts)).
  { induction ts as [|u ts IH]; [reflexivity|]. cbn [map mapM]. cbn. now rewrite IH. }
  rewrite E. cbn. rewrite !map_map. cbn. now rewrite <- flat_map_concat_map.
Qed.
Lemma run_objects A T (f : T -> bool) (k : T -> list bool -> prog A) t ts :
  run_all (map (fun t => GatherObject (f t) (k t)) (t :: ts)) = let s := map f (t :: ts) in run_all (map (fun t => k t s) (t :: ts)).
Proof.
  cbn [map run_all run].
  assert (E : mapM (fun q : prog A => match q with GatherObject m k => Ok (m, k) | _ => Err RuntimeError end) (map (fun t => GatherObject (f t) (k t)) ts) = Ok (map (fun t => (f t, k t)) ts)).
  { induction ts as [|u ts IH]; [reflexivity|]. cbn [map mapM]. cbn. now rewrite IH. }
  rewrite E. cbn. now rewrite !map_map.
Qed.
Lemma run_ret A T (f : T -> A) (ts : list T) : run_all (map (fun t => Ret (f t)) ts) = Ok (map f ts).
Proof.
  destruct ts as [|t ts]; [reflexivity|]. cbn [map run_all run].
  assert (E : mapM (fun q : prog A => match q with Ret b => Ok b | _ => Err RuntimeError end) (map (fun t => Ret (f t)) ts) = Ok (map f ts)).
  { induction ts as [|u ts IH]; [reflexivity|]. cbn [map mapM]. cbn. now rewrite IH. }
  now rewrite E.
Qed.

(** ** Lists *)
Lemma map2_map A B C D (h : A -> B -> C) (f : D -> A) (g : D -> B) l : map2 h (map f l) (map g l) = map (fun x => h (f x) (g x)) l.
Proof. induction l; cbn; [|rewrite IHl]; reflexivity. Qed.
Lemma map2_length A B C (h : A -> B -> C) l m : List.length l = List.length m -> List.length (map2 h l m) = List.length l.
Proof. revert m; induction l; destruct m; cbn; intros; try easy. f_equal. apply IHl. lia. Qed.
Lemma as_table A (d : A) (l : list A) n : List.length l = n -> l = map (fun c => nth c l d) (seq 0 n).
Proof.
  intros <-. induction l as [|a l IH]; [reflexivity|]. cbn [List.length seq map nth]. f_equal. rewrite <- seq_shift, map_map. exact IH.
Qed.
Lemma nth_table A (f : nat -> A) n c d : (c < n)%nat -> nth c (map f (seq 0 n)) d = f c.
Proof. intros H. rewrite nth_indep with (d' := f 0%nat) by (rewrite map_length, seq_length; lia). rewrite map_nth, seq_nth by lia. reflexivity. Qed.
Lemma map_table A (f g : nat -> A) n : (forall c, (c < n)%nat -> f c = g c) -> map f (seq 0 n) = map g (seq 0 n).
Proof. intros H. apply map_ext_in. intros c Hc. apply in_seq in Hc. apply H. lia. Qed.

Section Facts.
Context {U : setup}.
Notation tab := (fun F : nat -> nat -> Qc => codes (fun c => dims (F c))).
Lemma dims_length f : List.length (dims f) = dim_feature.
Proof. unfold dims. now rewrite map_length, seq_length. Qed.
Lemma codes_length A (f : nat -> A) : List.length (codes f) = codebook_size.
Proof. unfold codes. now rewrite map_length, seq_length. Qed.
Lemma nth_codes A (f : nat -> A) c d : (c < codebook_size)%nat -> nth c (codes f) d = f c.
Proof. apply nth_table. Qed.
Lemma nth_dims f j d : (j < dim_feature)%nat -> nth j (dims f) d = f j.
Proof. apply nth_table. Qed.
Lemma codes_ext A (f g : nat -> A) : (forall c, (c < codebook_size)%nat -> f c = g c) -> codes f = codes g.
Proof. apply map_table. Qed.
Lemma dims_ext f g : (forall c, (c < dim_feature)%nat -> f c = g c) -> dims f = dims g.
Proof. apply map_table. Qed.
Lemma is_codes A (d : A) l : List.length l = codebook_size -> l = codes (fun c => nth c l d).
Proof. apply as_table. Qed.
Lemma is_dims l : List.length l = dim_feature -> l = dims (fun c => nth c l 0).
Proof. apply as_table. Qed.
Lemma codes_matrix (f : nat -> vec) : (forall c, (c < codebook_size)%nat -> List.length (f c) = dim_feature) -> is_matrix (codes f).
Proof. intros H. apply Forall_forall. intros v Hv. apply in_map_iff in Hv as (c & <- & Hc). apply in_seq in Hc. apply H. lia. Qed.
Lemma matrix_nth m c : is_matrix m -> (c < List.length m)%nat -> List.length (nth c m []) = dim_feature.
Proof. intros H Hc. unfold is_matrix in H. rewrite Forall_forall in H. apply H. now apply nth_In. Qed.

Lemma vadd_dims f g : vadd (dims f) (dims g) = dims (fun j => f j + g j).
Proof. apply map2_map. Qed.
Lemma madd_codes f g : madd (codes f) (codes g) = codes (fun c => vadd (f c) (g c)).
Proof. apply map2_map. Qed.

(** ** Counting and adding *)
Lemma Qn_add a b : Qn (a + b) = Qn a + Qn b.
Proof. unfold Qn. rewrite Nat2Z.inj_add, inject_Z_plus. apply Qc_is_canon. unfold Qcplus, Q2Qc; cbn [this]. now rewrite !Qred_correct. Qed.
Lemma Qn_nonneg n : 0 <= Qn n.
Proof. unfold Qcle, Qn, Q2Qc; cbn [this]. rewrite !Qred_correct. change 0%Q with (inject_Z 0). rewrite <- Zle_Qle. lia. Qed.
Lemma Qn_pos n : (0 < n)%nat -> 0 < Qn n.
Proof. intros. unfold Qclt, Qn, Q2Qc; cbn [this]. rewrite !Qred_correct. change 0%Q with (inject_Z 0). rewrite <- Zlt_Qlt. lia. Qed.
Lemma count_app c p q : count_of c (p ++ q) = count_of c p + count_of c q.
Proof. unfold count_of. rewrite filter_app, app_length. apply Qn_add. Qed.
Lemma sum_app c j p q : sum_of c j (p ++ q) = sum_of c j p + sum_of c j q.
Proof. induction p as [|a p IH]; cbn [app sum_of]; [ring|rewrite IH; ring]. Qed.
Definition count_table (p : list (nat * vec)) : list Qc := codes (fun c => count_of c p).
Definition sum_table (p : list (nat * vec)) : matrix := codes (fun c => dims (fun j => sum_of c j p)).
Lemma fold_add X (add : X -> X -> X) (t : list (nat * vec) -> X) T (f : T -> list (nat * vec)) :
  (forall p q, add (t p) (t q) = t (p ++ q)) -> forall l x, fold_left add (map (fun r => t (f r)) l) (t (f x)) = t (flat_map f (x :: l)).
Proof.
  intros H l x. cbn [flat_map].
  enough (E : forall l p, fold_left add (map (fun r => t (f r)) l) (t p) = t (p ++ flat_map f l)) by apply E.
  clear l x. induction l as [|y l IH]; intros p; cbn; [now rewrite app_nil_r|]. rewrite H, IH, app_assoc. reflexivity.
Qed.
Lemma add_counts p q : madd [count_table p] [count_table q] = [count_table (p ++ q)].
Proof. cbn. f_equal. unfold count_table, codes, vadd. rewrite map2_map. apply map_ext. intros c. now rewrite count_app. Qed.
Lemma add_sums p q : madd (sum_table p) (sum_table q) = sum_table (p ++ q).
Proof.
  unfold sum_table. rewrite madd_codes. apply codes_ext. intros c _. rewrite vadd_dims. apply dims_ext. intros j _. now rewrite sum_app.
Qed.
Lemma bincount_table idx (x : matrix) : List.length idx = List.length x -> bincount idx = count_table (combine idx x).
Proof.
  intros E. unfold bincount, count_table, codes. apply map_ext. intros c. unfold count_of. do 2 f_equal. revert x E.
  induction idx as [|i idx IH]; intros [|v x]; cbn; intros E; try easy. specialize (IH x ltac:(lia)).
  destruct (Nat.eqb c i); cbn [List.length]; congruence.
Qed.
Lemma fold_rows (p : list (nat * vec)) c : Forall (fun e => List.length (snd e) = dim_feature) p -> forall v, List.length v = dim_feature ->
  fold_left vadd (map snd (filter (fun ir => Nat.eqb c (fst ir)) p)) v = dims (fun j => nth j v 0 + sum_of c j p).
Proof.
  induction 1 as [|[i r] p Hr Hp IH]; intros v Hv; cbn [filter map fold_left sum_of fst snd].
  - rewrite (is_dims Hv) at 1. apply dims_ext. intros. ring.
  - cbn in Hr. destruct (Nat.eqb c i); cbn [map fold_left snd].
    + rewrite IH by (unfold vadd; rewrite map2_length; congruence). apply dims_ext. intros j Hj.
      rewrite (is_dims Hv), (is_dims Hr), vadd_dims, !nth_dims by easy. ring.
    + rewrite IH by easy. apply dims_ext. intros j Hj. ring.
Qed.
Lemma combine_rows idx (x : matrix) : is_matrix x -> Forall (fun e : nat * vec => List.length (snd e) = dim_feature) (combine idx x).
Proof.
  intros H. apply Forall_forall. intros [i r] Hin. apply in_combine_r in Hin. unfold is_matrix in H. rewrite Forall_forall in H. now apply H.
Qed.
Lemma scatter_table idx (x : matrix) : is_matrix x -> scatter idx x = sum_table (combine idx x).
Proof.
  intros H. unfold scatter, sum_table, codes. apply map_ext. intros c.
  rewrite fold_rows; [|now apply combine_rows|unfold vzero; now rewrite repeat_length].
  apply dims_ext. intros j Hj. unfold vzero. rewrite nth_repeat. ring.
Qed.
Lemma index_add_table idx (x : matrix) avg : is_matrix x -> is_matrix avg -> List.length avg = codebook_size ->
  index_add idx x avg = codes (fun c => dims (fun j => ema_decay * cell avg c j + (1 - ema_decay) * sum_of c j (combine idx x))).
Proof.
  intros H Ha Hl. unfold index_add, cell, codes.
  assert (E : combine (seq 0 codebook_size) avg = map (fun c => (c, nth c avg [])) (seq 0 codebook_size)).
  { transitivity (combine (seq 0 codebook_size) (map (fun c => nth c avg []) (seq 0 codebook_size))); [f_equal; now apply as_table|].
    generalize (seq 0 codebook_size). induction l; cbn; congruence. }
  rewrite E, map_map. cbn [fst snd]. apply map_table. intros c Hc.
  pose proof (combine_rows idx H) as Hp. pose proof (matrix_nth Ha (c := c) ltac:(lia)) as Hv. revert Hp. generalize (combine idx x) as p. revert Hv. generalize (nth c avg []) as v. intros v Hv p Hp.
  assert (G : forall w, List.length w = dim_feature -> fold_left vadd (map (fun ir => scale (1 - ema_decay) (snd ir)) (filter (fun ir : nat * vec => Nat.eqb c (fst ir)) p)) w = dims (fun j => nth j w 0 + (1 - ema_decay) * sum_of c j p)).
  { clear Hv v. induction Hp as [|[i r] p Hr Hp IH]; intros w Hw; cbn [filter map fold_left sum_of fst snd].
    - rewrite (is_dims Hw) at 1. apply dims_ext. intros. ring.
    - cbn in Hr. assert (Hs : scale (1 - ema_decay) r = dims (fun j => (1 - ema_decay) * nth j r 0)).
      { unfold scale. rewrite (is_dims Hr) at 1. unfold dims. now rewrite map_map. }
      destruct (Nat.eqb c i); cbn [map fold_left snd].
      + rewrite IH by (unfold vadd; rewrite map2_length; rewrite ?Hs, ?dims_length; congruence). apply dims_ext. intros j Hj.
        rewrite Hs, (is_dims Hw), vadd_dims, !nth_dims by easy. ring.
      + rewrite IH by easy. apply dims_ext. intros j Hj. ring. }
  rewrite G by (unfold scale; now rewrite map_length). apply dims_ext. intros j Hj. f_equal. unfold scale. rewrite (is_dims Hv) at 1. unfold dims. rewrite map_map. now rewrite nth_table.
Qed.

(** ** The total *)
Lemma total_codes f g : total (codes (fun c => f c + g c)) = total (codes f) + total (codes g).
Proof. unfold codes. induction (seq 0 codebook_size) as [|c l IH]; cbn [map total fold_right]; [ring|]. unfold total in IH. rewrite IH. ring. Qed.
Lemma total_scale q f : total (codes (fun c => q * f c)) = q * total (codes f).
Proof. unfold codes. induction (seq 0 codebook_size) as [|c l IH]; cbn [map total fold_right]; [ring|]. unfold total in IH. rewrite IH. ring. Qed.
Lemma total_one n (q : Qc) i : (i < n)%nat -> total (map (fun c => if Nat.eqb c i then q else 0) (seq 0 n)) = q.
Proof.
  assert (Z0 : forall a n, (i < a)%nat -> total (map (fun c => if Nat.eqb c i then q else 0) (seq a n)) = 0).
  { intros a m; revert a; induction m as [|m IH]; intros a H; cbn; [easy|]. destruct (Nat.eqb_spec a i); [lia|]. unfold total in IH. rewrite IH by lia. ring. }
  enough (E : forall a, (a <= i < a + n)%nat -> total (map (fun c => if Nat.eqb c i then q else 0) (seq a n)) = q) by (intros; apply E; lia).
  induction n as [|n IH]; intros a H; [lia|]. cbn. destruct (Nat.eqb_spec a i).
  - specialize (Z0 (S a) n ltac:(lia)). unfold total in Z0. rewrite Z0. ring.
  - specialize (IH (S a) ltac:(lia)). unfold total in IH. rewrite IH. ring.
Qed.
Lemma total_counts (p : list (nat * vec)) : Forall (fun e => (fst e < codebook_size)%nat) p -> total (count_table p) = Qn (List.length p).
Proof.
  induction 1 as [|[i r] p Hi Hp IH].
  - unfold count_table, codes. assert (E0 : forall l, total (map (fun c => count_of c []) l) = 0). { induction l as [|c l IH]; [reflexivity|]. cbn in *. unfold total in IH. rewrite IH. reflexivity. } rewrite E0. reflexivity.
  - change ((i, r) :: p) with ([(i, r)] ++ p). rewrite app_length, Qn_add, <- IH. unfold count_table.
    rewrite (codes_ext (g := fun c => (if Nat.eqb c i then 1 else 0) + count_of c p)).
    + rewrite total_codes. f_equal. apply total_one. exact Hi.
    + intros c _. rewrite count_app. f_equal. unfold count_of. cbn. now destruct (Nat.eqb c i).
Qed.
Lemma total_bounds l : Forall (fun s => 0 <= s) l -> 0 <= total l.
Proof. induction 1; cbn; [easy|]. replace 0 with (0 + 0) by ring. now apply Qcplus_le_compat. Qed.
Lemma count_nonneg c p : 0 <= count_of c p.
Proof. apply Qn_nonneg. Qed.
End Facts.
