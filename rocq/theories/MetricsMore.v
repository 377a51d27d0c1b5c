(** Lemmas for C31: named statistics and maxima. *)
From Coq Require Import QArith Qcanon.
From Coq Require Import Sorting.Sorted.
From Verif Require Import Base BaseFacts Checkpoint CheckpointFacts Json JsonFacts Metrics MetricsFacts MetricsSpec MetricsExact MetricsClose.
Open Scope Z_scope.
Set Implicit Arguments. Unset Strict Implicit.

(** ** Vectors *)
Lemma vplus_assoc a : forall b c, vplus a (vplus b c) = vplus (vplus a b) c.
Proof. induction a as [|x a IH]; intros [|y b] [|z c]; cbn; try reflexivity. rewrite IH. f_equal. ring. Qed.
Lemma vplus_comm a : forall b, vplus a b = vplus b a.
Proof. induction a as [|x a IH]; intros [|y b]; cbn; try reflexivity. rewrite IH. f_equal. ring. Qed.
Lemma vplus_length a : forall b, List.length a = List.length b -> List.length (vplus a b) = List.length a.
Proof. induction a as [|x a IH]; intros [|y b] H; cbn in *; try lia. rewrite IH; lia. Qed.
Lemma vplus_zeros_l a : vplus (repeat 0%Qc (List.length a)) a = a.
Proof. induction a as [|x a IH]; cbn; [reflexivity|]. rewrite IH. f_equal. ring. Qed.
Lemma vtotal_length len l : Forall (fun v => List.length v = len) l -> List.length (vtotal len l) = len.
Proof. induction 1 as [|v l Hv _ IH]; cbn; [apply repeat_length|]. unfold vtotal in IH. rewrite vplus_length; congruence. Qed.
Lemma vtotal_app len a b : Forall (fun v => List.length v = len) b -> vtotal len (a ++ b) = vplus (vtotal len a) (vtotal len b).
Proof.
  intros Hb. induction a as [|v a IH]; cbn [app vtotal fold_right].
  - rewrite <- (vtotal_length Hb) at 2. symmetry. apply vplus_zeros_l.
  - unfold vtotal in *. rewrite IH. apply vplus_assoc.
Qed.
Lemma zip_fin a : forall b, zip_with (R:=exact) xadd (map Fin a) (map Fin b) = map Fin (vplus a b).
Proof. induction a as [|x a IH]; intros [|y b]; cbn; try reflexivity. f_equal. apply IH. Qed.
Lemma fold_vec l : forall (t : tensor) (a : list Qc) len, t_data t = map Fin a -> List.length a = len ->
  Forall2 (fun (t : tensor) (v : list Qc) => t_data t = map Fin v /\ List.length v = len) (fst l) (snd l) ->
  fold_left (@t_add exact) (fst l) t = mk_tensor (R:=exact) (t_shape t) (t_dtype t) (t_here t) (map Fin (vplus a (vtotal len (snd l)))).
Proof.
  destruct l as [ts vs]. cbn [fst snd]. intros t a len Ht Ha H. revert t a Ht Ha. induction H as [|t' v ts vs (H1 & H2) _ IH]; intros t a Ht Ha; cbn [fold_left].
  - cbn. rewrite <- Ha, vplus_comm, vplus_zeros_l, <- Ht. destruct t; reflexivity.
  - rewrite (IH _ (vplus a v)).
    + unfold t_add, on_data. cbn [t_shape t_dtype t_here]. f_equal. f_equal. cbn. unfold vtotal. rewrite vplus_assoc. reflexivity.
    + unfold t_add, on_data. cbn [t_data]. rewrite Ht, H1. apply zip_fin.
    + rewrite vplus_length; congruence.
Qed.
Lemma reduce_vec sh dt len ts vs t : reduce_sum ts = Ok t ->
  Forall2 (fun (t : tensor) v => t = mk_tensor (R:=exact) sh dt true (map Fin v) /\ List.length v = len) ts vs ->
  t = mk_tensor (R:=exact) sh dt true (map Fin (vtotal len vs)).
Proof.
  intros H F. destruct ts as [|t0 ts]; [discriminate|]. cbn in H. injection H as <-. inversion F as [|? v ? vs' (H1 & H2) F']; subst.
  rewrite (@fold_vec (ts, vs') _ v (List.length v)); [reflexivity|reflexivity|reflexivity|].
  cbn [fst snd]. clear - F'. induction F' as [|t w ts ws (H1 & H2) _ IH]; constructor; [|exact IH]. subst t. split; [reflexivity|exact H2].
Qed.

Section Named.
Variables (X : Type) (shape_of : ustr -> list Z) (dtype_of : ustr -> dtype) (len_of : ustr -> nat)
  (vec : ustr -> X -> list Qc) (cnt : ustr -> X -> Z) (tn cn : list ustr).
Notation sums := (sums shape_of dtype_of len_of vec).
Notation counts := (counts cnt).
Hypothesis vec_len : forall nm x, List.length (vec nm x) = len_of nm.
Hypothesis tn_sorted : StronglySorted (fun a b => ustr_ltb a b = true) tn.
Hypothesis cn_sorted : StronglySorted (fun a b => ustr_ltb a b = true) cn.
Variable finalizers : ustr -> option (list (ustr * tensor) -> list (ustr * Z) -> res tensor).
Variable schema_valid : ustr -> list ustr -> list ustr -> bool.
Notation close_key := (@close_key exact finalizers schema_valid).

Lemma increasing_map (A : Type) (f : ustr -> A) l : StronglySorted (fun a b => ustr_ltb a b = true) l -> increasing (map (fun nm => (nm, f nm)) l).
Proof.
  induction 1 as [|a l _ IH H]; cbn; [constructor|]. constructor; [exact IH|]. apply Forall_map. eapply Forall_impl; [|exact H]. intros b Hb. exact Hb.
Qed.
Lemma sorted_dict (A : Type) (f : ustr -> A) l x : StronglySorted (fun a b => ustr_ltb a b = true) l -> Permutation x (map (fun nm => (nm, f nm)) l) ->
  sorted_items x = map (fun nm => (nm, f nm)) l /\ (forall nm, In nm l -> obj_get x nm = Some (f nm)).
Proof.
  intros Hl P. pose proof (increasing_map f Hl) as I. pose proof (increasing_NoDup I) as N.
  assert (Nx : NoDup (map fst x)) by (eapply Permutation_NoDup; [symmetry; apply Permutation_map; exact P|exact N]). split.
  - unfold sorted_items. rewrite (sort_unique Nx P). apply sort_increasing. exact I.
  - intros nm H. rewrite (@obj_get_perm _ x _ nm Nx P). apply obj_get_nodup; [exact N|]. apply in_map_iff. exists nm. split; [reflexivity|exact H].
Qed.
(** The statistic of a list of rows. *)
Definition named_stat (fid : ustr) (rows : list X) (s : stat) : Prop :=
  exists x n, s = Sufficient GlobalBatch fid x n /\ Permutation x (sums tn rows) /\ Permutation n (counts cn rows).
(** What a rank contributes. *)
Definition given (p : bool * list X) : list X := if fst p then snd p else [].

Lemma close_named fid F column parts cl : finalizers fid = Some F ->
  Forall2 (fun (p : bool * stat) (q : bool * list X) => fst p = fst q /\ named_stat fid (snd q) (snd p)) column parts -> close_key column = Ok cl ->
  exists val, cl = map (fun _ => SumCount Evaluation val 1) column /\
    F (sums tn (flat_map given parts)) (counts cn (flat_map given parts)) = Ok val.
Proof.
  intros HF Hc H. unfold Metrics.close_key in H. destruct column as [|[i0 s0] c0]; [discriminate|].
  inversion Hc as [|? ? ? ? Hc0 Hc']; subst. destruct Hc0 as (_ & x0 & n0 & E0 & P0 & Q0). cbn [snd] in E0. subst s0.
  rewrite (proj1 (sorted_dict tn_sorted P0)) in H. rewrite (proj1 (sorted_dict cn_sorted Q0)) in H.
  set (column := (i0, Sufficient GlobalBatch fid x0 n0) :: c0) in *. clearbody column. generalize dependent (y :: l'). clear Hc' l'. intros parts Hc.
  assert (T : forall l r, incl l tn -> mapM (fun kt : ustr * tensor => locals <- mapM (masked_tensor (fst kt)) column ;; t <- reduce_sum locals ;; Ok (fst kt, t)) 
     (map (fun nm => (nm, mk_tensor (R:=exact) (shape_of nm) (dtype_of nm) true (map Fin (vtotal (len_of nm) (map (vec nm) (snd y)))))) l) = Ok r ->
     r = sums l (flat_map given parts)).
  { clear H. induction l as [|nm l IH]; intros r Hl H; cbn [map mapM fst] in H; [injection H as <-; reflexivity|].
    destruct (mapM (masked_tensor nm) column) as [locals|] eqn:Em; [|discriminate]. cbn [bind] in H. destruct (reduce_sum locals) as [t|] eqn:Er; [|discriminate]. cbn [bind] in H.
    match type of H with context [mapM ?g ?l0] => destruct (mapM g l0) as [r'|] eqn:E' end; [|discriminate]. injection H as <-.
    rewrite (IH r'); [|intros z Hz; apply Hl; right; exact Hz|reflexivity]. cbn [MetricsSpec.sums map]. f_equal. f_equal.
    assert (V : Forall2 (fun (t : tensor) v => t = mk_tensor (R:=exact) (shape_of nm) (dtype_of nm) true (map Fin v) /\ List.length v = len_of nm)
       locals (map (fun q => vtotal (len_of nm) (map (vec nm) (given q))) parts)).
    { apply mapM_Forall2 in Em. assert (Hc2 : Forall2 (fun (p : bool * stat) (q : bool * list X) => fst p = fst q /\ named_stat fid (snd q) (snd p)) column parts) by exact Hc.
      clear - Em Hc2 Hl tn_sorted vec_len. revert Em. generalize locals. clear locals. induction Hc2 as [|p q ps qs (F1 & x & n & F2 & F3 & F4) _ IHc]; intros locals Em; inversion Em as [|? t ? ts E1 E2]; subst; [constructor|].
      cbn [map]. constructor; [|apply IHc; exact E2]. destruct p as [i s]. cbn [fst snd] in *. subst i s. cbn in E1.
      rewrite (proj2 (sorted_dict tn_sorted F3) nm) in E1 by (apply Hl; left; reflexivity). injection E1 as <-. unfold given. destruct (fst q).
      - split; [reflexivity|]. apply vtotal_length. apply Forall_map. apply Forall_forall. intros z _. apply vec_len.
      - cbn. split; [|apply repeat_length]. unfold t_fill, on_data. cbn. f_equal. rewrite map_map, map_repeat.
        assert (L : List.length (vtotal (len_of nm) (map (vec nm) (snd q))) = len_of nm) by (apply vtotal_length; apply Forall_map; apply Forall_forall; intros z _; apply vec_len).
        rewrite <- L at 2. generalize (vtotal (len_of nm) (map (vec nm) (snd q))). intros l0. induction l0 as [|z l0 I0]; [reflexivity|]. cbn. f_equal. exact I0. }
    rewrite (reduce_vec Er V). f_equal. f_equal. clear - vec_len. induction parts as [|q qs IHq]; [reflexivity|]. cbn [map flat_map]. rewrite map_app, vtotal_app; [|apply Forall_map; apply Forall_forall; intros z _; apply vec_len].
    cbn [vtotal fold_right]. unfold vtotal at 1. cbn. f_equal. exact IHq. }
  assert (C : forall l r, incl l cn -> mapM (fun kc : ustr * Z => locals <- mapM (masked_named_count (fst kc)) column ;; Ok (fst kc, zsum locals))
     (map (fun nm => (nm, zsum (map (cnt nm) (snd y)))) l) = Ok r -> r = counts l (flat_map given parts)).
  { clear H. induction l as [|nm l IH]; intros r Hl H; cbn [map mapM fst] in H; [injection H as <-; reflexivity|].
    destruct (mapM (masked_named_count nm) column) as [locals|] eqn:Em; [|discriminate]. cbn [bind] in H.
    match type of H with context [mapM ?g ?l0] => destruct (mapM g l0) as [r'|] eqn:E' end; [|discriminate]. injection H as <-.
    rewrite (IH r'); [|intros z Hz; apply Hl; right; exact Hz|reflexivity]. cbn [MetricsSpec.counts map]. f_equal. f_equal.
    apply mapM_Forall2 in Em. assert (Hc2 : Forall2 (fun (p : bool * stat) (q : bool * list X) => fst p = fst q /\ named_stat fid (snd q) (snd p)) column parts) by exact Hc.
    clear - Em Hc2 Hl cn_sorted. revert Em. generalize locals. clear locals. induction Hc2 as [|p q ps qs (F1 & x & n & F2 & F3 & F4) _ IHc]; intros locals Em; inversion Em as [|? t ? ts E1 E2]; subst; [reflexivity|].
    cbn [flat_map]. rewrite map_app, zsum_app, zsum_cons. f_equal; [|apply IHc; exact E2]. destruct p as [i s]. cbn [fst snd] in *. subst i s. cbn in E1.
    rewrite (proj2 (sorted_dict cn_sorted F4) nm) in E1 by (apply Hl; left; reflexivity). injection E1 as <-. unfold given. destruct (fst q); reflexivity. }
  match type of H with context [mapM ?g ?l0] => destruct (mapM g l0) as [ts|] eqn:Et end; [|discriminate]. cbn [bind] in H. apply T in Et; [|apply incl_refl].
  match type of H with context [mapM ?g ?l0] => destruct (mapM g l0) as [ns|] eqn:En end; [|discriminate]. cbn [bind] in H. apply C in En; [|apply incl_refl]. subst ts ns.
  match type of H with bind ?m _ = _ => destruct m as [s|] eqn:Es end; [|discriminate]. cbn [bind] in H. unfold sufficient in Es. apply guard_Ok in Es as (_ & Es). apply guard_Ok in Es as (_ & Es). apply guard_Ok in Es as (_ & Es). injection Es as <-.
  cbn [finalize_sufficient] in H. rewrite HF in H. match type of H with context [F ?a ?b] => destruct (F a b) as [val|] eqn:EF end; [|discriminate]. cbn [bind] in H.
  match type of H with bind ?m _ = _ => destruct m as [s|] eqn:Es end; [|discriminate]. cbn [bind] in H. apply sum_count_Ok in Es. subst s. injection H as H. exists val. split; [symmetry; exact H|reflexivity].
Qed.
End Named.

(** ** Maxima *)
Lemma qmax_l p q : (p <= qmax p q)%Qc.
Proof. unfold qmax. destruct (p ?= q)%Qc eqn:E; try apply Qcle_refl. apply Qclt_le_weak. apply Qclt_alt. exact E. Qed.
Lemma qmax_r p q : (q <= qmax p q)%Qc.
Proof. unfold qmax. destruct (p ?= q)%Qc eqn:E; [apply Qceq_alt in E; subst; apply Qcle_refl|apply Qcle_refl|]. apply Qclt_le_weak. apply Qcgt_alt. exact E. Qed.
Lemma qmax_case p q : qmax p q = p \/ qmax p q = q.
Proof. unfold qmax. destruct (p ?= q)%Qc; auto. Qed.
Lemma qmax_lub p q m : (p <= m)%Qc -> (q <= m)%Qc -> (qmax p q <= m)%Qc.
Proof. destruct (qmax_case p q) as [-> | ->]; auto. Qed.
Lemma qmax_assoc p q r : qmax p (qmax q r) = qmax (qmax p q) r.
Proof.
  apply Qcle_antisym.
  - apply qmax_lub; [eapply Qcle_trans; [apply qmax_l|apply qmax_l]|]. apply qmax_lub; [eapply Qcle_trans; [apply qmax_r|apply qmax_l]|apply qmax_r].
  - apply qmax_lub; [|eapply Qcle_trans; [apply qmax_r|apply qmax_r]]. apply qmax_lub; [apply qmax_l|]. eapply Qcle_trans; [apply qmax_l|apply qmax_r].
Qed.
Lemma xmax_assoc a b c : xmax a (xmax b c) = xmax (xmax a b) c.
Proof. destruct a as [p| |], b as [q| |], c as [r| |]; cbn; try reflexivity. f_equal. apply qmax_assoc. Qed.
Lemma xmax_inf_l a : xmax MinusInf a = a.
Proof. destruct a; reflexivity. Qed.
Lemma xmax_inf_r a : xmax a MinusInf = a.
Proof. destruct a; reflexivity. Qed.
Definition xmaxs (l : list xq) : xq := fold_right xmax MinusInf l.
Lemma xmaxs_app a b : xmaxs (a ++ b) = xmax (xmaxs a) (xmaxs b).
Proof. induction a as [|x a IH]; cbn; [symmetry; apply xmax_inf_l|]. unfold xmaxs in *. rewrite IH. apply xmax_assoc. Qed.
Lemma qmax_comm p q : qmax p q = qmax q p.
Proof. apply Qcle_antisym; apply qmax_lub; (apply qmax_l || apply qmax_r). Qed.
Lemma xmax_comm a b : xmax a b = xmax b a.
Proof. destruct a as [p| |], b as [q| |]; cbn; try reflexivity. f_equal. apply qmax_comm. Qed.
(** The largest of finitely many numbers. *)
Lemma xmaxs_fin l : l <> [] -> exists m, xmaxs (map Fin l) = Fin m /\ In m l /\ forall q, In q l -> (q <= m)%Qc.
Proof.
  induction l as [|q l IH]; intros H; [congruence|]. destruct l as [|r l].
  - exists q. split; [reflexivity|]. split; [left; reflexivity|]. intros q' [<-|[]]. apply Qcle_refl.
  - destruct IH as (m & E & I & U); [discriminate|]. exists (qmax q m). cbn [map] in E |- *. change (xmaxs (Fin q :: Fin r :: map Fin l)) with (xmax (Fin q) (xmaxs (Fin r :: map Fin l))). rewrite E. split; [reflexivity|]. split.
    + destruct (qmax_case q m) as [-> | ->]; [left; reflexivity|right; exact I].
    + intros q' [<-|Hq]; [apply qmax_l|]. eapply Qcle_trans; [apply U; exact Hq|apply qmax_r].
Qed.

Section Max.
Variable finalizers : ustr -> option (list (ustr * tensor) -> list (ustr * Z) -> res tensor).
Variable schema_valid : ustr -> list ustr -> list ustr -> bool.
Variable reduce_max : list tensor -> res tensor.
Notation key_run := (@key_run exact finalizers schema_valid).
Notation acc_column := (@acc_column exact finalizers schema_valid).
Notation close_key := (@close_key exact finalizers schema_valid).
Notation gather_key := (@gather_key exact finalizers schema_valid reduce_max).
Definition max_stat (s : stat) : Prop := exists t n, s = Maximum t n /\ scalar t /\ 0 <= n.
Definition candidate (s : stat) : xq := match s with Maximum t n => if n =? 0 then MinusInf else data1 t | _ => NotANumber end.
Definition max_state (ts : list (option stat)) : Prop := Forall (fun o => match o with None => True | Some s => max_stat s end) ts.
Definition state_max (ts : list (option stat)) : xq := xmaxs (map (fun o => match o with Some s => candidate s | None => MinusInf end) ts).
Definition shown_max (p : bool * stat) : xq := if fst p then candidate (snd p) else MinusInf.

Lemma acc_key_max t inc s x : accumulate_key finalizers schema_valid t inc s = Ok x ->
  match t with None => True | Some s => max_stat s end -> max_stat s ->
  max_stat x /\ candidate x = xmax (match t with Some s => candidate s | None => MinusInf end) (shown_max (inc, s)).
Proof.
  unfold accumulate_key, shown_max. cbn [fst snd]. intros H Ht (t0 & n & -> & (y & Hy) & Hn).
  destruct t as [s|]; destruct inc.
  - destruct Ht as (t1 & m & -> & (z & Hz) & Hm). cbn [Metrics.combine] in H. destruct (compatible t1 t0); [|discriminate]. cbn [candidate].
    destruct (m =? 0) eqn:Em.
    { injection H as <-. rewrite xmax_inf_l. split; [exists t0, n; split; [reflexivity|split; [eexists; exact Hy|exact Hn]]|reflexivity]. }
    destruct (n =? 0) eqn:En.
    { injection H as <-. rewrite xmax_inf_r. split; [exists t1, m; split; [reflexivity|split; [eexists; exact Hz|exact Hm]]|]. cbn [candidate]. rewrite Em. reflexivity. }
    unfold maximum in H. apply guard_Ok in H as (_ & H). injection H as <-.
    assert (E : t_data (t_max t1 t0) = [xmax z y]) by (unfold t_max, on_data; cbn; rewrite Hz, Hy; reflexivity).
    cbn [candidate]. replace (m + n =? 0) with false by lia. rewrite (data1_eq E), (data1_eq Hz), (data1_eq Hy). split; [|reflexivity].
    exists (t_max t1 t0), (m + n). split; [reflexivity|]. split; [eexists; exact E|lia].
  - injection H as <-. split; [exact Ht|]. rewrite xmax_inf_r. reflexivity.
  - injection H as <-. split; [exists t0, n; split; [reflexivity|split; [eexists; exact Hy|exact Hn]]|]. rewrite xmax_inf_l. reflexivity.
  - cbn in H. injection H as <-. split; [exists t0, 0; split; [reflexivity|split; [eexists; exact Hy|lia]]|reflexivity].
Qed.
Lemma max4 a b c d : xmax (xmax a b) (xmax c d) = xmax (xmax a c) (xmax b d).
Proof. rewrite <- !xmax_assoc. f_equal. rewrite !xmax_assoc. f_equal. apply xmax_comm. Qed.
Lemma acc_max incs : forall ts closed ts', acc_column ts incs closed = Ok ts' -> max_state ts -> Forall max_stat closed ->
  max_state ts' /\ state_max ts' = xmax (state_max ts) (xmaxs (map shown_max (List.combine incs closed))).
Proof.
  induction incs as [|i is IH]; intros [|t ts] [|c cs] ts' H Hs Hc; cbn in H; try discriminate.
  - injection H as <-. split; [constructor|reflexivity].
  - destruct (accumulate_key finalizers schema_valid t i c) as [x|] eqn:E; [|discriminate]. cbn [bind] in H. destruct (acc_column ts is cs) as [r|] eqn:Er; [|discriminate]. injection H as <-.
    inversion Hs as [|? ? Hs1 Hs2]; subst. inversion Hc as [|? ? Hc1 Hc2]; subst.
    destruct (acc_key_max E Hs1 Hc1) as (S1 & S2). destruct (IH ts cs r Er Hs2 Hc2) as (R1 & R2).
    split; [constructor; [exact S1|exact R1]|]. unfold state_max in *. cbn [List.combine map].
    change (xmaxs (candidate x :: map (fun o : option stat => match o with Some s => candidate s | None => MinusInf end) r)) with (xmax (candidate x) (xmaxs (map (fun o : option stat => match o with Some s => candidate s | None => MinusInf end) r))).
    rewrite R2, S2. apply max4.
Qed.
Lemma close_max column cl : Forall (fun p : bool * stat => max_stat (snd p)) column -> close_key column = Ok cl ->
  Forall max_stat cl /\ map shown_max (List.combine (map fst column) cl) = map shown_max column.
Proof.
  intros Hc H. assert (H' : mapM (keep_or_empty finalizers schema_valid) column = Ok cl).
  { unfold Metrics.close_key in H. destruct column as [|[i0 s0] c0]; [discriminate|].
    inversion Hc as [|? ? (t0 & n0 & E0 & _) _]; subst. cbn [snd] in E0. subst s0. exact H. }
  clear H. apply mapM_Forall2 in H'. induction H' as [|[i s] y c ys E _ IH]; [split; [constructor|reflexivity]|].
  inversion Hc as [|? ? (t & n & Hs & (z & Hz) & Hn) Hc2]; subst. cbn [snd] in Hs. subst s. destruct (IH Hc2) as (I1 & I2). cbn [map List.combine fst]. rewrite I2. destruct i.
  - injection E as <-. split; [constructor; [exists t, n; split; [reflexivity|split; [eexists; exact Hz|exact Hn]]|exact I1]|reflexivity].
  - cbn [keep_or_empty] in E. unfold maximum in E. apply guard_Ok in E as (_ & E). injection E as <-.
    split; [constructor; [exists t, 0; split; [reflexivity|split; [eexists; exact Hz|lia]]|exact I1]|reflexivity].
Qed.
Lemma run_max columns : forall ts ts', Forall (Forall (fun p : bool * stat => max_stat (snd p))) columns -> key_run ts columns = Ok ts' -> max_state ts ->
  max_state ts' /\ state_max ts' = xmax (state_max ts) (xmaxs (flat_map (map shown_max) columns)).
Proof.
  induction columns as [|c cs IH]; intros ts ts' Hc H Hs; cbn in H.
  - injection H as <-. split; [exact Hs|]. cbn. symmetry. apply xmax_inf_r.
  - inversion Hc as [|? ? Hc1 Hc2]; subst. unfold MetricsFacts.key_step in H. destruct (close_key c) as [cl|] eqn:Ec; [|discriminate]. cbn [bind] in H.
    destruct (close_max Hc1 Ec) as (M1 & M2). destruct (acc_column ts (map fst c) cl) as [ts1|] eqn:E; [|discriminate]. cbn [bind] in H.
    destruct (acc_max E Hs M1) as (A1 & A2). destruct (IH ts1 ts' Hc2 H A1) as (B1 & B2). split; [exact B1|]. rewrite B2, A2, M2. cbn [flat_map]. rewrite xmaxs_app, xmax_assoc. reflexivity.
Qed.
Theorem max_result columns world column t v : takes_maximum reduce_max ->
  Forall (Forall (fun p : bool * stat => max_stat (snd p))) columns ->
  key_run (repeat None world) columns = Ok (map Some column) -> gather_key column = Ok t -> item t = Ok v ->
  v = xmaxs (flat_map (map shown_max) columns).
Proof.
  intros Hm Hc Hr Hg Hi.
  assert (N : max_state (repeat None world) /\ state_max (repeat None world) = MinusInf).
  { clear. induction world as [|n (I1 & I2)]; [split; [constructor|reflexivity]|]. split; [constructor; [exact I|exact I1]|]. unfold state_max in *. cbn [repeat map]. change (xmax MinusInf (xmaxs (map (fun o : option stat => match o with Some s => candidate s | None => MinusInf end) (repeat None n))) = MinusInf). rewrite I2. reflexivity. }
  destruct N as (N1 & N2). destruct (run_max Hc Hr N1) as (S1 & S2). rewrite N2, xmax_inf_l in S2.
  assert (Hs : Forall max_stat column).
  { apply Forall_forall. intros s Hs. unfold max_state in S1. rewrite Forall_forall in S1. apply (S1 (Some s)). apply in_map. exact Hs. }
  unfold state_max in S2. rewrite map_map in S2. change (xmaxs (map candidate column) = xmaxs (flat_map (map shown_max) columns)) in S2. rewrite <- S2.
  destruct column as [|c cs]; [discriminate|]. pose proof Hs as Hs'. inversion Hs' as [|? ? Hs1 _]; subst. destruct Hs1 as (t0 & n0 & -> & _).
  set (column := Maximum t0 n0 :: cs) in *. assert (Ne : column <> []) by discriminate. unfold Metrics.gather_key in Hg. unfold column at 1 in Hg. clearbody column.
  match type of Hg with context [mapM ?g column] => destruct (mapM g column) as [cands|] eqn:Em end; [|discriminate]. cbn [bind] in Hg.
  assert (X : map (@t_data exact) cands = map (fun x => [x]) (map candidate column)).
  { apply mapM_Forall2 in Em. clear - Em Hs. induction Em as [|s y ss ys E _ IH]; [reflexivity|]. inversion Hs as [|? ? (t & n & -> & (z & Hz) & Hn) Hs2]; subst.
    cbn [map]. rewrite (IH Hs2). f_equal. injection E as <-. cbn [candidate]. destruct (n =? 0); [unfold t_fill, on_data; cbn; rewrite Hz; reflexivity|]. rewrite (data1_eq Hz). exact Hz. }
  destruct (Hm cands (map candidate column)) as (t1 & T1 & T2); [destruct column; [congruence|discriminate]|exact X|]. rewrite T1 in Hg. cbn [bind] in Hg.
  apply guard_Ok in Hg as (Hz & Hg). injection Hg as <-. unfold item in Hi. rewrite T2 in Hi. injection Hi as <-. reflexivity.
Qed.
End Max.
