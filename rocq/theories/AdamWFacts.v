(** Layouts, lanes and lists of cell updates, for C64. *)
From Coq Require Import Permutation.
From Verif Require Import Base BaseFacts DataMixFacts AdamW AdamWSpec.
Set Implicit Arguments. Unset Strict Implicit.

(** ** Layouts *)
Lemma insert_perm x l : Permutation (insert_pair x l) (x :: l).
Proof. induction l as [|y l IH]; [reflexivity|]. cbn. destruct (pair_le x y); [reflexivity|]. rewrite IH. apply perm_swap. Qed.
Lemma sort_perm l : Permutation (sort_pairs l) l.
Proof. induction l as [|x l IH]; [reflexivity|]. cbn. rewrite insert_perm, IH. reflexivity. Qed.
(** numbers reached with digits below the sizes; entries are (stride, size) *)
Definition reach (l : list (nat * nat)) (k : nat) : Prop :=
  exists i, Forall2 (fun a e => (a < snd e)%nat) i l /\ k = dot i (map fst l).
Lemma reach_cons e l k : reach (e :: l) k <-> exists a r, (a < snd e)%nat /\ reach l r /\ k = (a * fst e + r)%nat.
Proof.
  split.
  - intros (i & H & ->). inversion H as [|a ? i' ? Ha Hi]; subst. exists a, (dot i' (map fst l)). split; [exact Ha|]. split; [|reflexivity]. exists i'. split; [exact Hi|reflexivity].
  - intros (a & r & Ha & (i & Hi & ->) & ->). exists (a :: i). split; [constructor; assumption|reflexivity].
Qed.
Lemma reach_perm l m : Permutation l m -> forall k, reach l k -> reach m k.
Proof.
  induction 1 as [|e l m _ IH|e f l|l m n _ IH1 _ IH2]; intros k H; auto.
  - apply reach_cons in H. destruct H as (a & r & Ha & Hr & ->). apply reach_cons. exists a, r. auto.
  - apply reach_cons in H. destruct H as (a & r & Ha & Hr & ->). apply reach_cons in Hr. destruct Hr as (b & q & Hb & Hq & ->). apply reach_cons. exists b, (a * fst f + q)%nat. split; [exact Hb|]. split; [|cbn; lia]. apply reach_cons. exists a, q. auto.
Qed.
Definition prod (l : list nat) : nat := fold_right Nat.mul 1%nat l.
Lemma covered_reach l : forall c, covers c l = true -> forall k, (k < c * prod (map snd l))%nat <-> exists q r, (r < c)%nat /\ reach l q /\ k = (r + q)%nat.
Proof.
  induction l as [|(st, sz) l IH]; intros c H k; cbn [covers map prod fold_right snd] in *.
  - split.
    + intros L. exists 0%nat, k. split; [lia|]. split; [|lia]. exists []. split; [constructor|reflexivity].
    + intros (q & r & Hr & (i & Hi & ->) & ->). inversion Hi; subst. cbn. lia.
  - apply Bool.andb_true_iff in H. destruct H as (E & H). apply Nat.eqb_eq in E. subst st. specialize (IH _ H). change (fold_right Nat.mul 1%nat (map snd l)) with (prod (map snd l)) in *.
    rewrite Nat.mul_assoc. rewrite IH. split.
    + intros (q & r & Hr & Hq & ->). assert (Nc : (c <> 0)%nat) by nia. exists (r / c * c + q)%nat, (r mod c)%nat. split; [apply Nat.mod_upper_bound; exact Nc|]. split.
      * apply reach_cons. exists (r / c)%nat, q. cbn [fst snd]. split; [apply Nat.div_lt_upper_bound; nia|]. auto.
      * pose proof (Nat.div_mod r c Nc). nia.
    + intros (q & r & Hr & Hq & ->). apply reach_cons in Hq. destruct Hq as (a & q' & Ha & Hq & ->). cbn [fst snd] in *. exists q', (r + a * c)%nat. split; [nia|]. split; [exact Hq|lia].
Qed.
Lemma prod_perm l m : Permutation l m -> prod l = prod m.
Proof. induction 1; cbn in *; unfold prod in *; cbn; lia. Qed.

Definition swap (e : nat * nat) : nat * nat := let '(size, stride) := e in (stride, size).
Lemma flat_reach e k : covers 1 (sort_pairs (map swap e)) = true -> (k < prod (map fst e))%nat <-> reach (map swap e) k.
Proof.
  intros H. rewrite <- (Nat.mul_1_l (prod (map fst e))). assert (P : prod (map fst e) = prod (map snd (sort_pairs (map swap e)))).
  { transitivity (prod (map snd (map swap e))); [rewrite map_map; f_equal; apply map_ext; intros (a, b); reflexivity|]. apply prod_perm. apply Permutation_map. symmetry. apply sort_perm. }
  rewrite P, (covered_reach H). split.
  - intros (q & r & Hr & Hq & ->). replace r with 0%nat by lia. apply (reach_perm (sort_perm _)). exact Hq.
  - intros Hq. exists k, 0%nat. split; [lia|]. split; [|lia]. apply (reach_perm (Permutation_sym (sort_perm _))). exact Hq.
Qed.
(** dropping the dimensions of size 1 *)
Definition ext (s st : list nat) := filter (fun e : nat * nat => negb (fst e =? 1)%nat) (combine s st).
Lemma ext_prod s : forall st, List.length st = List.length s -> prod (map fst (ext s st)) = prod s.
Proof.
  induction s as [|n s IH]; intros [|d st] L; try discriminate; [reflexivity|]. cbn in L. unfold ext in *. cbn [combine filter fst]. destruct (Nat.eqb_spec n 1) as [-> |N]; cbn [negb].
  - rewrite IH by lia. unfold prod. cbn. lia.
  - cbn [map fst prod fold_right]. unfold prod in *. cbn. rewrite <- (IH st) by lia. reflexivity.
Qed.
(** the digits of an index in the other dimensions *)
Fixpoint digits (i s : list nat) : list nat := match i, s with a :: i, n :: s => if (n =? 1)%nat then digits i s else a :: digits i s | _, _ => [] end.
Lemma digits_dot s : forall i st, Forall2 lt i s -> List.length st = List.length s ->
  dot i st = dot (digits i s) (map fst (map swap (ext s st))) /\ Forall2 (fun a e => (a < snd e)%nat) (digits i s) (map swap (ext s st)).
Proof.
  induction s as [|n s IH]; intros i st H L; inversion H as [|a ? i' ? Ha Hi]; subst; destruct st as [|d st]; try discriminate; [split; [reflexivity|constructor]|].
  cbn in L. destruct (IH i' st Hi ltac:(lia)) as (E & F). unfold ext in *. cbn [combine filter fst digits dot]. destruct (Nat.eqb_spec n 1) as [-> |N]; cbn [negb].
  - split; [rewrite <- E; replace a with 0%nat by lia; lia|exact F].
  - cbn [map fst swap dot]. split; [rewrite E; reflexivity|]. constructor; [exact Ha|exact F].
Qed.
Lemma undigits s : forall d st, List.length st = List.length s -> Forall2 (fun a e => (a < snd e)%nat) d (map swap (ext s st)) -> exists i, Forall2 lt i s /\ digits i s = d.
Proof.
  induction s as [|n s IH]; intros d st L H; destruct st as [|x st]; try discriminate.
  - cbn in H. inversion H; subst. exists []. split; [constructor|reflexivity].
  - cbn in L. unfold ext in *. cbn [combine filter fst] in H. destruct (Nat.eqb_spec n 1) as [-> |N]; cbn [negb] in H.
    + destruct (IH d st ltac:(lia) H) as (i & Hi & E). exists (0%nat :: i). split; [constructor; [lia|exact Hi]|]. exact E.
    + cbn [map swap] in H. inversion H as [|a ? d' ? Ha Hd]; subst. destruct (IH d' st ltac:(lia) Hd) as (i & Hi & E). exists (a :: i). split; [constructor; [exact Ha|exact Hi]|]. cbn. destruct (Nat.eqb_spec n 1); [contradiction|]. rewrite E. reflexivity.
Qed.
Lemma flat_some t e : flat_layout t = Some e -> e = ext (shape t) (strides t) /\ covers 1 (sort_pairs (map swap e)) = true.
Proof. unfold flat_layout. change (extents t) with (ext (shape t) (strides t)). fold swap. destruct (covers 1 _) eqn:C; [|discriminate]. intros H. injection H as <-. split; [reflexivity|exact C]. Qed.
(** A flat layout visits exactly the first [numel] addresses. *)
Lemma flat_in t e i : flat_layout t = Some e -> List.length (strides t) = List.length (shape t) -> index_of t i -> (dot i (strides t) < numel t)%nat.
Proof.
  intros H L Hi. destruct (flat_some H) as (-> & C). change (numel t) with (prod (shape t)). rewrite <- (ext_prod L). apply (flat_reach _ C). destruct (digits_dot Hi L) as (E & F). exists (digits i (shape t)). split; [exact F|exact E].
Qed.
Lemma flat_onto t e k : flat_layout t = Some e -> List.length (strides t) = List.length (shape t) -> (k < numel t)%nat -> exists i, index_of t i /\ dot i (strides t) = k.
Proof.
  intros H L Hk. destruct (flat_some H) as (-> & C). change (numel t) with (prod (shape t)) in Hk. rewrite <- (ext_prod L) in Hk. apply (flat_reach _ C) in Hk. destruct Hk as (d & Hd & ->).
  destruct (undigits L Hd) as (i & Hi & <-). exists i. split; [exact Hi|]. apply (digits_dot Hi L).
Qed.
Lemma flat_same t u e i : flat_layout t = Some e -> flat_layout u = Some e -> shape u = shape t -> List.length (strides t) = List.length (shape t) -> List.length (strides u) = List.length (shape t) ->
  index_of t i -> dot i (strides u) = dot i (strides t).
Proof.
  intros H1 H2 S L1 L2 Hi. destruct (flat_some H1) as (E1 & _). destruct (flat_some H2) as (E2 & _). rewrite S in E2. destruct (digits_dot Hi L1) as (D1 & _). destruct (digits_dot Hi L2) as (D2 & _). rewrite D1, D2, <- E1, <- E2. reflexivity.
Qed.
Lemma layout_eqb_ok a b : layout_eqb a b = true -> a = b.
Proof.
  assert (L : forall l m, list_eqb pair_eqb l m = true -> l = m).
  { induction l as [|(a1, a2) l IH]; intros [|(b1, b2) m] H; try discriminate; [reflexivity|]. cbn in H. apply Bool.andb_true_iff in H. destruct H as (H & H3). apply Bool.andb_true_iff in H. cbn in H. destruct H as (H1 & H2). apply Nat.eqb_eq in H1. apply Nat.eqb_eq in H2. subst. f_equal. apply IH. exact H3. }
  destruct a as [a|], b as [b|]; cbn; intros H; try discriminate; [f_equal; apply L; exact H|reflexivity].
Qed.
Lemma zlist_eqb_ok l : forall m, zlist_eqb l m = true <-> l = m.
Proof.
  unfold zlist_eqb. induction l as [|a l IH]; intros [|b m]; cbn; split; intros H; try discriminate; try reflexivity.
  - apply Bool.andb_true_iff in H. destruct H as (H1 & H2). apply Z.eqb_eq in H1. apply IH in H2. congruence.
  - injection H as -> ->. rewrite Z.eqb_refl. cbn. apply IH. reflexivity.
Qed.

(** ** Indices *)
Lemma in_indices s : forall i, List.In i (indices s) <-> Forall2 lt i s.
Proof.
  induction s as [|n s IH]; intros i; cbn [indices].
  - split; [intros [<-|[]]; constructor|intros H; inversion H; left; reflexivity].
  - rewrite in_flat_map. split.
    + intros (a & Ha & H). apply in_seq in Ha. apply in_map_iff in H. destruct H as (j & <- & Hj). constructor; [lia|]. apply IH. exact Hj.
    + intros H. inversion H as [|a ? j ? Ha Hj]; subst. exists a. split; [apply in_seq; lia|]. apply in_map. apply IH. exact Hj.
Qed.
Lemma indices_nodup s : NoDup (indices s).
Proof.
  induction s as [|n s IH]; cbn [indices]; [repeat constructor; intros []|]. apply NoDup_flat_map; [apply seq_NoDup| |].
  - intros a _. apply FinFun.Injective_map_NoDup; [|exact IH]. intros x y E. congruence.
  - intros a b i _ _ Ha Hb. apply in_map_iff in Ha. apply in_map_iff in Hb. destruct Ha as (x & <- & _). destruct Hb as (y & E & _). congruence.
Qed.

(** ** Lanes *)
Lemma combine_unzip A C (l : list (A * C)) : combine (map fst l) (map snd l) = l.
Proof. induction l as [|(a, c) l IH]; [reflexivity|]. cbn. rewrite IH. reflexivity. Qed.
Lemma in_offsets block n o : (0 < block)%nat -> List.In o (offsets block n) <-> exists q, o = (q * block)%nat /\ (q * block < n)%nat.
Proof.
  intros B. unfold offsets. rewrite in_map_iff. split.
  - intros (q & <- & Hq). apply in_seq in Hq. exists q. split; [reflexivity|]. destruct Hq as (_ & Hq). cbn in Hq. assert (D := Nat.mul_div_le (n + (block - 1)) block ltac:(lia)). nia.
  - intros (q & -> & Hq). exists q. split; [reflexivity|]. apply in_seq. split; [lia|]. cbn. apply Nat.div_le_lower_bound; nia.
Qed.
Lemma offsets_nodup block n : (0 < block)%nat -> NoDup (offsets block n).
Proof. intros B. unfold offsets. apply FinFun.Injective_map_NoDup; [|apply seq_NoDup]. intros x y E. nia. Qed.
Lemma in_numbered A (ns : list A) t n : List.In (t, n) (combine (seq 0 (List.length ns)) ns) <-> nth_error ns t = Some n.
Proof.
  assert (X : forall k, List.In (t, n) (combine (seq k (List.length ns)) ns) <-> (k <= t)%nat /\ nth_error ns (t - k) = Some n).
  { induction ns as [|a ns IH]; intros k; cbn [List.length seq combine].
    - split; [intros []|intros (_ & H); destruct (t - k)%nat; discriminate].
    - split.
      + intros [E|H]; [injection E as <- <-; split; [lia|]; rewrite Nat.sub_diag; reflexivity|]. apply IH in H. destruct H as (L & H). split; [lia|]. replace (t - k)%nat with (S (t - S k)) by lia. exact H.
      + intros (L & H). destruct (Nat.eq_dec t k) as [->|N]; [rewrite Nat.sub_diag in H; injection H as ->; left; reflexivity|]. right. apply IH. split; [lia|]. replace (t - k)%nat with (S (t - S k)) in H by lia. exact H. }
  rewrite X, Nat.sub_0_r. split; [tauto|]. intros H. split; [lia|exact H].
Qed.
Lemma numbered_nodup A (ns : list A) : NoDup (combine (seq 0 (List.length ns)) ns).
Proof.
  generalize 0%nat. induction ns as [|a ns IH]; intros k; [constructor|]. cbn [List.length seq combine]. constructor; [|apply IH]. intros H. apply in_combine_l in H. apply in_seq in H. lia.
Qed.
Lemma in_chunks block ns t o : (0 < block)%nat -> List.In (t, o) (chunks block ns) <-> exists n q, nth_error ns t = Some n /\ o = (q * block)%nat /\ (q * block < n)%nat.
Proof.
  intros B. unfold chunks. rewrite in_flat_map. split.
  - intros ((u, n) & Hn & H). apply in_map_iff in H. destruct H as (o' & E & Ho). injection E as -> ->. apply in_numbered in Hn. apply (in_offsets n o B) in Ho. destruct Ho as (q & -> & Hq). exists n, q. auto.
  - intros (n & q & Hn & -> & Hq). exists (t, n). split; [apply in_numbered; exact Hn|]. apply in_map. apply in_offsets; [exact B|]. exists q. auto.
Qed.
Lemma chunks_nodup block ns : (0 < block)%nat -> NoDup (chunks block ns).
Proof.
  intros B. unfold chunks. apply NoDup_flat_map; [apply numbered_nodup| |].
  - intros (t, n) _. apply FinFun.Injective_map_NoDup; [|apply offsets_nodup; exact B]. intros x y E. congruence.
  - intros (t, n) (u, m) (x, o) Ht Hu H1 H2. apply in_map_iff in H1. apply in_map_iff in H2. destruct H1 as (y & E1 & _). destruct H2 as (z & E2 & _). assert (t = u) by congruence. subst u. apply in_numbered in Ht. apply in_numbered in Hu. congruence.
Qed.
Definition all_lanes (block : nat) (ns : list nat) : list (nat * nat) :=
  flat_map (fun '(t, o) => map (pair t) (filter (fun k => (k <? nth t ns 0)%nat) (map (Nat.add o) (seq 0 block)))) (chunks block ns).
Lemma in_lanes block ns t k : (0 < block)%nat -> List.In (t, k) (all_lanes block ns) <-> exists n, nth_error ns t = Some n /\ (k < n)%nat.
Proof.
  intros B. unfold all_lanes. rewrite in_flat_map. split.
  - intros ((u, o) & Hc & H). apply in_map_iff in H. destruct H as (x & E & H). injection E as -> ->. apply filter_In in H. destruct H as (_ & H). apply Nat.ltb_lt in H. apply in_chunks in Hc; [|exact B]. destruct Hc as (n & q & Hn & _). exists n. split; [exact Hn|]. rewrite (nth_error_nth _ _ 0%nat Hn) in H. exact H.
  - intros (n & Hn & Hk). assert (D := Nat.div_mod k block ltac:(lia)). assert (M := Nat.mod_upper_bound k block ltac:(lia)). exists (t, (k / block * block)%nat). split; [apply in_chunks; [exact B|]; exists n, (k / block)%nat; split; [exact Hn|]; split; [reflexivity|nia]|].
    apply in_map. apply filter_In. split; [apply in_map_iff; exists (k mod block)%nat; split; [nia|apply in_seq; lia]|]. apply Nat.ltb_lt. rewrite (nth_error_nth _ _ 0%nat Hn). exact Hk.
Qed.
Lemma lanes_nodup block ns : (0 < block)%nat -> NoDup (all_lanes block ns).
Proof.
  intros B. unfold all_lanes. apply NoDup_flat_map; [apply chunks_nodup; exact B| |].
  - intros (t, o) _. apply FinFun.Injective_map_NoDup; [intros x y E; congruence|]. apply NoDup_filter. apply FinFun.Injective_map_NoDup; [intros x y E; lia|apply seq_NoDup].
  - intros (t, o) (u, q) (x, k) Ht Hu H1 H2. apply in_map_iff in H1. apply in_map_iff in H2. destruct H1 as (y & E1 & H1). destruct H2 as (z & E2 & H2). assert (t = u) by congruence. assert (y = k) by congruence. assert (z = k) by congruence. subst.
    apply filter_In in H1. apply filter_In in H2. destruct H1 as (H1 & _). destruct H2 as (H2 & _). apply in_map_iff in H1. apply in_map_iff in H2. destruct H1 as (a & <- & Ha). destruct H2 as (b & E & Hb). apply in_seq in Ha. apply in_seq in Hb.
    apply in_chunks in Ht; [|exact B]. apply in_chunks in Hu; [|exact B]. destruct Ht as (n & p & _ & -> & _). destruct Hu as (m & r & _ & -> & _). f_equal. f_equal. destruct (Nat.lt_trichotomy p r) as [Q|[Q|Q]]; [exfalso; nia|exact Q|exfalso; nia].
Qed.

(** ** Updates of cells that do not interfere *)
Section Run.
Variable R : Type.
Variable f : R -> R -> R -> R -> R * R * R.
Definition writes (c : cell) (a : Z) : Prop := a = at_p c \/ a = at_m c \/ a = at_v c.
Variable K : Type.
Variable cell_of : K -> cell.
Lemma update_other (c : cell) (mem : memory R) a : ~ writes c a -> update f c mem a = mem a.
Proof.
  intros N. unfold update. destruct (f _ _ _ _) as ((p, m), v). unfold write, writes in *. destruct (Z.eqb_spec a (at_p c)); [tauto|]. destruct (Z.eqb_spec a (at_v c)); [tauto|]. destruct (Z.eqb_spec a (at_m c)); [tauto|]. reflexivity.
Qed.
Lemma update_self (c : cell) (mem : memory R) : at_p c <> at_m c -> at_p c <> at_v c -> at_m c <> at_v c ->
  (update f c mem (at_p c), update f c mem (at_m c), update f c mem (at_v c)) = f (mem (at_p c)) (mem (at_g c)) (mem (at_m c)) (mem (at_v c)).
Proof.
  intros N1 N2 N3. unfold update. destruct (f _ _ _ _) as ((p, m), v). unfold write. rewrite !Z.eqb_refl. rewrite (proj2 (Z.eqb_neq (at_m c) (at_p c))) by congruence. rewrite (proj2 (Z.eqb_neq (at_m c) (at_v c))) by congruence. rewrite (proj2 (Z.eqb_neq (at_v c) (at_p c))) by congruence. reflexivity.
Qed.
Lemma updates_other ks (mem : memory R) a : (forall k, List.In k ks -> ~ writes (cell_of k) a) -> updates f (map cell_of ks) mem a = mem a.
Proof.
  unfold updates. revert mem. induction ks as [|k ks IH]; intros mem H; [reflexivity|]. cbn [map fold_left]. rewrite IH by (intros x Hx; apply H; right; exact Hx). apply update_other. apply H. left. reflexivity.
Qed.
Lemma updates_all ks (mem : memory R) : NoDup ks ->
  (forall k l a, List.In k ks -> List.In l ks -> writes (cell_of k) a -> writes (cell_of l) a -> k = l) ->
  (forall k, List.In k ks -> at_p (cell_of k) <> at_m (cell_of k) /\ at_p (cell_of k) <> at_v (cell_of k) /\ at_m (cell_of k) <> at_v (cell_of k)) ->
  (forall k l, List.In k ks -> List.In l ks -> ~ writes (cell_of l) (at_g (cell_of k))) ->
  forall k, List.In k ks -> let c := cell_of k in let mem' := updates f (map cell_of ks) mem in
  (mem' (at_p c), mem' (at_m c), mem' (at_v c)) = f (mem (at_p c)) (mem (at_g c)) (mem (at_m c)) (mem (at_v c)).
Proof.
  intros ND. revert mem. induction ND as [|k0 ks NI ND IH]; intros mem H1 H2 H3 k Hk c mem'; [destruct Hk|].
  unfold mem', updates. cbn [map fold_left]. change (fold_left (fun mem c => update f c mem) (map cell_of ks) (update f (cell_of k0) mem)) with (updates f (map cell_of ks) (update f (cell_of k0) mem)).
  destruct Hk as [<-|Hk].
  - destruct (H2 k0 (or_introl eq_refl)) as (N1 & N2 & N3). unfold c. rewrite <- (update_self mem N1 N2 N3).
    rewrite !(updates_other (ks := ks)); [reflexivity|..]; (intros k Hk W; apply NI; replace k0 with k; [exact Hk|]; symmetry; eapply H1; [left; reflexivity|right; exact Hk| |exact W]; unfold writes; tauto).
  - specialize (IH (update f (cell_of k0) mem)). cbn zeta in IH. unfold c. rewrite IH; [| |intros l Hl; apply H2; right; exact Hl| |exact Hk].
    + rewrite !update_other; [reflexivity|..]; [| | |]; try (intros W; apply NI; replace k0 with k; [exact Hk|]; symmetry; eapply H1; [left; reflexivity|right; exact Hk|exact W|]; unfold writes; tauto). apply H3; [right; exact Hk|left; reflexivity].
    + intros x y a Hx Hy. apply H1; right; assumption.
    + intros x y Hx Hy. apply H3; right; assumption.
Qed.
End Run.
