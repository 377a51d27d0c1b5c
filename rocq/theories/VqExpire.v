(** Facts for C70-C73: sampling, and the expiry of codes. *)
From Coq Require Import QArith Qcanon Lqa.
From Verif Require Import Base BaseFacts Vq VqSpec VqFacts.
Set Implicit Arguments. Unset Strict Implicit.
Local Open Scope Qc_scope.

(** ** Order *)
Lemma lt_iff x y : lt x y = true <-> x < y.
Proof. unfold lt. rewrite Qclt_alt. destruct (x ?= y); split; congruence. Qed.
Lemma lt_false x y : lt x y = false <-> y <= x.
Proof.
  split; intros H.
  - destruct (Qclt_le_dec x y) as [L|L]; [|exact L]. apply lt_iff in L. congruence.
  - destruct (lt x y) eqn:E; [|reflexivity]. apply lt_iff in E. exfalso. now apply (Qclt_not_le _ _ E).
Qed.
Ltac qc := unfold Qcle, Qclt, Qcplus, Qcmult, Qcminus, Qcopp, Q2Qc in *; cbn [this] in *; rewrite ?Qred_correct in *; try nra.
Lemma div_le a b c : 0 < c -> a * c <= b -> a <= b / c.
Proof.
  intros Hc H. destruct (Qclt_le_dec (b / c) a) as [L|L]; [exfalso|exact L].
  apply (Qclt_not_le _ _ (Qcmult_lt_compat_r _ _ _ Hc L)). unfold Qcdiv. rewrite <- Qcmult_assoc, (Qcmult_comm (/ c)), Qcmult_inv_r, Qcmult_1_r; [exact H|]. intros ->. now apply (Qclt_not_eq _ _ Hc).
Qed.
Lemma le_div a b c : 0 < c -> a <= b / c -> a * c <= b.
Proof.
  intros Hc H. apply (Qcmult_le_compat_r _ _ c) in H; [|now apply Qclt_le_weak]. unfold Qcdiv in H. rewrite <- Qcmult_assoc, (Qcmult_comm (/ c)), Qcmult_inv_r, Qcmult_1_r in H; [exact H|]. intros ->. now apply (Qclt_not_eq _ _ Hc).
Qed.
Lemma mult_le a b c d : 0 <= a -> a <= b -> 0 <= c -> c <= d -> a * c <= b * d.
Proof. intros. apply Qcle_trans with (b * c); [now apply Qcmult_le_compat_r|]. rewrite (Qcmult_comm b c), (Qcmult_comm b d). apply Qcmult_le_compat_r; [easy|]. now apply Qcle_trans with a. Qed.

Lemma mult_nonneg a b : 0 <= a -> 0 <= b -> 0 <= a * b.
Proof. intros Ha Hb. replace 0 with (0 * b) by ring. now apply Qcmult_le_compat_r. Qed.

Section Expire.
Context {U : setup}.
Lemma K_nonneg : 0 <= K.
Proof. apply Qn_nonneg. Qed.
Lemma safe_sound lo up s t : 0 <= lo -> lo <= s -> 0 < t -> t <= up -> 0 <= threshold -> safe lo up = true -> lt (s * (K / t)) threshold = false.
Proof.
  intros H1 H2 H3 H4 H5 H. apply negb_true_iff, lt_false in H. apply lt_false.
  assert (Hu : 0 < up) by (now apply Qclt_le_trans with t).
  apply le_div in H; [|exact Hu]. replace (s * (K / t)) with (s * K / t) by (unfold Qcdiv; ring). apply div_le; [exact H3|].
  apply Qcle_trans with (threshold * up); [rewrite !(Qcmult_comm threshold); now apply Qcmult_le_compat_r|].
  apply Qcle_trans with (two * threshold * up).
  { apply Qcmult_le_compat_r; [|now apply Qclt_le_weak]. unfold two. replace threshold with (threshold + 0) at 1 by ring. replace ((1 + 1) * threshold) with (threshold + threshold) by ring. now apply Qcplus_le_compat; [apply Qcle_refl|]. }
  apply Qcle_trans with (lo * K); [exact H|]. apply Qcmult_le_compat_r; [exact H2|apply K_nonneg].
Qed.
Lemma minimum_le l : forall x, minimum x l <= x /\ Forall (fun y => minimum x l <= y) l.
Proof.
  induction l as [|y l IH]; intros x; cbn [minimum]; [split; [apply Qcle_refl|constructor]|].
  destruct (IH (if lt y x then y else x)) as [H1 H2]. destruct (lt y x) eqn:E.
  - apply lt_iff in E. split; [apply Qcle_trans with y; [exact H1|now apply Qclt_le_weak]|now constructor].
  - apply lt_false in E. split; [exact H1|]. constructor; [now apply Qcle_trans with x|exact H2].
Qed.
Lemma minimum_nonneg l : forall x, 0 <= x -> Forall (fun y => 0 <= y) l -> 0 <= minimum x l.
Proof. induction l as [|y l IH]; intros x Hx Hl; cbn [minimum]; [exact Hx|]. inversion_clear Hl. apply IH; [now destruct (lt y x)|easy]. Qed.

(** ** Sampling *)
Lemma ceil_div_ge a b : (0 < b)%nat -> (a <= b * ceil_div a b)%nat.
Proof.
  intros H. unfold ceil_div. pose proof (Nat.div_mod (a + b - 1) b ltac:(lia)) as E. pose proof (Nat.mod_upper_bound (a + b - 1) b ltac:(lia)). nia.
Qed.
Definition drawn (lx : luck * matrix) n : matrix := map (fun i => nth i (snd lx) []) (draw (fst lx) (List.length (snd lx)) (ceil_div n processes)).
Definition good_input (lx : luck * matrix) : Prop :=
  snd lx <> [] /\ is_matrix (snd lx) /\ (forall n k, List.length (draw (fst lx) n k) = k /\ (n <> 0%nat -> Forall (fun i => (i < n)%nat) (draw (fst lx) n k))).
Lemma picked_len (ranks : list (luck * matrix)) n : List.length ranks = processes -> (0 < processes)%nat -> Forall good_input ranks ->
  (n <= List.length (flat_map (fun lx => drawn lx n) ranks))%nat.
Proof.
  intros Hl HP Hg. assert (E : List.length (flat_map (fun lx => drawn lx n) ranks) = (List.length ranks * ceil_div n processes)%nat).
  { clear Hl. induction Hg as [|lx ranks Hlx Hg IH]; [reflexivity|]. cbn [flat_map]. rewrite app_length, IH. unfold drawn at 1. rewrite map_length. destruct Hlx as (_ & _ & Hd). rewrite (proj1 (Hd _ _)). cbn [List.length].
    lia. }
  rewrite E, Hl. now apply ceil_div_ge.
Qed.
Lemma picked_length (ranks : list (luck * matrix)) n : List.length ranks = processes -> (0 < processes)%nat -> Forall good_input ranks -> List.length (picked ranks n) = n.
Proof. intros H1 H2 H3. pose proof (@picked_len ranks n H1 H2 H3) as H. change (picked ranks n) with (firstn n (flat_map (fun lx => drawn lx n) ranks)). rewrite firstn_length. lia. Qed.
Lemma firstn_in A (x : A) n l : List.In x (firstn n l) -> List.In x l.
Proof. intros H. rewrite <- (firstn_skipn n l). apply in_or_app. now left. Qed.
Lemma picked_in (ranks : list (luck * matrix)) n v : Forall good_input ranks -> List.In v (picked ranks n) -> List.In v (batch_of ranks).
Proof.
  intros Hg H. apply firstn_in in H. apply in_flat_map in H as (lx & Hlx & H). apply in_flat_map. exists lx. split; [exact Hlx|].
  rewrite Forall_forall in Hg. destruct (Hg _ Hlx) as (H0 & _ & Hd). apply in_map_iff in H as (i & <- & Hi). apply nth_In.
  destruct (Hd (List.length (snd lx)) (ceil_div n processes)) as [_ Hb]. assert (Hn : List.length (snd lx) <> 0%nat) by (intros E; apply length_zero_iff_nil in E; contradiction).
  specialize (Hb Hn). rewrite Forall_forall in Hb. now apply Hb.
Qed.
Lemma picked_matrix (ranks : list (luck * matrix)) n : Forall good_input ranks -> is_matrix (picked ranks n).
Proof.
  intros Hg. apply Forall_forall. intros v Hv. apply picked_in in Hv; [|exact Hg]. apply in_flat_map in Hv as (lx & Hlx & Hv).
  rewrite Forall_forall in Hg. destruct (Hg _ Hlx) as (_ & Hm & _). unfold is_matrix in Hm. rewrite Forall_forall in Hm. now apply Hm.
Qed.
Lemma run_sample A T (lx : T -> luck * matrix) n (k : T -> matrix -> prog A) rs :
  List.length rs = processes -> (0 < processes)%nat -> Forall good_input (map lx rs) ->
  run_all (map (fun r => sample_vectors (fst (lx r)) (snd (lx r)) n (k r)) rs) = run_all (map (fun r => k r (picked (map lx rs) n)) rs).
Proof.
  intros Hl HP Hg. pose proof (@picked_len (map lx rs) n ltac:(now rewrite map_length) HP Hg) as Hn.
  assert (E : flat_map (fun lx => drawn lx n) (map lx rs) = flat_map (fun r => drawn (lx r) n) rs).
  { clear. induction rs; cbn; congruence. }
  destruct rs as [|r rs]; [cbn in Hl; lia|].
  rewrite (map_ext_in (fun r => sample_vectors (fst (lx r)) (snd (lx r)) n (k r)) (fun r => Gather (drawn (lx r) n) (fun s => if (n <=? List.length s)%nat then k r (firstn n s) else Fail AssertionError))).
  - rewrite run_gather. cbv zeta. f_equal. apply map_ext_in. intros t _. rewrite <- E. destruct (Nat.leb_spec n (List.length (flat_map (fun lx => drawn lx n) (map lx (r :: rs))))); [reflexivity|lia].
  - intros t Ht. unfold sample_vectors. rewrite Forall_forall in Hg. destruct (Hg (lx t) ltac:(now apply in_map)) as (H0 & _). destruct (snd (lx t)) eqn:Es; [congruence|]. unfold drawn. now rewrite Es.
Qed.

(** ** Writing through a mask *)
Lemma masked_length A (mask : list bool) : forall (old new : list A), List.length (masked_put mask old new) = List.length old.
Proof. induction mask as [|[] mask IH]; intros [|o old] new; try reflexivity; cbn [masked_put]; [destruct new|]; cbn [List.length]; now rewrite IH. Qed.
Lemma masked_nth A (mask : list bool) : forall (old new : list A) c d, List.length mask = List.length old -> (List.length (filter (fun b => b) mask) <= List.length new)%nat ->
  nth c (masked_put mask old new) d = if nth c mask false then nth (List.length (filter (fun b => b) (firstn c mask))) new d else nth c old d.
Proof.
  induction mask as [|b mask IH]; intros [|o old] new c d; cbn [List.length filter]; try lia.
  - intros _ _. now destruct c.
  - destruct b; cbn [masked_put List.length].
    + destruct new as [|n new]; cbn [List.length]; [lia|]. intros Hl Hn. destruct c; [reflexivity|]. cbn [nth firstn filter List.length]. apply IH; lia.
    + intros Hl Hn. destruct c; [reflexivity|]. cbn [nth firstn filter]. apply IH; lia.
Qed.
Lemma count_map A (f : A -> bool) l : List.length (filter (fun b => b) (map f l)) = List.length (filter f l).
Proof. induction l; [reflexivity|]. cbn. destruct (f a); cbn; congruence. Qed.
Lemma dead_before_mono g a b : (a <= b)%nat -> (dead_before g a <= dead_before g b)%nat.
Proof. intros H. unfold dead_before. replace b with (a + (b - a))%nat by lia. rewrite seq_app, filter_app, app_length. lia. Qed.
Lemma dead_before_S g c : dead g c = true -> dead_before g (S c) = S (dead_before g c).
Proof. intros H. unfold dead_before. rewrite seq_S, filter_app, app_length. cbn. rewrite H. cbn. lia. Qed.
Lemma masked_codes A (g : global) (old new : list A) d : List.length old = codebook_size -> (dead_before g codebook_size <= List.length new)%nat ->
  masked_put (codes (dead g)) old new = codes (fun c => if dead g c then nth (dead_before g c) new d else nth c old d).
Proof.
  intros Ho Hn. rewrite (is_codes d (l := masked_put _ _ _)) by (now rewrite masked_length). apply codes_ext. intros c Hc.
  rewrite masked_nth; [|unfold codes; now rewrite map_length, seq_length|unfold codes; now rewrite count_map].
  rewrite nth_codes by easy. unfold codes. rewrite firstn_map, count_map. unfold dead_before.
  replace (firstn c (seq 0 codebook_size)) with (seq 0 c); [reflexivity|]. replace codebook_size with (c + (codebook_size - c))%nat by lia. rewrite seq_app, firstn_app, firstn_all2 by (rewrite seq_length; lia). rewrite seq_length, Nat.sub_diag, firstn_O, app_nil_r. reflexivity.
Qed.

(** ** The relation of a rank's state to the state of all *)
Definition same (g : global) (st : vq) : Prop := inited st = g_inited g /\ embed st = g_embed g /\ embed_avg st = g_avg g /\ cluster_size st = g_sizes g.
Definition table (m : matrix) : Prop := is_matrix m /\ List.length m = codebook_size.
Definition wf (g : global) : Prop :=
  table (g_embed g) /\ table (g_avg g) /\ List.length (g_sizes g) = codebook_size /\ Forall (fun s => 0 <= s) (g_sizes g) /\ 0 < total (g_sizes g).
Definition bound_ok (st : vq) : Prop := processes = 1%nat -> match bounds st with
  | None => True | Some (lo, up) => 0 <= lo /\ Forall (fun s => lo <= s) (cluster_size st) /\ total (cluster_size st) <= up end.
Lemma expired_codes g st : same g st -> threshold <> 0 -> List.length (g_sizes g) = codebook_size -> expired st = codes (dead g).
Proof.
  intros (_ & _ & _ & E) Ht Hl. unfold expired. rewrite E. etransitivity; [apply (f_equal (map _)); exact (is_codes 0 Hl)|]. unfold codes. rewrite map_map. apply map_ext. intros c. unfold dead.
  destruct (Qc_eq_dec threshold 0); [contradiction|reflexivity].
Qed.
Lemma none_dead g : (forall c, (c < codebook_size)%nat -> dead g c = false) -> dead_before g codebook_size = 0%nat.
Proof.
  intros H. unfold dead_before. assert (E : forall l, (forall c, List.In c l -> dead g c = false) -> filter (dead g) l = []).
  { induction l as [|c l IH]; intros Hl; [reflexivity|]. cbn. rewrite Hl by now left. apply IH. intros. apply Hl. now right. }
  rewrite E; [reflexivity|]. intros c Hc. apply in_seq in Hc. apply H. lia.
Qed.
Definition after_expiry (ranks : list (luck * matrix)) (g : global) : global :=
  let n := dead_before g codebook_size in if (n =? 0)%nat then g else replaced g (picked ranks n).
Lemma Forall_nth_le (P : Qc -> Prop) l c : Forall P l -> (c < List.length l)%nat -> P (nth c l 0).
Proof. intros H Hc. rewrite Forall_forall in H. apply H. now apply nth_In. Qed.
Lemma safe_no_dead g lo up : wf g -> 0 <= threshold -> 0 <= lo -> Forall (fun s => lo <= s) (g_sizes g) -> total (g_sizes g) <= up -> safe lo up = true -> dead_before g codebook_size = 0%nat.
Proof.
  intros (_ & _ & Hl & _ & Ht) H0 Hlo Hs Hup Hsafe. apply none_dead. intros c Hc. unfold dead. destruct (Qc_eq_dec threshold 0); [reflexivity|].
  apply safe_sound with lo up; try easy. apply (Forall_nth_le Hs). lia.
Qed.
Lemma table_codes (f : nat -> vec) : (forall c, (c < codebook_size)%nat -> List.length (f c) = dim_feature) -> table (codes f).
Proof. intros H. split; [now apply codes_matrix|apply codes_length]. Qed.
Lemma table_nth m c : table m -> (c < codebook_size)%nat -> List.length (nth c m []) = dim_feature.
Proof. intros [H1 H2] Hc. apply matrix_nth; [exact H1|lia]. Qed.
Lemma total_pos l c : Forall (fun s => 0 <= s) l -> (c < List.length l)%nat -> 0 < nth c l 0 -> 0 < total l.
Proof.
  intros H; revert c; induction H as [|s l Hs Hl IH]; intros c Hc Hp; cbn in Hc; [lia|]. cbn [total fold_right]. destruct c; cbn in Hp.
  - replace 0 with (0 + 0) by ring. apply Qclt_le_trans with (s + 0); [|apply Qcplus_le_compat; [apply Qcle_refl|now apply total_bounds]]. replace (s + 0) with s by ring. exact Hp.
  - apply Qclt_le_trans with (total l); [apply IH with c; [lia|exact Hp]|]. unfold total. replace (fold_right Qcplus 0 l) with (0 + fold_right Qcplus 0 l) at 1 by ring. apply Qcplus_le_compat; [exact Hs|apply Qcle_refl].
Qed.
Lemma dead_exists g n : dead_before g n <> 0%nat -> exists c, (c < n)%nat /\ dead g c = true.
Proof.
  unfold dead_before. intros H. destruct (filter (dead g) (seq 0 n)) as [|c l] eqn:E; [easy|]. exists c.
  assert (Hc : List.In c (filter (dead g) (seq 0 n))) by (rewrite E; now left). apply filter_In in Hc as [Hc Hd]. apply in_seq in Hc. split; [lia|exact Hd].
Qed.
Lemma wf_after ranks g : good_setup -> wf g -> List.length ranks = processes -> Forall good_input ranks -> wf (after_expiry ranks g).
Proof.
  intros (HK & HP & _ & _ & _ & _ & Hr & _) Hw Hl Hg. unfold after_expiry. cbv zeta. destruct (dead_before g codebook_size =? 0)%nat eqn:E; [exact Hw|]. apply Nat.eqb_neq in E.
  destruct Hw as (He & Ha & Hs & Hp & Ht).
  pose proof (picked_length (ranks := ranks) (dead_before g codebook_size) Hl HP Hg) as Hlen. pose proof (picked_matrix (dead_before g codebook_size) Hg) as Hm.
  assert (Hnew : forall c, (c < codebook_size)%nat -> dead g c = true -> List.length (nth (dead_before g c) (picked ranks (dead_before g codebook_size)) []) = dim_feature).
  { intros c Hc Hd. apply matrix_nth; [exact Hm|]. rewrite Hlen. apply Nat.lt_le_trans with (dead_before g (S c)); [rewrite dead_before_S by exact Hd; lia|]. apply dead_before_mono. lia. }
  assert (Hall : Forall (fun s => 0 <= s) (g_sizes (replaced g (picked ranks (dead_before g codebook_size))))).
  { apply Forall_forall. intros s H. apply in_map_iff in H as (c & <- & Hc). apply in_seq in Hc. destruct (dead g c); [now apply Qclt_le_weak|]. apply (Forall_nth_le Hp). lia. }
  refine (conj _ (conj _ (conj _ (conj Hall _)))).
  - apply table_codes. intros c Hc. destruct (dead g c) eqn:Ed; [now apply Hnew|now apply table_nth].
  - apply table_codes. intros c Hc. destruct (dead g c) eqn:Ed; [rewrite map_length; now apply Hnew|now apply table_nth].
  - apply codes_length.
  - destruct (dead_exists E) as (c & Hc & Hd). apply total_pos with c; [exact Hall|cbn; rewrite codes_length; lia|]. cbn. rewrite nth_codes by lia. now rewrite Hd.
Qed.

Notation rank := (luck * matrix * vq)%type.
Lemma run_scan A g (rs : list rank) : good_setup -> wf g -> threshold <> 0 -> List.length rs = processes -> Forall good_input (map fst rs) ->
  Forall (fun r => same g (snd r) /\ bound_ok (snd r)) rs ->
  exists f : rank -> vq, Forall (fun r => same (after_expiry (map fst rs) g) (f r) /\ bound_ok (f r)) rs
    /\ forall k : rank -> vq -> prog A, run_all (map (fun r => scan_codes (fst (fst r)) (snd (fst r)) (snd r) (k r)) rs) = run_all (map (fun r => k r (f r)) rs).
Proof.
  intros HU Hw Ht Hl Hg Hr. pose proof HU as (_ & HP & _). pose proof Hw as (He & Ha & Hs & Hp & Htot).
  assert (Hex : forall r, List.In r rs -> expired (snd r) = codes (dead g)).
  { intros r Hin. rewrite Forall_forall in Hr. apply expired_codes; [apply Hr; exact Hin|exact Ht|exact Hs]. }
  assert (Hcnt : List.length (filter (fun b => b) (codes (dead g))) = dead_before g codebook_size) by (unfold codes; now rewrite count_map).
  unfold after_expiry. cbv zeta. destruct (dead_before g codebook_size =? 0)%nat eqn:E.
  - exists snd. split; [exact Hr|]. intros k. f_equal. apply map_ext_in. intros r Hin. unfold scan_codes. cbv zeta. now rewrite (Hex r Hin), Hcnt, E.
  - set (n := dead_before g codebook_size) in *. set (s := picked (map fst rs) n).
    exists (fun r => {| inited := inited (snd r); batches := batches (snd r); embed := masked_put (expired (snd r)) (embed (snd r)) s;
         embed_avg := masked_put (expired (snd r)) (embed_avg (snd r)) (map (scale reset_cluster_size) s);
         cluster_size := masked_put (expired (snd r)) (cluster_size (snd r)) (repeat reset_cluster_size n); bounds := None |}).
    pose proof (picked_length (ranks := map fst rs) n ltac:(now rewrite map_length) HP Hg) as Hlen.
    split.
    + apply Forall_forall. intros r Hin. specialize (Hex r Hin). rewrite Forall_forall in Hr. destruct (Hr r Hin) as [(H1 & H2 & H3 & H4) _]. split; [|intros _; exact I].
      refine (conj H1 (conj _ (conj _ _))); cbn [embed embed_avg cluster_size replaced g_embed g_avg g_sizes]; rewrite Hex, ?H2, ?H3, ?H4.
      * apply (masked_codes (A := vec) (g := g) []); [apply He|fold n; unfold s; lia].
      * rewrite (masked_codes (A := vec) (g := g) []); [|apply Ha|fold n; rewrite map_length; unfold s; lia].
        apply codes_ext. intros c Hc. destruct (dead g c); [|reflexivity]. change (@nil Qc) with (scale reset_cluster_size []) at 1. rewrite map_nth. reflexivity.
      * rewrite (masked_codes (A := Qc) (g := g) 0); [|exact Hs|fold n; rewrite repeat_length; lia].
        apply codes_ext. intros c Hc. destruct (dead g c) eqn:Ed; [|reflexivity].
        assert (L : (dead_before g c < n)%nat). { apply Nat.lt_le_trans with (dead_before g (S c)); [rewrite dead_before_S by exact Ed; lia|]. apply dead_before_mono. lia. }
        rewrite nth_indep with (d' := reset_cluster_size) by (now rewrite repeat_length). apply nth_repeat.
    + intros k. etransitivity; [|apply (@run_sample A rank fst n (fun r s => k r {| inited := inited (snd r); batches := batches (snd r); embed := masked_put (expired (snd r)) (embed (snd r)) s;
         embed_avg := masked_put (expired (snd r)) (embed_avg (snd r)) (map (scale reset_cluster_size) s);
         cluster_size := masked_put (expired (snd r)) (cluster_size (snd r)) (repeat reset_cluster_size n); bounds := None |})); [exact Hl|exact HP|exact Hg]].
      f_equal. apply map_ext_in. intros r Hin. unfold scan_codes. cbv zeta. rewrite (Hex r Hin), Hcnt, E. reflexivity.
Qed.
Lemma run_expire A g (rs : list rank) : good_setup -> wf g -> List.length rs = processes -> Forall good_input (map fst rs) ->
  Forall (fun r => same g (snd r) /\ bound_ok (snd r)) rs ->
  exists f : rank -> vq, Forall (fun r => same (after_expiry (map fst rs) g) (f r) /\ bound_ok (f r)) rs
    /\ forall k : rank -> vq -> prog A, run_all (map (fun r => expire_codes (fst (fst r)) (snd (fst r)) (snd r) (k r)) rs) = run_all (map (fun r => k r (f r)) rs).
Proof.
  intros HU Hw Hl Hg Hr. pose proof HU as (_ & HP & _ & _ & _ & _ & _ & H0 & _). unfold expire_codes.
  destruct (Qc_eq_dec threshold 0) as [Et|Et].
  { exists snd. split; [|reflexivity]. unfold after_expiry. rewrite none_dead; [exact Hr|]. intros c _. unfold dead. destruct (Qc_eq_dec threshold 0); [reflexivity|contradiction]. }
  destruct (Nat.eqb_spec processes 1) as [E1|E1]; [|now apply run_scan].
  destruct rs as [|r rs]; [cbn in Hl; lia|]. destruct rs; [|cbn in Hl; lia].
  inversion Hr as [|? ? [Hsame Hb] _ Hrr]; subst. pose proof Hsame as (_ & _ & _ & Es). pose proof Hw as (_ & _ & Hlen & Hp & Htot).
  destruct (match bounds (snd r) with Some (lo, up) => safe lo up | None => false end) eqn:Ec.
  { exists snd. split.
    - unfold after_expiry. specialize (Hb E1). destruct (bounds (snd r)) as [[lo up]|]; [|discriminate]. destruct Hb as (B1 & B2 & B3). rewrite Es in B2, B3.
      rewrite (safe_no_dead Hw H0 B1 B2 B3 Ec). exact Hr.
    - intros k. cbn [map]. now rewrite Ec. }
  destruct (safe (match cluster_size (snd r) with [] => 0 | s :: l => minimum s l end) (total (cluster_size (snd r)))) eqn:Ed.
  - set (mn := match cluster_size (snd r) with [] => 0 | s :: l => minimum s l end) in *.
    assert (Hmn : 0 <= mn /\ Forall (fun s => mn <= s) (cluster_size (snd r))).
    { unfold mn. rewrite Es. destruct (g_sizes g) as [|s l]; [split; [apply Qcle_refl|constructor]|]. inversion_clear Hp. destruct (minimum_le l s) as [M1 M2]. split; [now apply minimum_nonneg|now constructor]. }
    destruct Hmn as [M1 M2].
    exists (fun r => with_bounds (Some (mn * (1 - bound_eps), total (cluster_size (snd r)) * (1 + bound_eps))) (snd r)). split.
    + unfold after_expiry. rewrite Es in M2, Ed. rewrite (safe_no_dead Hw H0 M1 M2 (Qcle_refl _) Ed). cbn [Nat.eqb]. constructor; [|constructor]. split; [exact Hsame|].
      intros _. cbn [bounds with_bounds cluster_size]. rewrite Es.
      assert (L1 : mn * (1 - bound_eps) <= mn). { replace mn with (mn * 1) at 2 by ring. rewrite !(Qcmult_comm mn). now apply Qcmult_le_compat_r. }
      refine (conj _ (conj _ _)).
      * now apply mult_nonneg.
      * eapply Forall_impl; [|exact M2]. cbn. intros s Hs. now apply Qcle_trans with mn.
      * replace (total (g_sizes g)) with (total (g_sizes g) * 1) at 1 by ring. rewrite !(Qcmult_comm (total (g_sizes g))). apply Qcmult_le_compat_r; [easy|now apply Qclt_le_weak].
    + intros k. cbn [map]. rewrite Ec. unfold mn. fold mn. rewrite Ed. reflexivity.
  - destruct (run_scan A HU Hw Et Hl Hg Hr) as (f & Hf & Hrun). exists f. split; [exact Hf|]. intros k. rewrite <- Hrun. cbn [map]. rewrite Ec, Ed. reflexivity.
Qed.
End Expire.
