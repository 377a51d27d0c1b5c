(** Facts for C70-C73: one forward of all ranks does what VqSpec says. *)
From Coq Require Import QArith Qcanon.
From Verif Require Import Base BaseFacts Vq VqSpec VqFacts VqExpire.
Set Implicit Arguments. Unset Strict Implicit.
Local Open Scope Qc_scope.
Section Step.
Context {U : setup}.
Notation rank := (luck * matrix * vq)%type.

(** ** Moving averages *)
Definition found (cb : matrix) (lx : luck * matrix) : list (nat * vec) := combine (search (fst lx) cb (snd lx)) (snd lx).
Definition searches (lx : luck * matrix) : Prop :=
  forall cb, List.length (search (fst lx) cb (snd lx)) = List.length (snd lx) /\ Forall (fun i => (i < codebook_size)%nat) (search (fst lx) cb (snd lx)).
Lemma lerp_eq a b : lerp a b = ema_decay * a + (1 - ema_decay) * b.
Proof. unfold lerp. ring. Qed.
Lemma sizes_eq p g : List.length (g_sizes g) = codebook_size -> map2 lerp (g_sizes g) (count_table p) = ema_sizes p g.
Proof.
  intros Hl. rewrite (is_codes 0 Hl). unfold count_table, codes. rewrite map2_map. unfold ema_sizes. apply codes_ext. intros c Hc. now rewrite lerp_eq.
Qed.
Lemma avg_eq p g : table (g_avg g) -> map2 (map2 lerp) (g_avg g) (sum_table p) = ema_avg p g.
Proof.
  intros Ht. pose proof (proj2 Ht) as Hl. etransitivity; [apply (f_equal (fun m => map2 (map2 lerp) m _)); exact (is_codes [] Hl)|].
  unfold sum_table, codes. rewrite map2_map. unfold ema_avg. apply codes_ext. intros c Hc.
  pose proof (table_nth Ht Hc) as Hv. unfold cell. etransitivity; [apply (f_equal (fun m => map2 lerp m _)); exact (is_dims Hv)|].
  unfold dims at 1 2. rewrite map2_map. apply dims_ext. intros j Hj. now rewrite lerp_eq.
Qed.
Lemma avg_table p g : table (ema_avg p g).
Proof. apply table_codes. intros. apply dims_length. Qed.
Lemma finish_eq avg sizes b st (g : global) :
  table avg -> List.length sizes = codebook_size -> inited st = g_inited g ->
  same {| g_inited := g_inited g; g_rows := g_rows g; g_sizes := sizes; g_avg := avg; g_embed := codes (fun c => unit (dims (fun j => cell avg c j / smoothed sizes c))) |}
    (finish_ema sizes b avg st).
Proof.
  intros Ht Hl Hi. refine (conj Hi (conj _ (conj eq_refl eq_refl))). cbn [embed finish_ema g_embed].
  etransitivity; [apply (f_equal2 (map2 _)); [exact (is_codes [] (proj2 Ht))|exact (is_codes 0 Hl)]|].
  unfold codes. rewrite map2_map. apply map_table. intros c Hc. pose proof (table_nth Ht Hc) as Hv.
  assert (E : map (fun y => y / (total sizes * (nth c sizes 0 + smoothing_eps) / (total sizes + K * smoothing_eps))) (nth c avg []) = dims (fun j => cell avg c j / smoothed sizes c)).
  { etransitivity; [apply (f_equal (map _)); exact (is_dims Hv)|]. unfold dims. rewrite map_map. reflexivity. }
  rewrite <- E. reflexivity.
Qed.
Lemma decay_split a b : 0 <= ema_decay -> ema_decay <= 1 -> 0 <= a -> 0 <= b -> 0 <= ema_decay * a + (1 - ema_decay) * b.
Proof.
  intros H0 H1 Ha Hb. replace 0 with (0 + 0) by ring. apply Qcplus_le_compat; apply mult_nonneg; try easy.
  apply Qcle_minus_iff in H1. exact H1.
Qed.
Lemma sizes_nonneg p g : 0 <= ema_decay -> ema_decay <= 1 -> List.length (g_sizes g) = codebook_size -> Forall (fun s => 0 <= s) (g_sizes g) -> Forall (fun s => 0 <= s) (ema_sizes p g).
Proof.
  intros H0 H1 Hl Hp. apply Forall_forall. intros s H. apply in_map_iff in H as (c & <- & Hc). apply in_seq in Hc.
  apply decay_split; try easy; [|apply count_nonneg]. apply (Forall_nth_le Hp). lia.
Qed.
Lemma sizes_total p g : List.length (g_sizes g) = codebook_size -> Forall (fun e => (fst e < codebook_size)%nat) p ->
  total (ema_sizes p g) = ema_decay * total (g_sizes g) + (1 - ema_decay) * Qn (List.length p).
Proof.
  intros Hl Hp. unfold ema_sizes. rewrite total_codes, !total_scale. rewrite <- (total_counts Hp), <- (is_codes 0 Hl). reflexivity.
Qed.
Lemma mix_pos a b : 0 <= ema_decay -> ema_decay <= 1 -> 0 < a -> 0 < b -> 0 < ema_decay * a + (1 - ema_decay) * b.
Proof.
  intros H0 H1 Ha Hb. destruct (Qc_eq_dec ema_decay 1) as [->|N]; [replace (1 * a + (1 - 1) * b) with a by ring; exact Ha|].
  assert (L : 0 < 1 - ema_decay).
  { apply Qclt_minus_iff with (p := ema_decay). destruct (Qcle_lt_or_eq _ _ H1); [assumption|contradiction]. }
  apply Qclt_le_trans with ((1 - ema_decay) * b).
  - replace 0 with (0 * b) by ring. now apply Qcmult_lt_compat_r.
  - replace ((1 - ema_decay) * b) with (0 + (1 - ema_decay) * b) at 1 by ring. apply Qcplus_le_compat; [|apply Qcle_refl]. apply mult_nonneg; [exact H0|now apply Qclt_le_weak].
Qed.
Lemma wf_ema p g : good_setup -> wf g -> Forall (fun e => (fst e < codebook_size)%nat) p -> p <> [] -> wf (ema p g).
Proof.
  intros (HK & HP & _ & _ & H0 & H1 & _ & _ & _ & HN) (He & Ha & Hl & Hp & Ht) Hpp Hne.
  assert (Hsz : 0 < total (ema_sizes p g)). { rewrite sizes_total by easy. apply mix_pos; try easy. apply Qn_pos. destruct p; [congruence|cbn; lia]. }
  assert (Hnn : Forall (fun s => 0 <= s) (ema_sizes p g)) by now apply sizes_nonneg.
  unfold ema. cbv zeta. destruct ema_update; cbn [g_embed g_avg g_sizes]; unfold wf; cbn [g_embed g_avg g_sizes].
  - refine (conj _ (conj (avg_table p g) (conj (codes_length _) (conj Hnn Hsz)))). apply table_codes. intros c Hc. unfold unit. destruct cosine; [apply HN|]; apply dims_length.
  - exact (conj He (conj Ha (conj (codes_length _) (conj Hnn Hsz)))).
Qed.
Lemma found_ok cb (lx : luck * matrix) : searches lx -> Forall (fun e => (fst e < codebook_size)%nat) (found cb lx).
Proof.
  intros H. destruct (H cb) as [_ Hf]. rewrite Forall_forall in *. intros [i r] Hin. apply in_combine_l in Hin. now apply Hf.
Qed.
Lemma bounds_step st (p : list (nat * vec)) g : good_setup -> wf g -> Forall (fun e => (fst e < codebook_size)%nat) p -> same g st -> bound_ok st -> processes = 1%nat ->
  match new_bounds (List.length p) (bounds st) with None => True | Some (lo, up) => 0 <= lo /\ Forall (fun s => lo <= s) (ema_sizes p g) /\ total (ema_sizes p g) <= up end.
Proof.
  intros (HK & HP & _ & _ & H0 & H1 & _) (He & Ha & Hl & Hp & Ht) Hpp (_ & _ & _ & Es) Hb E1. specialize (Hb E1). rewrite Es in Hb. unfold new_bounds.
  destruct (bounds st) as [[lo up]|]; [|exact I]. rewrite E1. cbn [Nat.eqb]. destruct Hb as (B1 & B2 & B3).
  assert (D1 : 0 <= 1 - ema_decay) by (apply Qcle_minus_iff in H1; exact H1).
  refine (conj _ (conj _ _)).
  - apply mult_nonneg; [exact B1|]. now apply mult_nonneg.
  - apply Forall_forall. intros s H. apply in_map_iff in H as (c & <- & Hc). apply in_seq in Hc.
    apply Qcle_trans with (ema_decay * nth c (g_sizes g) 0).
    + replace (lo * (ema_decay * (1 - bound_eps))) with ((1 - bound_eps) * (ema_decay * lo)) by ring. replace (ema_decay * nth c (g_sizes g) 0) with (1 * (ema_decay * nth c (g_sizes g) 0)) by ring.
      apply mult_le; try easy; [now apply mult_nonneg|]. apply mult_le; try easy; [apply Qcle_refl|]. apply (Forall_nth_le B2). lia.
    + replace (ema_decay * nth c (g_sizes g) 0) with (ema_decay * nth c (g_sizes g) 0 + 0) at 1 by ring. apply Qcplus_le_compat; [apply Qcle_refl|]. apply mult_nonneg; [exact D1|apply count_nonneg].
  - rewrite sizes_total by easy. 
    apply Qcle_trans with (up * ema_decay + Qn (List.length p) * (1 - ema_decay)).
    + apply Qcplus_le_compat; [|rewrite Qcmult_comm; apply Qcle_refl]. rewrite (Qcmult_comm ema_decay). now apply Qcmult_le_compat_r.
    + set (z := up * ema_decay + Qn (List.length p) * (1 - ema_decay)). replace z with (1 * z) at 1 by ring. rewrite (Qcmult_comm z). apply Qcmult_le_compat_r; [easy|].
      unfold z. replace 0 with (0 + 0) by ring. apply Qcplus_le_compat; apply mult_nonneg; try easy; [|apply Qn_nonneg]. apply Qcle_trans with (total (g_sizes g)); [now apply Qclt_le_weak|exact B3].
Qed.
Lemma run_ema g (rs : list rank) (f : rank -> vq) : good_setup -> wf g -> List.length rs = processes ->
  Forall good_input (map fst rs) -> Forall searches (map fst rs) -> Forall (fun r => same g (f r) /\ bound_ok (f r)) rs ->
  let p := flat_map (found (code_view (g_embed g))) (map fst rs) in
  exists f', Forall (fun r => same (ema p g) (f' r) /\ bound_ok (f' r)) rs /\ wf (ema p g) /\
    run_all (map (fun r : rank => let idx := search (fst (fst r)) (code_view (embed (f r))) (snd (fst r)) in Reduce [bincount idx] (fun c => update_ema (snd (fst r)) idx (hd [] c) (f r))) rs) = Ok (map f' rs).
Proof.
  intros HU Hw Hl Hg Hs Hf p. pose proof HU as (_ & HP & _). pose proof Hw as (He & Ha & Hsz & Hp & Htot).
  set (cb := code_view (g_embed g)) in *. set (idx := fun r : rank => search (fst (fst r)) cb (snd (fst r))).
  assert (Hpf : flat_map (fun r : rank => found cb (fst r)) rs = p). { unfold p. clear. induction rs; cbn; congruence. }
  assert (Hpp : Forall (fun e => (fst e < codebook_size)%nat) p).
  { apply Forall_forall. intros e Hin. apply in_flat_map in Hin as (lx & Hlx & Hin). rewrite Forall_forall in Hs. pose proof (found_ok cb (Hs _ Hlx)) as Hk. rewrite Forall_forall in Hk. now apply Hk. }
  assert (Hne : p <> []).
  { destruct rs as [|r rs]; [cbn in Hl; lia|]. inversion_clear Hg as [|? ? (Hx & _) _]. inversion_clear Hs as [|? ? Hsr _]. destruct (Hsr cb) as [Hlen _].
    unfold p. cbn [map flat_map]. unfold found at 1. destruct (snd (fst r)) as [|v0 l0]; [congruence|]. destruct (search (fst (fst r)) cb (v0 :: l0)) as [|i l]; discriminate. }
  clearbody p. assert (Hwf : wf (ema p g)) by now apply wf_ema.
  assert (Hcount : forall r, List.In r rs -> bincount (idx r) = count_table (found cb (fst r))).
  { intros r Hin. unfold found. apply bincount_table. rewrite Forall_forall in Hs. apply (Hs (fst r)). now apply in_map. }
  assert (Hrun : run_all (map (fun r : rank => let i := search (fst (fst r)) (code_view (embed (f r))) (snd (fst r)) in Reduce [bincount i] (fun c => update_ema (snd (fst r)) i (hd [] c) (f r))) rs)
    = run_all (map (fun r => update_ema (snd (fst r)) (idx r) (count_table p) (f r)) rs)).
  { rewrite (map_ext_in _ (fun r => Reduce [count_table (found cb (fst r))] (fun c => update_ema (snd (fst r)) (idx r) (hd [] c) (f r)))).
    - clear Hl. destruct rs as [|r0 rs]; [reflexivity|]. rewrite run_reduce. cbv zeta.
      rewrite (fold_add (add := madd) (t := fun q => [count_table q]) (fun r : rank => found cb (fst r))) by apply add_counts. rewrite Hpf. reflexivity.
    - intros r Hin. cbv zeta. rewrite Forall_forall in Hf. destruct (Hf r Hin) as [(_ & Ee & _) _]. rewrite Ee. fold cb. rewrite <- (Hcount r Hin). reflexivity. }
  rewrite Hrun. clear Hrun.
  (* the lengths of rows and of pairs, on one rank *)
  assert (Hone : processes = 1%nat -> forall r, List.In r rs -> combine (idx r) (snd (fst r)) = p /\ List.length (snd (fst r)) = List.length p).
  { intros E1 r Hin. destruct rs as [|r0 [|r1 rs]]; cbn in Hl; try lia. destruct Hin as [->|[]]. cbn in Hpf. rewrite app_nil_r in Hpf.
    inversion_clear Hs as [|? ? Hsr _]. destruct (Hsr cb) as [Hlen _]. split; [exact Hpf|]. rewrite <- Hpf. unfold found. rewrite combine_length, Hlen. lia. }
  assert (Hb : forall r e a, List.In r rs -> bound_ok {| inited := inited (f r); batches := batches (f r); embed := e; embed_avg := a; cluster_size := ema_sizes p g; bounds := new_bounds (List.length (snd (fst r))) (bounds (f r)) |}).
  { intros r e a Hin E1. cbn [bounds cluster_size]. rewrite (proj2 (Hone E1 r Hin)). rewrite Forall_forall in Hf. destruct (Hf r Hin). now apply bounds_step. }
  unfold update_ema. cbv zeta.
  assert (Hsize : forall r, List.In r rs -> map2 lerp (cluster_size (f r)) (count_table p) = ema_sizes p g).
  { intros r Hin. rewrite Forall_forall in Hf. destruct (Hf r Hin) as [(_ & _ & _ & Es) _]. rewrite Es. now apply sizes_eq. }
  unfold ema in *. cbv zeta in *. destruct ema_update.
  - exists (fun r => finish_ema (ema_sizes p g) (new_bounds (List.length (snd (fst r))) (bounds (f r))) (ema_avg p g) (f r)). split; [|split; [exact Hwf|]].
    + apply Forall_forall. intros r Hin. split; [|now apply Hb]. apply finish_eq; [apply avg_table|apply codes_length|]. rewrite Forall_forall in Hf. apply (Hf r Hin).
    + destruct (Nat.eqb_spec processes 1) as [E1|E1].
      * rewrite <- run_ret. f_equal. apply map_ext_in. intros r Hin. rewrite (Hsize r Hin). f_equal. f_equal.
        rewrite Forall_forall in Hg. rewrite index_add_table; [|apply (Hg (fst r)); now apply in_map| |].
        -- rewrite (proj1 (Hone E1 r Hin)). rewrite Forall_forall in Hf. destruct (Hf r Hin) as [(_ & _ & Ea & _) _]. rewrite Ea. reflexivity.
        -- rewrite Forall_forall in Hf. destruct (Hf r Hin) as [(_ & _ & Ea & _) _]. rewrite Ea. apply Ha.
        -- rewrite Forall_forall in Hf. destruct (Hf r Hin) as [(_ & _ & Ea & _) _]. rewrite Ea. apply Ha.
      * rewrite (map_ext_in _ (fun r => Reduce (sum_table (found cb (fst r))) (fun s => Ret (finish_ema (ema_sizes p g) (new_bounds (List.length (snd (fst r))) (bounds (f r))) (map2 (map2 lerp) (g_avg g) s) (f r))))).
        -- clear - Hpf Ha. destruct rs as [|r0 rs]; [reflexivity|]. rewrite run_reduce. cbv zeta.
           rewrite (fold_add (add := madd) (t := sum_table) (fun r : rank => found cb (fst r))) by apply add_sums. rewrite Hpf, run_ret, avg_eq by exact Ha. reflexivity.
        -- intros r Hin. rewrite (Hsize r Hin), Forall_forall in *. destruct (Hf r Hin) as [(_ & _ & Ea & _) _]. rewrite Ea. rewrite scatter_table by (apply (Hg (fst r)); now apply in_map). reflexivity.
  - exists (fun r => {| inited := inited (f r); batches := batches (f r); embed := embed (f r); embed_avg := embed_avg (f r); cluster_size := ema_sizes p g; bounds := new_bounds (List.length (snd (fst r))) (bounds (f r)) |}).
    split; [|split; [exact Hwf|]].
    + apply Forall_forall. intros r Hin. split; [|now apply Hb]. rewrite Forall_forall in Hf. destruct (Hf r Hin) as [(E1 & E2 & E3 & _) _]. exact (conj E1 (conj E2 (conj E3 eq_refl))).
    + rewrite <- run_ret. f_equal. apply map_ext_in. intros r Hin. now rewrite (Hsize r Hin).
Qed.
End Step.
