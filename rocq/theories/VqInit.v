(** Facts for C70-C73: collecting samples, k-means, and the whole forward. *)
From Coq Require Import QArith Qcanon.
From Verif Require Import Base BaseFacts Vq VqSpec VqFacts VqExpire VqStep.
Set Implicit Arguments. Unset Strict Implicit.
Local Open Scope Qc_scope.
Section Init.
Context {U : setup}.
Notation rank := (luck * matrix * vq)%type.

(** ** Lloyd's iteration *)
Lemma assigned_combine means (x : matrix) : combine (map (nearest means) x) x = assigned means x.
Proof. unfold assigned. induction x; cbn; congruence. Qed.
Lemma assigned_flat T (f : T -> matrix) means l : flat_map (fun t => assigned means (f t)) l = assigned means (flat_map f l).
Proof. unfold assigned. induction l; cbn; [reflexivity|]. now rewrite map_app, IHl. Qed.
Lemma means_eq p (old : matrix) : List.length old = codebook_size -> means_of (count_table p) (sum_table p) old =
  codes (fun c => if Qc_eq_dec (count_of c p) 0 then nth c old [] else unit (dims (fun j => sum_of c j p / count_of c p))).
Proof.
  intros Hl. unfold means_of. etransitivity; [apply (f_equal (fun m => map2 _ _ (combine _ m))); exact (is_codes [] Hl)|].
  unfold count_table, sum_table, codes.
  assert (E : forall (l : list nat) A B (f : nat -> A) (g : nat -> B), combine (map f l) (map g l) = map (fun c => (f c, g c)) l) by (intros l A B f g; induction l; cbn; congruence).
  rewrite E, map2_map. apply map_table. intros c Hc. destruct (Qc_eq_dec (count_of c p) 0); [reflexivity|]. cbv zeta. cbn [fst]. unfold unit, dims. now rewrite map_map.
Qed.
Lemma lloyd_steps_S n rows m : lloyd_steps (S n) rows m = lloyd_step rows (lloyd_steps n rows m).
Proof. revert m; induction n as [|n IH]; intros m; [reflexivity|]. change (lloyd_steps (S n) rows (lloyd_step rows m) = lloyd_step rows (lloyd_steps n rows (lloyd_step rows m))). apply IH. Qed.
Lemma lloyd_length n rows m : List.length m = codebook_size -> List.length (lloyd_steps n rows m) = codebook_size.
Proof. intros H. destruct n; [exact H|]. rewrite lloyd_steps_S. apply codes_length. Qed.
Lemma run_lloyd A T (x : T -> matrix) (k : T -> matrix -> list Qc -> prog A) t0 (ts : list T) : Forall (fun t => is_matrix (x t)) (t0 :: ts) ->
  let rows := flat_map x (t0 :: ts) in forall n means bins, List.length means = codebook_size ->
  run_all (map (fun t => lloyd (S n) (x t) means bins (k t)) (t0 :: ts))
  = run_all (map (fun t => k t (lloyd_step rows (lloyd_steps n rows means)) (count_table (assigned (lloyd_steps n rows means) rows))) (t0 :: ts)).
Proof.
  intros Hm rows.
  assert (Hone : forall n means bins, List.length means = codebook_size -> run_all (map (fun t => lloyd (S n) (x t) means bins (k t)) (t0 :: ts))
    = run_all (map (fun t => lloyd n (x t) (lloyd_step rows means) (Some (count_table (assigned means rows))) (k t)) (t0 :: ts))).
  { intros n means bins Hl.
    rewrite (map_ext_in _ (fun t => Reduce [count_table (assigned means (x t))] (fun b => Reduce (sum_table (assigned means (x t))) (fun s => lloyd n (x t) (means_of (hd [] b) s means) (Some (hd [] b)) (k t))))).
    - rewrite run_reduce. cbv zeta. rewrite (fold_add (add := madd) (t := fun q => [count_table q]) (fun t => assigned means (x t))) by apply add_counts.
      rewrite run_reduce. cbv zeta. rewrite (fold_add (add := madd) (t := sum_table) (fun t => assigned means (x t))) by apply add_sums.
      rewrite assigned_flat. cbn [hd]. fold rows. rewrite means_eq by exact Hl. reflexivity.
    - intros t Hin. cbn [lloyd]. rewrite (bincount_table (x := x t)) by (now rewrite map_length). rewrite assigned_combine. rewrite Forall_forall in Hm. rewrite scatter_table by (exact (Hm t Hin)). rewrite assigned_combine. reflexivity. }
  induction n as [|n IH]; intros means bins Hl.
  - rewrite Hone by exact Hl. reflexivity.
  - rewrite Hone by exact Hl. rewrite IH by apply codes_length. rewrite !lloyd_steps_S.
    assert (E : lloyd_steps n rows (lloyd_step rows means) = lloyd_step rows (lloyd_steps n rows means)) by (rewrite <- lloyd_steps_S; reflexivity). now rewrite E.
Qed.

(** ** Initialisation *)
Lemma target_ge : (0 < processes)%nat -> (0 < kmeans_sample_multiplier)%nat -> (codebook_size <= target * processes)%nat.
Proof. intros HP HM. unfold target. pose proof (@ceil_div_ge (codebook_size * kmeans_sample_multiplier) processes HP). nia. Qed.
Lemma assigned_ok means rows : good_setup -> List.length means = codebook_size -> Forall (fun e : nat * vec => (fst e < codebook_size)%nat) (assigned means rows).
Proof.
  intros (_ & _ & _ & _ & _ & _ & _ & _ & Hn & _) Hl. apply Forall_forall. intros e H. apply in_map_iff in H as (r & <- & _). now apply Hn.
Qed.
Lemma lloyd_table rows means : good_setup -> table means -> table (lloyd_step rows means).
Proof.
  intros (_ & _ & _ & _ & _ & _ & _ & _ & _ & HN) Ht. apply table_codes. intros c Hc. destruct (Qc_eq_dec _ 0); [now apply table_nth|].
  unfold unit. destruct cosine; [apply HN|]; apply dims_length.
Qed.
Lemma counts_nonneg p : Forall (fun s => 0 <= s) (count_table p).
Proof. apply Forall_forall. intros s H. apply in_map_iff in H as (c & <- & _). apply count_nonneg. Qed.
Lemma concat_map A B (f : A -> list B) l : List.concat (map f l) = flat_map f l.
Proof. symmetry. apply flat_map_concat_map. Qed.
Lemma run_init g (rs : list rank) (f : rank -> vq) :
  good_setup -> List.length rs = processes -> g_rows g = map (fun r => List.concat (batches (f r))) rs -> Forall is_matrix (g_rows g) -> Forall (fun m => List.length m = target) (g_rows g) ->
  Forall (fun r => good_input (fst r)) rs ->
  let g1 := started (map (fun r => fst (fst r)) rs) g in
  exists f', Forall (fun r => same g1 (f' r) /\ bound_ok (f' r)) rs /\ wf g1 /\ g_inited g1 = true
    /\ run_all (map (fun r : rank => init_embed (fst (fst r)) (List.concat (batches (f r))) (f r)) rs) = Ok (map f' rs).
Proof.
  intros HU Hl Hrows Hm Ht Hin g1. pose proof HU as (HK & HP & HM & HI & _).
  set (x := fun r : rank => List.concat (batches (f r))) in *. set (rows := List.concat (g_rows g)).
  assert (Hx : forall r, List.In r rs -> List.length (x r) = target /\ is_matrix (x r)).
  { intros r Hr. assert (H : List.In (x r) (g_rows g)) by (rewrite Hrows; now apply in_map). rewrite Forall_forall in Ht, Hm. split; [now apply Ht|now apply Hm]. }
  assert (Hrl : List.length rows = (target * processes)%nat).
  { unfold rows. rewrite <- Hl. assert (E : List.length (g_rows g) = List.length rs) by (rewrite Hrows; apply map_length). rewrite <- E. clear - Ht. induction Ht as [|m l Hm Hl IH]; cbn; [lia|]. rewrite app_length, IH, Hm. cbn [List.length]. lia. }
  assert (Hge : (codebook_size <= target * processes)%nat) by now apply target_ge.
  assert (Hrm : is_matrix rows).
  { unfold rows. clear - Hm. induction Hm; cbn; [constructor|]. apply Forall_app. now split. }
  assert (Hrf : flat_map x rs = rows) by (unfold rows; rewrite Hrows; symmetry; apply concat_map).
  assert (Htp : (0 < target)%nat) by (destruct target; [cbn in Hge; lia|lia]).
  assert (Hbranch : forall r, List.In r rs -> init_embed (fst (fst r)) (x r) (f r) =
    if (codebook_size <? target * processes)%nat then sample_vectors (fst (fst r)) (x r) codebook_size (fun means => lloyd kmeans_iter (x r) means None (fun e b =>
      Ret {| inited := true; batches := []; embed := e; embed_avg := map2 (fun v n => scale n v) e b; cluster_size := b; bounds := None |}))
    else Gather (x r) (fun e => Ret {| inited := true; batches := []; embed := e; embed_avg := e; cluster_size := repeat 1 codebook_size; bounds := None |})).
  { intros r Hr. unfold init_embed, kmeans. cbv zeta. rewrite (proj1 (Hx r Hr)). destruct (Nat.ltb_spec (target * processes) codebook_size); [lia|reflexivity]. }
  unfold g1, started. cbv zeta. fold rows. rewrite Hrl. change (fun r : rank => init_embed (fst (fst r)) (List.concat (batches (f r))) (f r)) with (fun r : rank => init_embed (fst (fst r)) (x r) (f r)).
  rewrite (map_ext_in _ _ rs Hbranch). clear Hbranch.
  destruct (Nat.ltb_spec codebook_size (target * processes)).
  - set (lx := fun r : rank => (fst (fst r), x r)).
    assert (Hlx : Forall good_input (map lx rs)).
    { apply Forall_forall. intros e He. apply in_map_iff in He as (r & <- & Hr). destruct (Hx r Hr) as [H1 H2]. refine (conj _ (conj H2 _)).
      - cbn. intros E. rewrite E in H1. cbn in H1. lia.
      - rewrite Forall_forall in Hin. apply (Hin r Hr). }
    assert (Hcmb : combine (map (fun r => fst (fst r)) rs) (g_rows g) = map lx rs).
    { rewrite Hrows. unfold lx, x. clear. induction rs as [|r rs IH]; [reflexivity|]. cbn [map combine]. f_equal. exact IH. }
    rewrite Hcmb. set (means := picked (map lx rs) codebook_size).
    assert (Hmt : table means). { split; [now apply picked_matrix|]. apply picked_length; [now rewrite map_length|exact HP|exact Hlx]. }
    destruct kmeans_iter as [|it] eqn:Eit; [lia|]. replace (S it - 1)%nat with it by lia. set (before := lloyd_steps it rows means).
    assert (Hbt : table before). { unfold before. clear - HU Hmt. induction it; [exact Hmt|]. rewrite lloyd_steps_S. now apply lloyd_table. }
    set (sizes := count_table (assigned before rows)). set (e := lloyd_step rows before).
    assert (Hav : map2 (fun v n => scale n v) e sizes = codes (fun c => map (Qcmult (nth c sizes 0)) (nth c e []))).
    { etransitivity; [apply (f_equal2 (map2 _)); [exact (is_codes [] (proj2 (lloyd_table rows HU Hbt)))|exact (is_codes 0 (codes_length _))]|]. unfold codes at 1 2. now rewrite map2_map. }
    exists (fun _ => {| inited := true; batches := []; embed := e; embed_avg := map2 (fun v n => scale n v) e sizes; cluster_size := sizes; bounds := None |}).
    refine (conj _ (conj _ (conj eq_refl _))).
    + apply Forall_forall. intros r Hr. split; [|intros _; exact I]. exact (conj eq_refl (conj eq_refl (conj Hav eq_refl))).
    + unfold wf. cbn [g_embed g_avg g_sizes]. assert (He : table e) by now apply lloyd_table.
      refine (conj He (conj _ (conj (codes_length _) (conj (counts_nonneg _) _)))).
      * apply table_codes. intros c Hc. rewrite map_length. now apply table_nth.
      * fold (count_table (assigned before rows)). rewrite total_counts by (apply assigned_ok; [exact HU|apply Hbt]). apply Qn_pos. unfold assigned. rewrite map_length. lia.
    + etransitivity; [apply (@run_sample U vq rank lx codebook_size (fun r means => lloyd (S it) (x r) means None (fun e b => Ret {| inited := true; batches := []; embed := e; embed_avg := map2 (fun v n => scale n v) e b; cluster_size := b; bounds := None |}))); [exact Hl|exact HP|exact Hlx]|].
      fold means. destruct rs as [|r0 rs]; [cbn in Hl; lia|].
      rewrite (@run_lloyd vq rank x (fun _ e b => Ret {| inited := true; batches := []; embed := e; embed_avg := map2 (fun v n => scale n v) e b; cluster_size := b; bounds := None |})).
      * rewrite Hrf. fold before. fold e. fold sizes. apply run_ret.
      * apply Forall_forall. intros r Hr. now apply Hx.
      * apply Hmt.
  - exists (fun _ => {| inited := true; batches := []; embed := rows; embed_avg := rows; cluster_size := repeat 1 codebook_size; bounds := None |}).
    assert (HtR : table rows) by (split; [exact Hrm|lia]).
    assert (Hone : Forall (fun s => 0 <= s) (repeat 1 codebook_size)). { apply Forall_forall. intros s Hs. apply repeat_spec in Hs. now subst. }
    refine (conj _ (conj _ (conj eq_refl _))).
    + apply Forall_forall. intros r Hr. split; [|intros _; exact I]. exact (conj eq_refl (conj eq_refl (conj eq_refl eq_refl))).
    + refine (conj HtR (conj HtR (conj (repeat_length _ _) (conj Hone _)))). cbn [g_sizes]. apply total_pos with 0%nat; [exact Hone|rewrite repeat_length; exact HK|]. rewrite nth_indep with (d' := 1) by (now rewrite repeat_length). now rewrite nth_repeat.
    + destruct rs as [|r0 rs]; [cbn in Hl; lia|]. rewrite run_gather. cbv zeta. rewrite Hrf. apply run_ret.
Qed.

(** ** One forward *)
Definition linked (states : list vq) (g : global) : Prop :=
  List.length states = processes /\ Forall (fun st => same g st /\ bound_ok st) states /\ wf g
  /\ (g_inited g = false -> map (fun st => List.concat (batches st)) states = g_rows g /\ Forall (fun r => is_matrix r /\ (List.length r <= target)%nat) (g_rows g)).
Lemma good_inputs_parts ranks : good_inputs ranks -> List.length ranks = processes /\ Forall good_input ranks /\ Forall searches ranks.
Proof.
  intros [Hl H]. split; [exact Hl|]. split; apply Forall_forall; intros [l x] Hin; destruct (H l x Hin) as (H1 & H2 & H3 & H4); [exact (conj H1 (conj H2 H3))|exact H4].
Qed.
Definition filled (r : rank) : vq := let st := snd r in
  if (0 <? target - held st)%nat then {| inited := inited st; batches := batches st ++ [firstn (target - held st) (snd (fst r))]; embed := embed st; embed_avg := embed_avg st; cluster_size := cluster_size st; bounds := bounds st |} else st.
Lemma filled_rows r : (held (snd r) <= target)%nat -> List.concat (batches (filled r)) = collect (snd (fst r)) (List.concat (batches (snd r))).
Proof.
  intros H. unfold filled, collect. cbv zeta. rewrite firstn_app. unfold held in *. assert (E : firstn target (List.concat (batches (snd r))) = List.concat (batches (snd r))) by (apply firstn_all2; exact H). rewrite E. clear E.
  destruct (Nat.ltb_spec 0 (target - List.length (List.concat (batches (snd r))))) as [L|L].
  - cbn [batches]. rewrite concat_app. cbn [List.concat]. now rewrite app_nil_r.
  - replace (target - List.length (List.concat (batches (snd r))))%nat with 0%nat by lia. now rewrite firstn_O, app_nil_r.
Qed.
Lemma filled_same g r : same g (snd r) /\ bound_ok (snd r) -> same g (filled r) /\ bound_ok (filled r).
Proof. intros H. unfold filled. cbv zeta. destruct (0 <? _)%nat; exact H. Qed.
Theorem forward_correct (rs : list rank) g : good_setup -> good_inputs (map fst rs) -> linked (map snd rs) g ->
  exists states, step rs = Ok states /\ linked states (spec_step (map fst rs) g).
Proof.
  intros HU Hin (Hl & Hf & Hw & Hrows). destruct (good_inputs_parts Hin) as (Hl' & Hg & Hs). rewrite map_length in Hl, Hl'. pose proof HU as (HK & HP & HM & _).
  assert (Hst : Forall (fun r : rank => same g (snd r) /\ bound_ok (snd r)) rs).
  { apply Forall_forall. intros r Hr. rewrite Forall_forall in Hf. apply Hf. now apply in_map. }
  unfold step, spec_step, forward. destruct (g_inited g) eqn:Ei.
  - destruct (run_expire vq HU Hw Hl Hg Hst) as (f & Hf1 & Hrun). pose proof (wf_after (ranks := map fst rs) HU Hw ltac:(now rewrite map_length) Hg) as Hw1.
    cbv zeta. fold (after_expiry (map fst rs) g). set (g1 := after_expiry (map fst rs) g) in *.
    destruct (run_ema HU Hw1 Hl Hg Hs Hf1) as (f' & Hf2 & Hw2 & Hrun2).
    exists (map f' rs). split.
    + rewrite <- Hrun2. rewrite <- (Hrun (fun r st => let idx := search (fst (fst r)) (code_view (embed st)) (snd (fst r)) in Reduce [bincount idx] (fun c => update_ema (snd (fst r)) idx (hd [] c) st))).
      f_equal. apply map_ext_in. intros r Hr. rewrite Forall_forall in Hst. destruct (Hst r Hr) as [(E & _) _]. rewrite E, Ei. reflexivity.
    + assert (Ei2 : g_inited (ema (flat_map (found (code_view (g_embed g1))) (map fst rs)) g1) = true).
      { unfold ema. cbv zeta. assert (Eg : g_inited g1 = true) by (unfold g1, after_expiry; cbv zeta; destruct (_ =? 0)%nat; exact Ei). destruct ema_update; exact Eg. }
      refine (conj _ (conj _ (conj Hw2 _))).
      * now rewrite map_length.
      * apply Forall_forall. intros st Hin2. apply in_map_iff in Hin2 as (r & <- & Hr). rewrite Forall_forall in Hf2. now apply Hf2.
      * intros E. unfold found in Ei2. congruence.
  - destruct (Hrows eq_refl) as [Hr1 Hr2]. cbv zeta.
    assert (Hheld : forall r, List.In r rs -> (held (snd r) <= target)%nat /\ is_matrix (List.concat (batches (snd r)))).
    { intros r Hr. assert (H : List.In (List.concat (batches (snd r))) (g_rows g)). { rewrite <- Hr1. rewrite map_map. now apply (in_map (fun r : rank => List.concat (batches (snd r)))). }
      rewrite Forall_forall in Hr2. destruct (Hr2 _ H). split; assumption. }
    assert (Hnew : map2 (fun lx r => collect (snd lx) r) (map fst rs) (g_rows g) = map (fun r => List.concat (batches (filled r))) rs).
    { rewrite <- Hr1, map_map, map2_map. apply map_ext_in. intros r Hr. symmetry. apply filled_rows. now apply Hheld. }
    rewrite Hnew. set (g1 := {| g_inited := false; g_rows := map (fun r => List.concat (batches (filled r))) rs; g_embed := g_embed g; g_avg := g_avg g; g_sizes := g_sizes g |}).
    assert (Hf1 : Forall (fun r => same g1 (filled r) /\ bound_ok (filled r)) rs).
    { eapply Forall_impl; [|exact Hst]. intros r Hr. apply (@filled_same g1). destruct Hr as [(E1 & E2 & E3 & E4) Hb]. rewrite Ei in E1. split; [exact (conj E1 (conj E2 (conj E3 E4)))|exact Hb]. }
    assert (Hnr : Forall (fun r => is_matrix r /\ (List.length r <= target)%nat) (map (fun r => List.concat (batches (filled r))) rs)).
    { apply Forall_forall. intros m Hm. apply in_map_iff in Hm as (r & <- & Hr). destruct (Hheld r Hr) as [H1 H2]. rewrite filled_rows by exact H1. unfold collect. split.
      - apply Forall_forall. intros v Hv. apply firstn_in in Hv. apply in_app_or in Hv as [Hv|Hv]; [unfold is_matrix in H2; rewrite Forall_forall in H2; now apply H2|].
        rewrite Forall_forall in Hg. destruct (Hg (fst r) ltac:(now apply in_map)) as (_ & Hxm & _). unfold is_matrix in Hxm. rewrite Forall_forall in Hxm. now apply Hxm.
      - rewrite firstn_length. lia. }
    assert (Hrun : run_all (map (fun r : rank => if inited (snd r) then expire_codes (fst (fst r)) (snd (fst r)) (snd r) (fun st => let idx := search (fst (fst r)) (code_view (embed st)) (snd (fst r)) in Reduce [bincount idx] (fun c => update_ema (snd (fst r)) idx (hd [] c) st)) else accumulate (fst (fst r)) (snd (fst r)) (snd r)) rs)
      = run_all (map (fun r => if forallb (fun m => (target <=? List.length m)%nat) (map (fun r => List.concat (batches (filled r))) rs) then init_embed (fst (fst r)) (List.concat (batches (filled r))) (filled r) else Ret (filled r)) rs)).
    { rewrite (map_ext_in _ (fun r : rank => GatherObject (target <=? held (filled r))%nat (fun flags => if forallb (fun b => b) flags then init_embed (fst (fst r)) (List.concat (batches (filled r))) (filled r) else Ret (filled r)))).
      - clear Hrows. assert (Hrs : rs <> []) by (destruct rs; [cbn in Hl; lia|discriminate]). destruct rs as [|r0 rs']; [congruence|]. rewrite run_objects. cbv zeta. f_equal. apply map_ext. intros r.
        assert (E : forall l : list rank, forallb (fun b => b) (map (fun r => (target <=? held (filled r))%nat) l) = forallb (fun m => (target <=? List.length m)%nat) (map (fun r => List.concat (batches (filled r))) l)) by (induction l as [|a l IH]; [reflexivity|]; cbn [map forallb]; rewrite IH; reflexivity).
        now rewrite E.
      - intros r Hr. rewrite Forall_forall in Hst. destruct (Hst r Hr) as [(E & _) _]. rewrite E, Ei. reflexivity. }
    destruct (forallb (fun r => (target <=? List.length r)%nat) (map (fun r => List.concat (batches (filled r))) rs)) eqn:Eall.
    + assert (Hfull : Forall (fun m => List.length m = target) (g_rows g1)).
      { cbn. rewrite forallb_forall in Eall. rewrite Forall_forall in *. intros m Hm. destruct (Hnr m Hm) as [_ L]. specialize (Eall m Hm). apply Nat.leb_le in Eall. lia. }
      assert (Hmat : Forall is_matrix (g_rows g1)). { cbn. eapply Forall_impl; [|exact Hnr]. intros m [H _]. exact H. }
      assert (Hgi : Forall (fun r => good_input (fst r)) rs). { apply Forall_forall. intros r Hr. rewrite Forall_forall in Hg. apply Hg. now apply in_map. }
      destruct (@run_init g1 rs filled HU Hl eq_refl Hmat Hfull Hgi) as (f' & Hf2 & Hw2 & Ei2 & Hrun2).
      exists (map f' rs). split; [etransitivity; [exact Hrun|exact Hrun2]|]. rewrite map_map.
      refine (conj _ (conj _ (conj Hw2 _))).
      * now rewrite map_length.
      * apply Forall_forall. intros st Hin2. apply in_map_iff in Hin2 as (r & <- & Hr). rewrite Forall_forall in Hf2. now apply Hf2.
        * intros E. exfalso.
        congruence.
    + exists (map filled rs). split; [etransitivity; [exact Hrun|apply run_ret]|].
      refine (conj _ (conj _ (conj Hw _))).
      * now rewrite map_length.
      * apply Forall_forall. intros st Hin2. apply in_map_iff in Hin2 as (r & <- & Hr). rewrite Forall_forall in Hf1. now apply Hf1.
      * intros _. cbn [g_rows g1]. split; [now rewrite map_map|exact Hnr].
Qed.
End Init.
