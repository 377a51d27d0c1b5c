(** C17 training batches, C18 evaluation batches, C19 step budget, C21 resume of
    the planner, over its two feeds: records from any source that meets the source
    contract through the Python shuffle reservoir, and uint64 record ids through the
    native one. *)
From Verif Require Import Base BaseFacts Rng Reservoir ReservoirFacts PackedReservoir Prop_Reservoir Source Sequential.
From Verif Require Import Planner PlannerObs PlannerSpec PlannerDict PlannerSim PlannerSpecFacts PlannerRun PlannerResume PlannerDet PlannerGlue
  PlannerFeed PackedState PlannerPacked PlannerUnit.
Set Implicit Arguments.
Unset Strict Implicit.

(** What a client of the planner over records [records epoch cycle] can assume of
    the record order of a cycle: a permutation of the cycle's records, and their
    own order when nothing is shuffled. *)
Definition cycle_order {A} (fc : fconfig) (records l : list A) : Prop :=
  Permutation records l /\ (fc_capacity fc = 1 -> l = records).

Section Generic.
  Variables X A T : Type.
  Variable fd : feed X A T.
  Variable strm : Z -> Z -> res (list A).
  Variable R : Z -> Z -> status -> nat -> X -> list A -> Prop.
  Variable shape : A -> Z.
  Variable cf : pconfig.
  Variable fc : fconfig.
  Variable records : Z -> Z -> list A.
  Hypothesis HF : feeds fd strm R.
  Hypothesis Hcf : config_ok cf.
  Hypothesis Horder : forall ep cy l, strm ep cy = Ok l -> cycle_order fc (records ep cy) l.
  Hypothesis Hshape : forall code ep cy, pc_uniform cf = Some code -> Forall (fun e => shape e = code) (records ep cy).
  Hypothesis Hfuel : forall ep cy, 0 <= ep -> 0 <= cy -> strm ep cy <> Err OutOfFuel.

  Lemma Huniform code ep cy l : pc_uniform cf = Some code -> strm ep cy = Ok l -> Forall (fun e => shape e = code) l.
  Proof.
    intros Hu Hs. destruct (Horder Hs) as [Hp _]. eapply Permutation_Forall; [exact Hp|]. apply Hshape. exact Hu.
  Qed.

  Lemma eats_cycles ep p E q : eats strm ep p E q -> exists ls,
    (forall i l, nth_error ls i = Some l -> strm ep (fst p + 1 + Z.of_nat i) = Ok l)
    /\ snd p ++ List.concat ls = E ++ snd q /\ fst q = fst p + zlen ls.
  Proof.
    clear HF Hcf Horder Hshape Hfuel.
    induction 1 as [cy items E rest H|cy items l E p H1 H2 (ls & G1 & G2 & G3)].
    - exists []. cbn [fst snd List.concat]. conj; auto; try (unfold zlen; cbn; lia).
      + intros [|i] l; discriminate.
      + rewrite app_nil_r. exact H.
    - exists (l :: ls). cbn [fst snd List.concat] in *. conj.
      + intros [|i] l'; cbn [nth_error]; intros E'; [injection E' as <-; rewrite Z.add_0_r; exact H1|].
        apply G1 in E'. rewrite <- E'. f_equal. lia.
      + rewrite <- !app_assoc. f_equal. exact G2.
      + rewrite zlen_cons. lia.
  Qed.

  (** At any moment of an epoch. *)
  Lemma history ep p0 bs p : start_epoch fd ep = Ok p0 -> plan fd shape cf p0 bs p ->
    exists cycles left,
      cycles <> [] /\ (pc_sharded cf = false -> List.length cycles = 1%nat)
      /\ (forall i l, nth_error cycles i = Some l -> cycle_order fc (records ep (Z.of_nat i)) l)
      /\ (forall t, of_shape shape t (List.concat cycles) = of_shape shape t (samples bs) ++ of_shape shape t left)
      /\ Permutation (List.concat cycles) (samples bs ++ left).
  Proof.
    intros Hst Hpl. destruct (epoch_records HF Hcf Huniform Hfuel Hst Hpl) as (l0 & E & c & rest & L & H0 & HE & Hc & HL & HP & _).
    destruct (eats_cycles HE) as (ls & G1 & G2 & G3). cbn [fst snd] in *.
    exists (l0 :: ls), (L ++ rest). conj.
    - discriminate.
    - intros Hs. specialize (Hc Hs). unfold zlen in G3. cbn. lia.
    - intros [|i] l; cbn [nth_error]; intros Hn.
      + injection Hn as <-. apply Horder. exact H0.
      + apply G1 in Hn. apply Horder. replace (Z.of_nat (S i)) with (0 + 1 + Z.of_nat i) by lia. exact Hn.
    - intros t. cbn [List.concat]. rewrite G2, !of_shape_app, HL, app_assoc. reflexivity.
    - cbn [List.concat]. rewrite G2, HP, app_assoc. reflexivity.
  Qed.

  Lemma training_batches ep p0 bs p : pc_train cf = true -> start_epoch fd ep = Ok p0 -> plan fd shape cf p0 bs p ->
    Forall (full_batch shape (pc_batch cf)) bs /\ samples bs = flat_map (@b_items A) bs.
  Proof.
    intros Ht Hst Hpl. destruct (epoch_batches HF Hcf Huniform Hfuel Hst Hpl) as (G & _ & _).
    assert (HB : Forall (full_batch shape (pc_batch cf)) bs).
    { eapply Forall_impl; [|exact G]. intros b Hb. apply good_train; auto. }
    split; [exact HB|]. eapply full_samples; eauto.
  Qed.

  Lemma budget ep p0 bs p : start_epoch fd ep = Ok p0 -> plan fd shape cf p0 bs p ->
    (forall i b, nth_error bs i = Some b -> b_index b = Z.of_nat i /\ b_epoch b = ep)
    /\ forall s, pc_steps cf = Some s ->
         zlen bs <= s
         /\ (forall i b, nth_error bs i = Some b -> Z.of_nat i = s - 1 -> b_last b = true)
         /\ (pc_train cf = true -> forall i b, nth_error bs i = Some b -> b_last b = true -> Z.of_nat i = s - 1)
         /\ (zlen bs = s -> at_end fd shape cf p)
         /\ (pc_sharded cf = true -> at_end fd shape cf p -> zlen bs = s).
  Proof.
    intros Hst Hpl.
  destruct (epoch_batches HF Hcf Huniform Hfuel Hst Hpl) as (_ & G1 & G2).
  assert (Hidx : forall i b, nth_error bs i = Some b -> b_index b = Z.of_nat i /\ b_epoch b = ep).
  { intros i b Hb. split.
    - apply (map_nth_error (@b_index _)) in Hb. rewrite G2 in Hb. unfold indices in Hb.
      assert (Hi : (i < List.length bs)%nat).
      { destruct (Nat.lt_ge_cases i (List.length bs)) as [Hi|Hi]; auto.
        rewrite (proj2 (nth_error_None _ _)) in Hb; [discriminate|]. rewrite map_length. unfold range. rewrite seq_length. exact Hi. }
      rewrite (map_nth_error _ i _ (d := i)) in Hb; [injection Hb as <-; lia|].
      unfold range. rewrite nth_error_nth' with (d := 0%nat) by (rewrite seq_length; exact Hi).
      rewrite seq_nth by exact Hi. reflexivity.
    - rewrite Forall_forall in G1. apply G1. eapply nth_error_In; eauto. }
  split; [exact Hidx|]. intros s Hs.
  destruct (epoch_budget HF Hcf Huniform Hfuel Hst Hpl Hs) as (B1 & B2 & B3 & B4 & B5).
  rewrite Forall_forall in B3. conj; auto.
  - intros i b Hb Hi. apply B3; [eapply nth_error_In; eauto|]. destruct (Hidx i b Hb). lia.
  - intros Ht i b Hb Hl. specialize (B2 Ht). rewrite Forall_forall in B2.
    destruct (Hidx i b Hb) as [E _]. rewrite <- E. apply B2; [eapply nth_error_In; eauto|exact Hl].
  Qed.
End Generic.

Lemma one_shape {A} code (l : list A) : of_shape (fun _ => code) code l = l.
Proof.
  unfold of_shape. rewrite Z.eqb_refl. induction l as [|x l IH]; [reflexivity|]. cbn [filter]. f_equal. exact IH.
Qed.

(** C17: at every moment of a training epoch every batch handed out has exactly the
    planning batch size of distinct slots, all real and of one shape, and the
    samples handed out are, within each shape, an initial part of the records read
    so far (the epoch's only cycle, or with rank sharding the successive cycles of
    this rank's records, each cycle in the order given by the reservoir). *)
Theorem C17_training_batches_are_full_and_never_repeat_a_record :
  forall C P D header hash64 (sr : resumable C P D) fc records RS cf shape ep p0 bs p,
    source_ok header hash64 sr fc records RS -> config_ok cf -> pc_train cf = true ->
    (forall code ep cy, pc_uniform cf = Some code -> Forall (fun e => shape e = code) (records ep cy)) ->
    let fd := object_feed header hash64 sr fc in
    start_epoch fd ep = Ok p0 -> plan fd shape cf p0 bs p ->
    Forall (full_batch shape (pc_batch cf)) bs
    /\ exists cycles left,
         cycles <> [] /\ (pc_sharded cf = false -> List.length cycles = 1%nat)
         /\ (forall i l, nth_error cycles i = Some l -> cycle_order fc (records ep (Z.of_nat i)) l)
         /\ (forall t, of_shape shape t (List.concat cycles)
                       = of_shape shape t (flat_map (@b_items _) bs) ++ of_shape shape t left)
         /\ Permutation (List.concat cycles) (flat_map (@b_items _) bs ++ left).
Proof.
  intros C P D header hash64 sr fc records RS cf shape ep p0 bs p Hok Hcf Ht Hsh fd Hst Hpl.
  pose proof (source_feeds Hok) as HF. pose proof (stream_no_fuel Hok) as Hfuel.
  assert (Ho : forall ep cy l, stream header hash64 sr fc records ep cy = Ok l -> cycle_order fc (records ep cy) l).
  { intros ep' cy l Hs. split; [eapply stream_records; eauto|]. intros Hc. eapply stream_order; eauto. }
  destruct (training_batches HF Hcf Ho Hsh Hfuel Ht Hst Hpl) as [HB HE]. split; [exact HB|].
  rewrite <- HE. eapply history; eauto.
Qed.
Print Assumptions C17_training_batches_are_full_and_never_repeat_a_record.

(** The same over record ids and the native reservoir (never
    rank sharded; the planner has one shape). *)
Theorem C17_packed_training_batches_are_full_and_never_repeat_a_record :
  forall C D header hash64 (ks : packed_source C D) fc records RS cf code ep p0 bs p,
    packed_ok header hash64 ks fc records RS -> config_ok cf -> pc_train cf = true ->
    pc_packed cf = true -> pc_uniform cf = Some code ->
    let fd := packed_feed header hash64 ks fc in
    start_epoch fd ep = Ok p0 -> plan fd (fun _ => code) cf p0 bs p ->
    Forall (fun b => List.length (b_items b) = pc_batch cf /\ b_real b = repeat true (pc_batch cf)) bs
    /\ exists order left, cycle_order fc (records ep 0) order
         /\ order = flat_map (@b_items _) bs ++ left.
Proof.
  intros C D header hash64 ks fc records RS cf code ep p0 bs p Hok Hcf Ht Hpk Hu fd Hst Hpl.
  pose proof (packed_source_feeds Hok) as HF. pose proof (packed_no_fuel Hok) as Hfuel.
  assert (Ho : forall ep cy l, packed_stream header hash64 ks fc records ep cy = Ok l -> cycle_order fc (records ep cy) l).
  { intros ep' cy l Hs. split; [eapply packed_stream_records; eauto|]. intros Hc. eapply packed_stream_order; eauto. }
  assert (Hsh : forall c ep cy, pc_uniform cf = Some c -> Forall (fun _ : Z => code = c) (records ep cy)).
  { intros c ep' cy Hc. rewrite Forall_forall. congruence. }
  destruct (training_batches HF Hcf Ho Hsh Hfuel Ht Hst Hpl) as [HB HE]. split.
  { eapply Forall_impl; [|exact HB]. intros b (B1 & B2 & _). auto. }
  destruct (history HF Hcf Ho Hsh Hfuel Hst Hpl) as (cycles & left & H1 & H2 & H3 & H4 & _).
  destruct (ok_packed Hcf Hpk) as [Hns _]. specialize (H2 Hns).
  destruct cycles as [|order [|x y]]; try discriminate H2. exists order, left. split; [apply (H3 0%nat); reflexivity|].
  specialize (H4 code). cbn [List.concat] in H4. rewrite app_nil_r, HE in H4.
  assert (Hall : forall l : list Z, of_shape (fun _ => code) code l = l).
  { apply one_shape. }
  rewrite !Hall in H4. exact H4.
Qed.
Print Assumptions C17_packed_training_batches_are_full_and_never_repeat_a_record.

(** C17: when a training epoch without rank sharding ends before its step budget,
    every record was handed out except fewer than one batch per shape; within a
    shape the records left out are the last ones. *)
Theorem C17_training_epoch_leaves_less_than_a_batch_per_shape :
  forall C P D header hash64 (sr : resumable C P D) fc records RS cf shape ep p0 bs p,
    source_ok header hash64 sr fc records RS -> config_ok cf -> pc_train cf = true ->
    (forall code ep cy, pc_uniform cf = Some code -> Forall (fun e => shape e = code) (records ep cy)) ->
    let fd := object_feed header hash64 sr fc in
    start_epoch fd ep = Ok p0 -> plan fd shape cf p0 bs p -> at_end fd shape cf p ->
    (forall s, pc_steps cf = Some s -> zlen bs <> s) ->
    exists order left, cycle_order fc (records ep 0) order
      /\ (forall t, of_shape shape t order = of_shape shape t (flat_map (@b_items _) bs) ++ of_shape shape t left)
      /\ Permutation order (flat_map (@b_items _) bs ++ left)
      /\ (forall t, (List.length (of_shape shape t left) < pc_batch cf)%nat).
Proof.
  intros C P D header hash64 sr fc records RS cf shape ep p0 bs p Hok Hcf Ht Hsh fd Hst Hpl Hend Hns.
  pose proof (source_feeds Hok) as HF. pose proof (stream_no_fuel Hok) as Hfuel.
  assert (Ho : forall ep cy l, stream header hash64 sr fc records ep cy = Ok l -> cycle_order fc (records ep cy) l).
  { intros ep' cy l Hs. split; [eapply stream_records; eauto|]. intros Hc. eapply stream_order; eauto. }
  destruct (training_batches HF Hcf Ho Hsh Hfuel Ht Hst Hpl) as [HB HE].
  destruct (epoch_end HF Hcf (Huniform Ho Hsh) Hfuel Hst Hpl Hend) as (l0 & L & H0 & _ & H1 & H2 & H3 & _).
  { intros (s & Hs & E). apply (Hns s Hs E). }
  rewrite HE in *. exists l0, L. conj; auto.
Qed.
Print Assumptions C17_training_epoch_leaves_less_than_a_batch_per_shape.

Theorem C17_packed_training_epoch_leaves_less_than_a_batch :
  forall C D header hash64 (ks : packed_source C D) fc records RS cf code ep p0 bs p,
    packed_ok header hash64 ks fc records RS -> config_ok cf -> pc_train cf = true ->
    pc_packed cf = true -> pc_uniform cf = Some code ->
    let fd := packed_feed header hash64 ks fc in
    start_epoch fd ep = Ok p0 -> plan fd (fun _ => code) cf p0 bs p -> at_end fd (fun _ => code) cf p ->
    (forall s, pc_steps cf = Some s -> zlen bs <> s) ->
    exists order left, cycle_order fc (records ep 0) order
      /\ order = flat_map (@b_items _) bs ++ left /\ (List.length left < pc_batch cf)%nat.
Proof.
  intros C D header hash64 ks fc records RS cf code ep p0 bs p Hok Hcf Ht Hpk Hu fd Hst Hpl Hend Hns.
  pose proof (packed_source_feeds Hok) as HF. pose proof (packed_no_fuel Hok) as Hfuel.
  assert (Ho : forall ep cy l, packed_stream header hash64 ks fc records ep cy = Ok l -> cycle_order fc (records ep cy) l).
  { intros ep' cy l Hs. split; [eapply packed_stream_records; eauto|]. intros Hc. eapply packed_stream_order; eauto. }
  assert (Hsh : forall c ep cy, pc_uniform cf = Some c -> Forall (fun _ : Z => code = c) (records ep cy)).
  { intros c ep' cy Hc. rewrite Forall_forall. congruence. }
  destruct (training_batches HF Hcf Ho Hsh Hfuel Ht Hst Hpl) as [HB HE].
  destruct (epoch_end HF Hcf (Huniform Ho Hsh) Hfuel Hst Hpl Hend) as (l0 & L & H0 & _ & H1 & H2 & H3 & _).
  { intros (s & Hs & E). apply (Hns s Hs E). }
  assert (Hall : forall l : list Z, of_shape (fun _ => code) code l = l).
  { apply one_shape. }
  specialize (H1 code). specialize (H3 code). rewrite !Hall in *. rewrite HE in H1. exists l0, L. conj; auto.
Qed.
Print Assumptions C17_packed_training_epoch_leaves_less_than_a_batch.

(** C18: at the end of an evaluation epoch that was not cut by a step budget, the
    samples marked valid are exactly the source's records, each once (and in source
    order within a shape when nothing is shuffled); every batch has the planning
    size, its valid samples come first and the padding repeats them cyclically. *)
Theorem C18_evaluation_covers_every_record_exactly_once :
  forall C P D header hash64 (sr : resumable C P D) fc records RS cf shape ep p0 bs p,
    source_ok header hash64 sr fc records RS -> config_ok cf -> pc_train cf = false ->
    (forall code ep cy, pc_uniform cf = Some code -> Forall (fun e => shape e = code) (records ep cy)) ->
    let fd := object_feed header hash64 sr fc in
    start_epoch fd ep = Ok p0 -> plan fd shape cf p0 bs p -> at_end fd shape cf p ->
    (forall s, pc_steps cf = Some s -> zlen bs <> s) ->
    Permutation (records ep 0) (samples bs)
    /\ (fc_capacity fc = 1 -> forall t, of_shape shape t (samples bs) = of_shape shape t (records ep 0))
    /\ Forall (padded_batch shape (pc_batch cf)) bs.
Proof.
  intros C P D header hash64 sr fc records RS cf shape ep p0 bs p Hok Hcf Ht Hsh fd Hst Hpl Hend Hns.
  pose proof (source_feeds Hok) as HF. pose proof (stream_no_fuel Hok) as Hfuel.
  assert (Ho : forall ep cy l, stream header hash64 sr fc records ep cy = Ok l -> cycle_order fc (records ep cy) l).
  { intros ep' cy l Hs. split; [eapply stream_records; eauto|]. intros Hc. eapply stream_order; eauto. }
  destruct (epoch_batches HF Hcf (Huniform Ho Hsh) Hfuel Hst Hpl) as (G & _ & _).
  destruct (epoch_end HF Hcf (Huniform Ho Hsh) Hfuel Hst Hpl Hend) as (l0 & L & H0 & _ & H1 & H2 & H3 & H4).
  { intros (s & Hs & E). apply (Hns s Hs E). }
  specialize (H4 Ht). subst L. rewrite app_nil_r in H2. destruct (Ho _ _ _ H0) as [O1 O2]. conj.
  - etransitivity; eauto.
  - intros Hc t. rewrite <- (O2 Hc), H1. symmetry. apply app_nil_r.
  - eapply Forall_impl; [|exact G]. intros b. apply good_padded.
Qed.
Print Assumptions C18_evaluation_covers_every_record_exactly_once.

Theorem C18_packed_evaluation_covers_every_record_exactly_once :
  forall C D header hash64 (ks : packed_source C D) fc records RS cf code ep p0 bs p,
    packed_ok header hash64 ks fc records RS -> config_ok cf -> pc_train cf = false ->
    pc_packed cf = true -> pc_uniform cf = Some code ->
    let fd := packed_feed header hash64 ks fc in
    start_epoch fd ep = Ok p0 -> plan fd (fun _ => code) cf p0 bs p -> at_end fd (fun _ => code) cf p ->
    (forall s, pc_steps cf = Some s -> zlen bs <> s) ->
    cycle_order fc (records ep 0) (samples bs)
    /\ Forall (padded_batch (fun _ => code) (pc_batch cf)) bs.
Proof.
  intros C D header hash64 ks fc records RS cf code ep p0 bs p Hok Hcf Ht Hpk Hu fd Hst Hpl Hend Hns.
  pose proof (packed_source_feeds Hok) as HF. pose proof (packed_no_fuel Hok) as Hfuel.
  assert (Ho : forall ep cy l, packed_stream header hash64 ks fc records ep cy = Ok l -> cycle_order fc (records ep cy) l).
  { intros ep' cy l Hs. split; [eapply packed_stream_records; eauto|]. intros Hc. eapply packed_stream_order; eauto. }
  assert (Hsh : forall c ep cy, pc_uniform cf = Some c -> Forall (fun _ : Z => code = c) (records ep cy)).
  { intros c ep' cy Hc. rewrite Forall_forall. congruence. }
  destruct (epoch_batches HF Hcf (Huniform Ho Hsh) Hfuel Hst Hpl) as (G & _ & _).
  destruct (epoch_end HF Hcf (Huniform Ho Hsh) Hfuel Hst Hpl Hend) as (l0 & L & H0 & _ & H1 & H2 & H3 & H4).
  { intros (s & Hs & E). apply (Hns s Hs E). }
  specialize (H4 Ht). subst L.
  assert (Hall : forall l : list Z, of_shape (fun _ => code) code l = l).
  { apply one_shape. }
  specialize (H1 code). rewrite !Hall, app_nil_r in H1. subst l0. split; [apply Ho; exact H0|].
  eapply Forall_impl; [|exact G]. intros b. apply good_padded.
Qed.
Print Assumptions C18_packed_evaluation_covers_every_record_exactly_once.

(** C18: the slices the ranks take of one global batch (planning size = world size
    times local size, no rank sharding) have the local size and put together in
    rank order are the batch and its mask. *)
Theorem C18_rank_slices_reassemble_the_batch :
  forall A cf (world local : nat) (b : batch A),
    pc_sharded cf = false -> pc_batch cf = (world * local)%nat ->
    List.length (b_items b) = pc_batch cf -> List.length (b_real b) = pc_batch cf ->
    exists slices, mapM (fun r => local_slice cf r local b) (range world) = Ok slices
      /\ Forall (fun s => List.length (fst s) = local /\ List.length (snd s) = local) slices
      /\ List.concat (map fst slices) = b_items b /\ List.concat (map snd slices) = b_real b.
Proof.
  intros A cf world local b Hns Hb Hl Hm.
  assert (Hcut : forall (B : Type) (l : list B) w, List.length l = (w * local)%nat ->
     Forall (fun c => List.length c = local) (map (fun r => firstn local (skipn (r * local) l)) (range w))
     /\ List.concat (map (fun r => firstn local (skipn (r * local) l)) (range w)) = l).
  { clear. intros B l w. revert l. induction w as [|w IH]; intros l Hl.
    - destruct l; [|cbn in Hl; lia]. cbn. auto.
    - unfold range in *. rewrite <- cons_seq, <- seq_shift. cbn [map List.concat]. rewrite map_map.
      assert (Hs : List.length (skipn local l) = (w * local)%nat) by (rewrite skipn_length; lia).
      destruct (IH _ Hs) as [I1 I2].
      assert (E : map (fun x => firstn local (skipn (S x * local) l)) (seq 0 w)
                  = map (fun r => firstn local (skipn (r * local) (skipn local l))) (seq 0 w)).
      { apply map_ext. intros r. rewrite skipn_skipn. do 2 f_equal. lia. }
      rewrite E. split.
      + constructor; [|exact I1]. rewrite firstn_length. cbn [Nat.mul skipn]. lia.
      + rewrite I2. cbn [Nat.mul skipn]. apply firstn_skipn. }
  destruct (Hcut _ (b_items b) world ltac:(congruence)) as [I1 I2].
  destruct (Hcut _ (b_real b) world ltac:(congruence)) as [R1 R2].
  assert (HM : forall rs, (forall r, In r rs -> List.length (firstn local (skipn (r * local) (b_items b))) = local) ->
     mapM (fun r => local_slice cf r local b) rs
     = Ok (map (fun r => (firstn local (skipn (r * local) (b_items b)), firstn local (skipn (r * local) (b_real b)))) rs)).
  { induction rs as [|r rs IH]; intros Hr; [reflexivity|]. cbn [mapM]. unfold local_slice at 1. rewrite Hns.
    rewrite Hr by (left; reflexivity). rewrite Nat.eqb_refl. cbn [bind]. rewrite IH by (intros; apply Hr; right; auto). reflexivity. }
  eexists. split; [apply HM|].
  { intros r Hr. rewrite Forall_map, Forall_forall in I1. exact (I1 r Hr). }
  rewrite !map_map. cbn [fst snd]. conj; auto. rewrite Forall_map in *. rewrite Forall_forall in *.
  intros r Hr. split; [exact (I1 r Hr)|exact (R1 r Hr)].
Qed.
Print Assumptions C18_rank_slices_reassemble_the_batch.

(** C19: batches are numbered 0, 1, 2, ... within their epoch; with a step budget s
    an epoch never has more than s batches, the s-th is marked terminal (in training
    only that one is) and after it the epoch is over; with rank sharding the epoch
    cannot end earlier. *)
Theorem C19_step_budget_is_exact :
  forall C P D header hash64 (sr : resumable C P D) fc records RS cf shape ep p0 bs p,
    source_ok header hash64 sr fc records RS -> config_ok cf ->
    (forall code ep cy, pc_uniform cf = Some code -> Forall (fun e => shape e = code) (records ep cy)) ->
    let fd := object_feed header hash64 sr fc in
    start_epoch fd ep = Ok p0 -> plan fd shape cf p0 bs p ->
    (forall i b, nth_error bs i = Some b -> b_index b = Z.of_nat i /\ b_epoch b = ep)
    /\ forall s, pc_steps cf = Some s ->
         zlen bs <= s
         /\ (forall i b, nth_error bs i = Some b -> Z.of_nat i = s - 1 -> b_last b = true)
         /\ (pc_train cf = true -> forall i b, nth_error bs i = Some b -> b_last b = true -> Z.of_nat i = s - 1)
         /\ (zlen bs = s -> at_end fd shape cf p)
         /\ (pc_sharded cf = true -> at_end fd shape cf p -> zlen bs = s).
Proof.
  intros C P D header hash64 sr fc records RS cf shape ep p0 bs p Hok Hcf Hsh fd Hst Hpl.
  pose proof (source_feeds Hok) as HF. pose proof (stream_no_fuel Hok) as Hfuel.
  assert (Ho : forall ep cy l, stream header hash64 sr fc records ep cy = Ok l -> cycle_order fc (records ep cy) l).
  { intros ep' cy l Hs. split; [eapply stream_records; eauto|]. intros Hc. eapply stream_order; eauto. }
  exact (budget HF Hcf Ho Hsh Hfuel Hst Hpl).
Qed.
Print Assumptions C19_step_budget_is_exact.

Theorem C19_packed_step_budget_is_exact :
  forall C D header hash64 (ks : packed_source C D) fc records RS cf code ep p0 bs p,
    packed_ok header hash64 ks fc records RS -> config_ok cf -> pc_uniform cf = Some code ->
    let fd := packed_feed header hash64 ks fc in
    start_epoch fd ep = Ok p0 -> plan fd (fun _ => code) cf p0 bs p ->
    (forall i b, nth_error bs i = Some b -> b_index b = Z.of_nat i /\ b_epoch b = ep)
    /\ forall s, pc_steps cf = Some s ->
         zlen bs <= s
         /\ (forall i b, nth_error bs i = Some b -> Z.of_nat i = s - 1 -> b_last b = true)
         /\ (pc_train cf = true -> forall i b, nth_error bs i = Some b -> b_last b = true -> Z.of_nat i = s - 1)
         /\ (zlen bs = s -> at_end fd (fun _ => code) cf p).
Proof.
  intros C D header hash64 ks fc records RS cf code ep p0 bs p Hok Hcf Hu fd Hst Hpl.
  pose proof (packed_source_feeds Hok) as HF. pose proof (packed_no_fuel Hok) as Hfuel.
  assert (Ho : forall ep cy l, packed_stream header hash64 ks fc records ep cy = Ok l -> cycle_order fc (records ep cy) l).
  { intros ep' cy l Hs. split; [eapply packed_stream_records; eauto|]. intros Hc. eapply packed_stream_order; eauto. }
  assert (Hsh : forall c ep cy, pc_uniform cf = Some c -> Forall (fun _ : Z => code = c) (records ep cy)).
  { intros c ep' cy Hc. rewrite Forall_forall. congruence. }
  destruct (budget HF Hcf Ho Hsh Hfuel Hst Hpl) as [B1 B2]. split; [exact B1|]. intros s Hs.
  destruct (B2 s Hs) as (K1 & K2 & K3 & K4 & _). conj; auto.
Qed.
Print Assumptions C19_packed_step_budget_is_exact.

(** C19: asking for the next batch always returns: a batch, the end of the epoch, or
    an exception, never an endless search (also with rank sharding, when the source
    yields nothing). *)
Theorem C19_next_batch_always_returns :
  forall C P D header hash64 (sr : resumable C P D) fc records RS cf shape ep p0 bs p,
    source_ok header hash64 sr fc records RS -> config_ok cf ->
    (forall code ep cy, pc_uniform cf = Some code -> Forall (fun e => shape e = code) (records ep cy)) ->
    let fd := object_feed header hash64 sr fc in
    start_epoch fd ep = Ok p0 -> plan fd shape cf p0 bs p ->
    exists n r, r <> Err OutOfFuel /\ forall fuel, (n <= fuel)%nat -> next_batch fd shape cf fuel p = r.
Proof.
  intros C P D header hash64 sr fc records RS cf shape ep p0 bs p Hok Hcf Hsh fd Hst Hpl.
  pose proof (source_feeds Hok) as HF. pose proof (stream_no_fuel Hok) as Hfuel.
  assert (Ho : forall ep cy l, stream header hash64 sr fc records ep cy = Ok l -> cycle_order fc (records ep cy) l).
  { intros ep' cy l Hs. split; [eapply stream_records; eauto|]. intros Hc. eapply stream_order; eauto. }
  exact (epoch_returns HF Hcf (Huniform Ho Hsh) Hfuel Hst Hpl).
Qed.
Print Assumptions C19_next_batch_always_returns.

(** C21: whatever batches an uninterrupted run hands out, a run that is saved and
    loaded into a new planner after any of them (any number of times: after each
    segment of [segs]) hands out the same batches and nothing else is possible, and
    it ends when the uninterrupted run ends. *)
Theorem C21_resume_equals_not_stopping :
  forall C P D header hash64 (sr : resumable C P D) fc records RS cf shape ep p0 segs p,
    source_ok header hash64 sr fc records RS -> source_resumes sr RS -> config_ok cf ->
    (forall code ep cy, pc_uniform cf = Some code -> Forall (fun e => shape e = code) (records ep cy)) ->
    let fd := object_feed header hash64 sr fc in
    start_epoch fd ep = Ok p0 -> plan fd shape cf p0 (List.concat segs) p ->
    exists p', interrupted fd shape cf p0 segs p'
      /\ (at_end fd shape cf p -> at_end fd shape cf p')
      /\ forall segs2 p2, interrupted fd shape cf p0 segs2 p2 ->
           map (@List.length _) segs2 = map (@List.length _) segs -> segs2 = segs /\ p2 = p'.
Proof.
  intros C P D header hash64 sr fc records RS cf shape ep p0 segs p Hok Hres Hcf Hsh fd Hst Hpl.
  pose proof (source_feeds Hok) as HF. pose proof (stream_no_fuel Hok) as Hfuel.
  pose proof (source_feed_resumes Hok Hres) as HS.
  assert (Ho : forall ep cy l, stream header hash64 sr fc records ep cy = Ok l -> cycle_order fc (records ep cy) l).
  { intros ep' cy l Hs. split; [eapply stream_records; eauto|]. intros Hc. eapply stream_order; eauto. }
  destruct (interrupted_run HF HS Hcf (Huniform Ho Hsh) Hfuel Hst Hpl) as (p' & H1 & H2).
  exists p'. conj; auto. intros segs2 p2 H3 H4.
  destruct (interrupted_det H1 H3 (eq_sym H4)) as [<- <-]. auto.
Qed.
Print Assumptions C21_resume_equals_not_stopping.

Theorem C21_packed_resume_equals_not_stopping :
  forall C D header hash64 (ks : packed_source C D) fc records RS cf code ep p0 segs p,
    packed_ok header hash64 ks fc records RS -> packed_resumes_ok ks RS -> config_ok cf ->
    pc_uniform cf = Some code ->
    let fd := packed_feed header hash64 ks fc in
    start_epoch fd ep = Ok p0 -> plan fd (fun _ => code) cf p0 (List.concat segs) p ->
    exists p', interrupted fd (fun _ => code) cf p0 segs p'
      /\ (at_end fd (fun _ => code) cf p -> at_end fd (fun _ => code) cf p')
      /\ forall segs2 p2, interrupted fd (fun _ => code) cf p0 segs2 p2 ->
           map (@List.length _) segs2 = map (@List.length _) segs -> segs2 = segs /\ p2 = p'.
Proof.
  intros C D header hash64 ks fc records RS cf code ep p0 segs p Hok Hres Hcf Hu fd Hst Hpl.
  pose proof (packed_source_feeds Hok) as HF. pose proof (packed_no_fuel Hok) as Hfuel.
  pose proof (packed_source_resumes Hok Hres) as HS.
  assert (Ho : forall ep cy l, packed_stream header hash64 ks fc records ep cy = Ok l -> cycle_order fc (records ep cy) l).
  { intros ep' cy l Hs. split; [eapply packed_stream_records; eauto|]. intros Hc. eapply packed_stream_order; eauto. }
  assert (Hsh : forall c ep cy, pc_uniform cf = Some c -> Forall (fun _ : Z => code = c) (records ep cy)).
  { intros c ep' cy Hc. rewrite Forall_forall. congruence. }
  destruct (interrupted_run HF HS Hcf (Huniform Ho Hsh) Hfuel Hst Hpl) as (p' & H1 & H2).
  exists p'. conj; auto. intros segs2 p2 H3 H4.
  destruct (interrupted_det H1 H3 (eq_sym H4)) as [<- <-]. auto.
Qed.
Print Assumptions C21_packed_resume_equals_not_stopping.

(** ** Concrete cases *)

(** A source reading a fixed list. *)
Definition tape {P} (l : list (envelope P)) : resumable (list (envelope P)) P (list (envelope P)) := {|
  ss_src := {| s_next := fun c => Ok (hd_error c, tl c); s_many := None |};
  ss_start := fun _ _ => Ok l;
  ss_save := fun c => Ok c;
  ss_restore := fun d => Ok d;
  ss_zero := false
|}.
Definition tape_left {P} (ep cy : Z) (c l : list (envelope P)) : Prop := c = l.

Lemma tape_serves {P} (l : list (envelope P)) ep cy : serves (ss_src (tape l)) (tape_left ep cy).
Proof.
  constructor; unfold tape_left; cbn.
  - intros c l' ->. eauto.
  - discriminate.
Qed.
Lemma tape_resumes {P} (l : list (envelope P)) : source_resumes (tape l) tape_left.
Proof. intros ep cy c l' H. exists c, c. auto. Qed.

(** Without shuffling a tape of records within the byte budget meets the contract. *)
Lemma tape_ok {P} header hash64 fc (l : list (envelope P)) :
  fc_capacity fc = 1 -> Forall (fun e => within fc (e_bytes e)) l -> zlen l < two63 ->
  source_ok header hash64 (tape l) fc (fun _ _ => l) tape_left.
Proof.
  intros Hc Hw Hl. constructor; [apply tape_serves| |].
  - intros. cbn. reflexivity.
  - apply unit_cycle_ok; auto.
Qed.

Definition env_of (k shape : Z) : envelope Z :=
  {| e_source_id := 0; e_key := KInt k; e_shape := shape; e_payload := k; e_bytes := 8 |}.
Definition five : list (envelope Z) := [env_of 1 15; env_of 2 20; env_of 3 15; env_of 4 15; env_of 5 20].
Definition plain : fconfig := {| fc_capacity := 1; fc_max_bytes := Some 64; fc_seed := 3; fc_digest := "m" |}.
Definition pairs (train : bool) (steps : option Z) : pconfig :=
  {| pc_steps := steps; pc_max_queues := 4; pc_batch := 2; pc_train := train; pc_sharded := false;
     pc_uniform := None; pc_packed := false; pc_contract := [1] |}.

Lemma five_ok header hash64 : source_ok header hash64 (tape five) plain (fun _ _ => five) tape_left.
Proof.
  apply tape_ok; [reflexivity| |reflexivity]. unfold five.
  repeat (constructor; [split; [cbn; lia|intros m Hm; injection Hm as <-; cbn; lia]|]). constructor.
Qed.
Lemma pairs_ok train steps : (forall s, steps = Some s -> 0 < s) -> config_ok (pairs train steps).
Proof. intros H. constructor; cbn; auto; try lia; discriminate. Qed.

(** Planned payloads, masks and terminal marks, as many as [n] calls give. *)
Fixpoint shown {X T} (fd : feed X (envelope Z) T) cf (n : nat) (p : planner X (envelope Z)) : list (list Z * list bool * bool) :=
  match n with
  | O => []
  | S k => match next_batch fd (@e_shape Z) cf 100 p with
           | Ok (Some b, p1) => (map (@e_payload Z) (b_items b), b_real b, b_last b) :: shown fd cf k p1
           | _ => []
           end
  end.

Definition const_hash : bytes -> Z := fun _ => 8.
Definition tape_feed := object_feed [] const_hash (tape five) plain.
Definition show (train : bool) (steps : option Z) :=
  match start_epoch tape_feed 0 with
  | Ok p0 => shown tape_feed (pairs train steps) 10 p0
  | Err _ => []
  end.

(** Training: two full batches, record 5 is left over (C17). *)
Example C17_example : show true None
  = [([1; 3], [true; true], false); ([2; 5], [true; true], false)]
  /\ source_ok [] const_hash (tape five) plain (fun _ _ => five) tape_left /\ config_ok (pairs true None).
Proof. split; [vm_compute; reflexivity|]. split; [apply five_ok|apply pairs_ok; discriminate]. Qed.

(** Evaluation: the left-over record 4 comes padded (C18). *)
Example C18_example : show false None
  = [([1; 3], [true; true], false); ([2; 5], [true; true], false); ([4; 4], [true; false], true)].
Proof. vm_compute. reflexivity. Qed.

(** A budget of one step (C19). *)
Example C19_example : show true (Some 1) = [([1; 3], [true; true], true)].
Proof. vm_compute. reflexivity. Qed.

(** With shuffling (two slots) the contract can be met as well, and the order changes. *)
Definition mixed : fconfig := {| fc_capacity := 2; fc_max_bytes := None; fc_seed := 3; fc_digest := "m" |}.
Definition three : list (envelope Z) := [env_of 1 15; env_of 2 15; env_of 3 15].
Lemma three_ok : source_ok [] const_hash (tape three) mixed (fun _ _ => three) tape_left.
Proof.
  constructor; [apply tape_serves|intros; cbn; reflexivity|].
  intros ep cy c cf He Hy Hs Hc done todo Hr.
  pose proof Hc as Hc'. unfold new_reservoir, reservoir_config in Hc'.
  apply guard_Ok in Hc' as [_ Hc']. apply guard_Ok in Hc' as [_ Hc']. apply guard_Ok in Hc' as [_ Hc'].
  inv_bind Hc'. assert (v = 8) as -> by (unfold rng_u64 in Hm; apply guard_Ok in Hm as [_ Hm]; inv_bind Hm; injection Hm as <-; reflexivity).
  clear Hm. injection Hc' as Ecf.
  pose proof (@fresh Z [] const_hash mixed ep cy cf Hc) as (K & _ & I).
  assert (Hrun : exists r out, offer_many_core cf (rsv_init (envelope Z)) (map (charge (tape three)) done) = Ok (r, out)
     /\ rng_counter r < two63 /\ (forall base, exists order o,
     fisher_yates const_hash (List.length (slots r) - 1) base (range (List.length (slots r))) 0 = Ok order
     /\ mapM (py_get (slots r)) order = Ok o)).
  { rewrite <- Ecf.
    assert (Hd : done = [] \/ done = firstn 1 three \/ done = firstn 2 three \/ done = three).
    { assert (Hf : done = firstn (List.length done) three) by (rewrite Hr, firstn_app, Nat.sub_diag, firstn_all, app_nil_r; reflexivity).
      assert (Hl : (List.length done <= 3)%nat) by (apply (f_equal (@List.length _)) in Hr; rewrite app_length in Hr; cbn in Hr; lia).
      destruct (List.length done) as [|[|[|[|n]]]]; auto; lia. }
    destruct Hd as [E|[E|[E|E]]]; rewrite E; (eexists _, _; split; [vm_compute; reflexivity|]);
      (split; [vm_compute; reflexivity|]); intros base; eexists _, _; (split; [vm_compute; reflexivity|vm_compute; reflexivity]). }
  destruct Hrun as (r & out & E1 & E2 & E3).
  pose proof (@offer_many_core_spec _ cf (rsv_init (envelope Z)) _ r out K I E1) as (I1 & _ & C1 & _ & O1 & _).
  destruct (@drain_ok (envelope Z) [] const_hash _ _ _ _ _ cf r Hc I1 C1 E2) as (r' & rest & D); auto.
  - cbn [rsv_init offered] in O1. unfold zlen in O1. rewrite map_length in O1.
    assert (Hl : List.length (done ++ todo) = 3%nat) by (rewrite <- Hr; reflexivity). rewrite app_length in Hl.
    unfold two63. lia.
  - exists r, out, r', rest. auto.
Qed.

Example C17_shuffled_example :
  match start_epoch (object_feed [] const_hash (tape three) mixed) 0 with
  | Ok p0 => shown (object_feed [] const_hash (tape three) mixed)
      {| pc_steps := None; pc_max_queues := 4; pc_batch := 1; pc_train := true; pc_sharded := false;
         pc_uniform := Some 15; pc_packed := false; pc_contract := [1] |} 10 p0
  | Err _ => []
  end = [([1], [true], false); ([3], [true], false); ([2], [true], false)].
Proof. vm_compute. reflexivity. Qed.

(** Saving after the first batch and loading into a new planner (C21). *)
Example C21_example :
  exists p0 p1 s p2, start_epoch tape_feed 0 = Ok p0
    /\ (exists b, next_batch tape_feed (@e_shape Z) (pairs false None) 100 p0 = Ok (Some b, p1))
    /\ planner_state tape_feed (pairs false None) p1 = Ok s
    /\ planner_restore tape_feed (@e_shape Z) (pairs false None) s = Ok p2
    /\ shown tape_feed (pairs false None) 10 p2 = [([2; 5], [true; true], false); ([4; 4], [true; false], true)]
    /\ source_resumes (tape five) tape_left.
Proof.
  do 4 eexists. split; [vm_compute; reflexivity|]. split; [eexists; vm_compute; reflexivity|].
  split; [vm_compute; reflexivity|]. split; [vm_compute; reflexivity|]. split; [vm_compute; reflexivity|]. apply tape_resumes.
Qed.

(** Record ids through the native reservoir. *)
Definition id_tape (l : list Z) : packed_source (list Z) (list Z) := {|
  ks_next := fun c n => Ok (firstn n c, skipn n c);
  ks_start := fun _ _ => Ok l;
  ks_save := fun c => Ok c;
  ks_restore := fun d => Ok d
|}.
Definition ids_left (ep cy : Z) (c l : list Z) : Prop := c = l.
Lemma id_tape_ok header hash64 fc l : fc_capacity fc = 1 -> Forall u64 l -> zlen l < two63 ->
  packed_ok header hash64 (id_tape l) fc (fun _ _ => l) ids_left.
Proof.
  intros Hc Hu Hl. constructor.
  - intros ep cy c l' n -> Hn. exists (firstn n l'), (skipn n l'), (skipn n l'). conj; auto; try reflexivity.
    + symmetry. apply firstn_skipn.
    + destruct l', n; try lia; try reflexivity; discriminate.
  - intros. cbn. reflexivity.
  - intros. split; [exact Hu|unfold two63, two64 in *; lia].
  - apply packed_unit_cycle_ok; auto.
Qed.
Lemma id_tape_resumes l : packed_resumes_ok (id_tape l) ids_left.
Proof. intros ep cy c l' H. exists c, c. auto. Qed.

Definition packed_pairs (train : bool) : pconfig :=
  {| pc_steps := None; pc_max_queues := 4; pc_batch := 2; pc_train := train; pc_sharded := false;
     pc_uniform := Some 15; pc_packed := true; pc_contract := [1] |}.
Example C18_packed_example :
  let fd := packed_feed [] const_hash (id_tape [10; 20; 30]) plain in
  exists p0 p1 p2 b1 b2, start_epoch fd 0 = Ok p0
    /\ next_batch fd (fun _ => 15) (packed_pairs false) 100 p0 = Ok (Some b1, p1)
    /\ next_batch fd (fun _ => 15) (packed_pairs false) 100 p1 = Ok (Some b2, p2)
    /\ next_batch fd (fun _ => 15) (packed_pairs false) 100 p2 = Ok (None, p2)
    /\ (b_items b1, b_real b1, b_items b2, b_real b2) = ([10; 20], [true; true], [30; 30], [true; false])
    /\ config_ok (packed_pairs false)
    /\ packed_ok [] const_hash (id_tape [10; 20; 30]) plain (fun _ _ => [10; 20; 30]) ids_left.
Proof.
  cbv zeta. do 5 eexists. split; [vm_compute; reflexivity|]. split; [vm_compute; reflexivity|].
  split; [vm_compute; reflexivity|]. split; [vm_compute; reflexivity|]. split; [vm_compute; reflexivity|]. split.
  - constructor; cbn; auto; try lia; try discriminate. intros _. split; [reflexivity|discriminate].
  - apply id_tape_ok; [reflexivity| |reflexivity].
    repeat (constructor; [unfold u64, two64; cbn; lia|]). constructor.
Qed.

(** ** What does not hold *)

(** The converse of C21 is false: the saved state forgets emptied shape queues, which
    the running planner still counts against max_shape_queues.  Here the running
    planner can never hand out a second batch (it raises), the resumed one can. *)
Theorem C21_resume_never_does_more_than_the_run_refuted :
  exists (l : list (envelope Z)) cf p0 b p1 s p2 b2 p3,
    let fd := object_feed [] const_hash (tape l) plain in
    source_ok [] const_hash (tape l) plain (fun _ _ => l) tape_left /\ source_resumes (tape l) tape_left /\ config_ok cf
    /\ start_epoch fd 0 = Ok p0 /\ next_batch fd (@e_shape Z) cf 100 p0 = Ok (Some b, p1)
    /\ (forall fuel r, next_batch fd (@e_shape Z) cf fuel p1 <> Ok r)
    /\ planner_state fd cf p1 = Ok s /\ planner_restore fd (@e_shape Z) cf s = Ok p2
    /\ next_batch fd (@e_shape Z) cf 100 p2 = Ok (Some b2, p3).
Proof.
  exists [env_of 1 15; env_of 2 15; env_of 3 20; env_of 4 20],
    {| pc_steps := None; pc_max_queues := 1; pc_batch := 2; pc_train := true; pc_sharded := false;
       pc_uniform := None; pc_packed := false; pc_contract := [1] |}.
  do 7 eexists. cbv zeta. split.
  { apply tape_ok; [reflexivity| |reflexivity].
    repeat (constructor; [split; [cbn; lia|intros m Hm; injection Hm as <-; cbn; lia]|]). constructor. }
  split; [apply tape_resumes|]. split; [constructor; cbn; auto; try lia; discriminate|].
  split; [vm_compute; reflexivity|]. split; [vm_compute; reflexivity|]. split.
  2:{ split; [vm_compute; reflexivity|]. split; [vm_compute; reflexivity|]. vm_compute; reflexivity. }
  intros fuel r H. match type of H with next_batch ?f ?sh ?c _ ?p = _ =>
    assert (E : next_batch f sh c 100 p = Err RuntimeError) by (vm_compute; reflexivity);
    destruct (Nat.le_ge_cases fuel 100) as [Hle|Hle];
    [pose proof (@next_mono _ _ _ f sh c _ _ p Hle) as Hm|pose proof (@next_mono _ _ _ f sh c _ _ p Hle) as Hm] end.
  - rewrite H, E in Hm. specialize (Hm ltac:(discriminate)). discriminate Hm.
  - rewrite H, E in Hm. specialize (Hm ltac:(discriminate)). discriminate Hm.
Qed.
Print Assumptions C21_resume_never_does_more_than_the_run_refuted.

(** An evaluation epoch whose records fill its batches exactly has no batch marked
    terminal: its end shows only when the next batch is asked for. *)
Theorem C19_every_ended_epoch_has_a_terminal_batch_refuted :
  exists (l : list (envelope Z)) p0 b p1,
    let fd := object_feed [] const_hash (tape l) plain in
    source_ok [] const_hash (tape l) plain (fun _ _ => l) tape_left
    /\ start_epoch fd 0 = Ok p0 /\ next_batch fd (@e_shape Z) (pairs false None) 100 p0 = Ok (Some b, p1)
    /\ b_last b = false /\ at_end fd (@e_shape Z) (pairs false None) p1.
Proof.
  exists [env_of 1 15; env_of 2 15]. do 3 eexists. cbv zeta. split.
  { apply tape_ok; [reflexivity| |reflexivity].
    repeat (constructor; [split; [cbn; lia|intros m Hm; injection Hm as <-; cbn; lia]|]). constructor. }
  split; [vm_compute; reflexivity|]. split; [vm_compute; reflexivity|]. split; [reflexivity|].
  exists 100%nat. eexists. vm_compute. reflexivity.
Qed.
Print Assumptions C19_every_ended_epoch_has_a_terminal_batch_refuted.
