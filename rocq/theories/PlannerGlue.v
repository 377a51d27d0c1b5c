(** Epoch-level facts about any feed meeting the contract, in the vocabulary of
    PlannerObs.v. *)
From Verif Require Import Base BaseFacts Rng Sequential Planner PlannerObs PlannerSpec PlannerDict PlannerSim
  PlannerSpecFacts PlannerRun PlannerResume.
Set Implicit Arguments.
Unset Strict Implicit.

(** ** Lists by shape *)
Section Shapes.
  Variable A : Type.
  Variable shape : A -> Z.

  Lemma of_shape_cons t x l : of_shape shape t (x :: l) = (if shape x =? t then [x] else []) ++ of_shape shape t l.
  Proof. unfold of_shape. cbn [filter]. destruct (shape x =? t); reflexivity. Qed.

  Lemma of_shape_head x m y : of_shape shape (shape x) m = x :: y ->
    exists m1 m2, m = m1 ++ x :: m2 /\ of_shape shape (shape x) m1 = [].
  Proof.
    induction m as [|z m IH]; [discriminate|]. rewrite of_shape_cons. destruct (Z.eqb_spec (shape z) (shape x)) as [E|E].
    - cbn [app]. intros H. injection H as -> H. exists [], m. auto.
    - cbn [app]. intros H. destruct (IH H) as (m1 & m2 & -> & H1). exists (z :: m1), m2. split; [reflexivity|].
      rewrite of_shape_cons. destruct (Z.eqb_spec (shape z) (shape x)); [congruence|exact H1].
  Qed.

  Lemma of_shape_perm l : forall m, (forall t, of_shape shape t l = of_shape shape t m) -> Permutation l m.
  Proof.
    induction l as [|x l IH]; intros m H.
    - destruct m as [|y m]; [constructor|]. specialize (H (shape y)). rewrite of_shape_cons, Z.eqb_refl in H. discriminate.
    - pose proof (H (shape x)) as Hx. rewrite of_shape_cons, Z.eqb_refl in Hx. cbn [app] in Hx. symmetry in Hx.
      destruct (of_shape_head Hx) as (m1 & m2 & -> & H1).
      apply Permutation_cons_app. apply IH. intros t. specialize (H t).
      rewrite of_shape_app, !of_shape_cons in H. rewrite of_shape_app.
      destruct (Z.eqb_spec (shape x) t) as [E|E]; [subst t; rewrite H1 in *; cbn [app] in *; congruence|exact H].
  Qed.

  Lemma of_shape_queues (q : list (Z * list A)) :
    NoDup (map fst q) -> (forall k l, dict_get q k = Some l -> Forall (fun e => shape e = k) l) ->
    forall t, of_shape shape t (flat_map snd q) = queue q t.
  Proof.
    unfold queue. induction q as [|[k l] q IH]; intros Hn Hq t; [reflexivity|].
    cbn [flat_map snd map fst dict_get] in *. inversion Hn as [|? ? Hk Hn']; subst.
    assert (Hl : Forall (fun e => shape e = k) l).
    { apply (Hq k l). cbn. rewrite Z.eqb_refl. reflexivity. }
    assert (Hq' : forall k0 l0, dict_get q k0 = Some l0 -> Forall (fun e => shape e = k0) l0).
    { intros k0 l0 H0. apply (Hq k0 l0). cbn. destruct (Z.eqb_spec k0 k) as [E|E]; [|exact H0].
      subst. exfalso. apply Hk. clear -H0. induction q as [|[k1 l1] q IHq]; [discriminate|]. cbn in *.
      destruct (Z.eqb_spec k k1); [left; auto|right; auto]. }
    rewrite of_shape_app, (IH Hn' Hq' t).
    destruct (Z.eqb_spec t k) as [E|E].
    - subst t. assert (of_shape shape k l = l) as ->.
      { clear -Hl. induction Hl as [|x l Hx Hl IHl]; [reflexivity|]. rewrite of_shape_cons, Hx, Z.eqb_refl, IHl. reflexivity. }
      assert (dict_get q k = None) as ->; [|apply app_nil_r].
      clear -Hk. induction q as [|[k1 l1] q IHq]; [reflexivity|]. cbn in *.
      destruct (Z.eqb_spec k k1); [subst; tauto|tauto].
    - assert (of_shape shape t l = []) as ->; [|reflexivity].
      clear -Hl E. induction Hl as [|x l Hx Hl IHl]; [reflexivity|]. rewrite of_shape_cons.
      destruct (Z.eqb_spec (shape x) t); [congruence|exact IHl].
  Qed.
End Shapes.

Section Glue.
  Variables X A T : Type.
  Variable fd : feed X A T.
  Variable stream : Z -> Z -> res (list A).
  Variable R : Z -> Z -> status -> nat -> X -> list A -> Prop.
  Variable shape : A -> Z.
  Variable cf : pconfig.
  Hypothesis HF : feeds fd stream R.
  Hypothesis Hcf : config_ok cf.
  Hypothesis Huniform : forall code ep cy l, pc_uniform cf = Some code -> stream ep cy = Ok l ->
    Forall (fun e => shape e = code) l.
  Hypothesis Hfuel : forall ep cy, 0 <= ep -> 0 <= cy -> stream ep cy <> Err OutOfFuel.

  Lemma cyclic_nth (real : list A) n i : real <> [] -> (i < n)%nat ->
    nth_error (cyclic real n) i = nth_error real (i mod List.length real).
  Proof.
    clear HF Hcf Huniform Hfuel fd stream R. intros Hr Hi.
    assert (Hl : List.length real <> 0%nat) by (destruct real; [congruence|discriminate]).
    induction Hi as [|m Hi IH].
    - pose proof (Nat.mod_upper_bound i _ Hl).
      destruct (nth_error real (i mod List.length real)) as [x|] eqn:E; [|apply nth_error_None in E; lia].
      rewrite (cyclic_S E), nth_error_app2 by (rewrite cyclic_length; auto).
      rewrite cyclic_length, Nat.sub_diag by auto. reflexivity.
    - pose proof (Nat.mod_upper_bound m _ Hl).
      destruct (nth_error real (m mod List.length real)) as [x|] eqn:E; [|apply nth_error_None in E; lia].
      rewrite (cyclic_S E), nth_error_app1 by (rewrite cyclic_length; auto). exact IH.
  Qed.

  Lemma good_padded b : good_batch shape cf b -> padded_batch shape (pc_batch cf) b.
  Proof.
    clear HF Hcf Huniform Hfuel fd stream R. intros (n & s & H1 & H2 & H3 & H4 & H5 & H6). exists n, s. conj; auto; try lia.
    intros i Hi. assert (Ef : List.length (firstn n (b_items b)) = n) by (rewrite firstn_length; lia).
    assert (Hne : firstn n (b_items b) <> []) by (destruct (firstn n (b_items b)); [cbn in Ef; lia|discriminate]).
    assert (Hmod : (i mod n < n)%nat) by (apply Nat.mod_upper_bound; lia).
    rewrite H5, !cyclic_nth by (auto; lia). rewrite Ef, Nat.mod_mod by lia. reflexivity.
  Qed.

  Lemma good_train b : pc_train cf = true -> good_batch shape cf b -> full_batch shape (pc_batch cf) b.
  Proof.
    clear HF Hcf Huniform Hfuel fd stream R. intros Ht (n & s & H1 & H2 & H3 & H4 & H5 & H6). rewrite (H2 Ht) in *. unfold full_batch. conj; eauto.
    rewrite H3. unfold mask. rewrite Nat.sub_diag. cbn. apply app_nil_r.
  Qed.

  Lemma reals_all (l : list A) : reals l (repeat true (List.length l)) = l.
  Proof.
    clear HF Hcf Huniform Hfuel. unfold reals. induction l as [|x l IH]; [reflexivity|]. cbn. f_equal. exact IH.
  Qed.

  Lemma full_samples bs : Forall (full_batch shape (pc_batch cf)) bs -> samples bs = flat_map (@b_items A) bs.
  Proof.
    intros H. unfold samples. induction H as [|b bs (H1 & H2 & _) Hs IH]; [reflexivity|]. cbn [flat_map].
    rewrite H2, <- H1, reals_all, IH. reflexivity.
  Qed.

  (** The history of one epoch. *)
  Lemma run_spec ep p0 bs p : start_epoch fd ep = Ok p0 -> plan fd shape cf p0 bs p ->
    exists l0 a a' E rest q', stream ep 0 = Ok l0 /\ a_items a = l0 /\ a_epoch a = ep /\ a_cycle a = 0 /\ a_index a = 0
      /\ a_queues a = [] /\ Rel stream R p a' /\ a_inv shape cf a' /\ epoch_spec stream shape cf a bs a' E rest q'.
  Proof.
    intros Hst Hpl. pose proof (start_sim HF ep) as Hs. destruct (a_start stream ep) as [a|e] eqn:Ea; [|congruence].
    destruct Hs as (p0' & E0 & HR). assert (p0' = p0) as -> by congruence.
    pose proof (a_start_inv Hcf Huniform Ea) as HI.
    destruct (plan_back HF Hcf Huniform Hfuel Hpl HR HI) as (a' & K1 & K2 & K3).
    pose proof Ea as Ea'. unfold a_start in Ea. apply guard_Ok in Ea as [_ Ea]. inv_bind Ea. injection Ea as <-.
    destruct (a_plan_spec Hcf Huniform HI eq_refl K1) as (E & rest & q' & HE).
    eexists v, _, a', E, rest, q'. conj; eauto; reflexivity.
  Qed.

  Definition reached (bs : list (batch A)) : Prop := exists s, pc_steps cf = Some s /\ zlen bs = s.

  (** What [epoch_spec] says without the planner's own state. *)
  Lemma epoch_records ep p0 bs p : start_epoch fd ep = Ok p0 -> plan fd shape cf p0 bs p ->
    exists l0 E c rest L, stream ep 0 = Ok l0 /\ eats stream ep (0, l0) E (c, rest)
      /\ (pc_sharded cf = false -> c = 0)
      /\ (forall t, of_shape shape t E = of_shape shape t (samples bs) ++ of_shape shape t L)
      /\ Permutation E (samples bs ++ L)
      /\ (forall t, (List.length (of_shape shape t L) < pc_batch cf)%nat).
  Proof.
    intros Hst Hpl. destruct (run_spec Hst Hpl) as (l0 & a & a' & E & rest & q' & H0 & H1 & H2 & H3 & H4 & H5 & H6 & H7 & HE).
    destruct HE as [G1 G2 G3 G4 G5 G6 G7 G8 G9]. rewrite H1, H2, H3 in *.
    assert (HL : forall t, of_shape shape t (flat_map snd q') = queue q' t).
    { apply of_shape_queues; [apply G3|]. intros k l Hk. apply (proj2 G3 k l Hk). }
    exists l0, E, (a_cycle a'), rest, (flat_map snd q'). conj; auto.
    - intros t. rewrite HL, <- G2, H5. reflexivity.
    - apply of_shape_perm with (shape := shape). intros t. rewrite of_shape_app, HL.
      specialize (G2 t). rewrite H5 in G2. exact G2.
    - intros t. rewrite HL. apply (queue_ok t G3 (ok_batch Hcf)).
  Qed.

  Lemma epoch_batches ep p0 bs p : start_epoch fd ep = Ok p0 -> plan fd shape cf p0 bs p ->
    Forall (good_batch shape cf) bs /\ Forall (fun b => b_epoch b = ep) bs
    /\ map (@b_index A) bs = indices 0 (List.length bs).
  Proof.
    intros Hst Hpl. destruct (run_spec Hst Hpl) as (l0 & a & a' & E & rest & q' & H0 & H1 & H2 & H3 & H4 & H5 & H6 & H7 & HE).
    destruct HE as [G1 G2 G3 G4 G5 [G6 _] [G7 _] G8 G9]. rewrite H2, H4 in *. auto.
  Qed.

  (** The end of an epoch that was not cut by the budget. *)
  Lemma epoch_end ep p0 bs p : start_epoch fd ep = Ok p0 -> plan fd shape cf p0 bs p -> at_end fd shape cf p ->
    ~ reached bs ->
    exists l0 L, stream ep 0 = Ok l0 /\ pc_sharded cf = false
      /\ (forall t, of_shape shape t l0 = of_shape shape t (samples bs) ++ of_shape shape t L)
      /\ Permutation l0 (samples bs ++ L)
      /\ (forall t, (List.length (of_shape shape t L) < pc_batch cf)%nat)
      /\ (pc_train cf = false -> L = []).
  Proof.
    intros Hst Hpl (fuel & pe & Hend) Hnr.
    destruct (run_spec Hst Hpl) as (l0 & a & a' & E & rest & q' & H0 & H1 & H2 & H3 & H4 & H5 & H6 & H7 & HE).
    destruct HE as [G1 G2 G3 G4 G5 G6 [G7 G7'] G8 G9]. rewrite H1, H2, H3, H4 in *.
    destruct (a_finished a') eqn:Ef.
    - destruct (G9 eq_refl) as (bs0 & b & -> & Hb & Hb0 & [(s & Hs & Ei)|(Ht & -> & Hq)]).
      { exfalso. apply Hnr. exists s. split; auto. lia. }
      assert (Hsh : pc_sharded cf = false).
      { destruct (pc_sharded cf) eqn:Es; auto. destruct (ok_sharded Hcf Es). congruence. }
      rewrite (G4 Hsh) in G1.
      assert (E = l0) as ->.
      { apply eats_same in G1. rewrite app_nil_r in G1. auto. }
      exists l0, []. conj; auto.
      + intros t. specialize (G2 t). rewrite H5, Hq in G2. exact G2.
      + apply of_shape_perm with (shape := shape). intros t. rewrite app_nil_r. specialize (G2 t).
        rewrite H5, Hq, app_nil_r in G2. exact G2.
      + intros t. cbn. apply (ok_batch Hcf).
    - destruct (G8 eq_refl) as (Er & Eq & _).
      destruct (next_back HF Hcf Huniform Hfuel H6 H7 Hend) as (cycles & a1 & E1 & _).
      destruct (a_end_spec Hcf Huniform H7 Ef E1) as (F1 & F2 & F3).
      assert (Hsh : pc_sharded cf = false).
      { destruct (pc_sharded cf) eqn:Es; auto. exfalso. unfold may_restart in F1. rewrite Es in F1. cbn [andb] in F1.
        destruct (ok_sharded Hcf Es) as [_ Hsn]. destruct (pc_steps cf) as [s|] eqn:Hs; [|congruence].
        destruct (ai_budget H7 Hs) as [_ Hlt]. specialize (Hlt Ef). lia. }
      rewrite (G4 Hsh) in G1.
      assert (l0 = E ++ rest) as ->.
      { apply eats_same in G1. exact G1. }
      subst rest q'.
      assert (HL : forall t, of_shape shape t (flat_map snd (a_queues a') ++ a_items a')
                    = queue (a_queues a') t ++ of_shape shape t (a_items a')).
      { intros t. rewrite of_shape_app. f_equal. apply of_shape_queues; [apply G3|]. intros k l Hk.
        apply (proj2 G3 k l Hk). }
      exists (E ++ a_items a'), (flat_map snd (a_queues a') ++ a_items a'). conj; auto.
      + intros t. rewrite HL, of_shape_app. specialize (G2 t). rewrite H5 in G2. cbn [app queue dict_get] in G2.
        unfold queue at 1 in G2. cbn [dict_get app] in G2. rewrite G2, app_assoc. reflexivity.
      + apply of_shape_perm with (shape := shape). intros t. rewrite (of_shape_app shape t (samples bs)), HL, of_shape_app.
        specialize (G2 t). rewrite H5 in G2. unfold queue at 1 in G2. cbn [dict_get app] in G2.
        rewrite G2, <- app_assoc. reflexivity.
      + intros t. rewrite HL. apply F2.
      + intros Ht. destruct (F3 Ht) as [F3a F3b]. rewrite F3a, app_nil_r.
        destruct G3 as [Gn Gq]. clear -F3b Gn. induction (a_queues a') as [|[k l] q IH]; [reflexivity|].
        cbn [flat_map snd]. pose proof (F3b k) as Hk. unfold queue in Hk. cbn in Hk. rewrite Z.eqb_refl in Hk. subst l.
        cbn [app]. cbn in Gn. inversion Gn; subst. apply IH; auto. intros t. specialize (F3b t). unfold queue in *. cbn in F3b.
        destruct (Z.eqb_spec t k) as [Et|Et]; [|exact F3b]. subst t.
        destruct (dict_get q k) as [l|] eqn:Eg; [|reflexivity]. exfalso. apply H1. clear -Eg.
        induction q as [|[k1 l1] q IHq]; [discriminate|]. cbn in *. destruct (Z.eqb_spec k k1); auto.
  Qed.

  (** The step budget. *)
  Lemma epoch_budget ep p0 bs p s : start_epoch fd ep = Ok p0 -> plan fd shape cf p0 bs p -> pc_steps cf = Some s ->
    zlen bs <= s
    /\ (pc_train cf = true -> Forall (fun b => b_last b = true <-> b_index b = s - 1) bs)
    /\ Forall (fun b => b_index b = s - 1 -> b_last b = true) bs
    /\ (zlen bs = s -> at_end fd shape cf p)
    /\ (pc_sharded cf = true -> at_end fd shape cf p -> zlen bs = s).
  Proof.
    intros Hst Hpl Hs.
    destruct (run_spec Hst Hpl) as (l0 & a & a' & E & rest & q' & H0 & H1 & H2 & H3 & H4 & H5 & H6 & H7 & HE).
    pose proof HE as [G1 G2 G3 G4 G5 G6 [G7 G7'] G8 G9]. rewrite H4 in *.
    destruct (ai_budget H7 Hs) as [B1 B2].
    assert (Hidx : forall b, In b bs -> 0 <= b_index b < zlen bs).
    { intros b Hb. apply (in_map (@b_index A)) in Hb. rewrite G7 in Hb. unfold indices in Hb.
      apply in_map_iff in Hb as (k & <- & Hk). unfold range in Hk. apply in_seq in Hk. unfold zlen. lia. }
    conj.
    - lia.
    - intros Ht. destruct (a_finished a') eqn:Ef.
      + destruct (G9 eq_refl) as (bs0 & b & -> & Hb & Hb0 & [(s' & Hs' & Ei)|(Ht' & _)]); [|congruence].
        assert (s' = s) as -> by congruence.
        assert (Hlen : zlen (bs0 ++ [b]) = zlen bs0 + 1) by (rewrite zlen_app; reflexivity).
        assert (Eb : map (@b_index A) bs0 = indices 0 (List.length bs0) /\ b_index b = zlen bs0).
        { rewrite map_app, app_length in G7. cbn [map List.length] in G7.
          rewrite Nat.add_1_r in G7. unfold indices, range in G7. rewrite seq_S, map_app in G7.
          apply app_inj_tail in G7 as [G7a G7b]. split; [exact G7a|]. cbn in G7b. unfold zlen. lia. }
        destruct Eb as [Eb1 Eb2]. apply Forall_app. split.
        * rewrite Forall_forall in *. intros b1 Hb1. specialize (Hb0 b1 Hb1).
          assert (b_index b1 < zlen bs0).
          { apply (in_map (@b_index A)) in Hb1. rewrite Eb1 in Hb1. unfold indices in Hb1.
            apply in_map_iff in Hb1 as (k & <- & Hk). unfold range in Hk. apply in_seq in Hk. unfold zlen. lia. }
          rewrite Hb0. split; [discriminate|lia].
        * constructor; [|constructor]. rewrite Hb. split; [lia|auto].
      + destruct (G8 eq_refl) as (_ & _ & Hf). specialize (B2 eq_refl).
        rewrite Forall_forall in *. intros b Hb. rewrite (Hf b Hb). specialize (Hidx b Hb). split; [discriminate|lia].
    - destruct (a_finished a') eqn:Ef.
      + destruct (G9 eq_refl) as (bs0 & b & -> & Hb & Hb0 & _).
        assert (Hlen : zlen (bs0 ++ [b]) = zlen bs0 + 1) by (rewrite zlen_app; reflexivity).
        apply Forall_app. split; [|constructor; auto].
        rewrite Forall_forall. intros b1 Hb1 Hi.
        assert (b_index b1 < zlen bs0); [|lia].
        rewrite map_app, app_length in G7. cbn [map List.length] in G7.
        rewrite Nat.add_1_r in G7. unfold indices, range in G7. rewrite seq_S, map_app in G7.
        apply app_inj_tail in G7 as [G7a _]. apply (in_map (@b_index A)) in Hb1. rewrite G7a in Hb1.
        apply in_map_iff in Hb1 as (k & <- & Hk). apply in_seq in Hk. unfold zlen. lia.
      + specialize (B2 eq_refl). rewrite Forall_forall. intros b Hb Hi. specialize (Hidx b Hb). lia.
    - intros Hz. exists 0%nat, p. unfold next_batch. rewrite (rl_finished H6).
      destruct (a_finished a') eqn:Ef; [reflexivity|]. specialize (B2 eq_refl). lia.
    - intros Hsh (fuel & pe & Hend). destruct (a_finished a') eqn:Ef.
      + destruct (G9 eq_refl) as (bs0 & b & -> & Hb & Hb0 & [(s' & Hs' & Ei)|(Ht' & _)]).
        * assert (s' = s) by congruence. lia.
        * destruct (ok_sharded Hcf Hsh). congruence.
      + destruct (next_back HF Hcf Huniform Hfuel H6 H7 Hend) as (cycles & a1 & E1 & _).
        destruct (a_end_spec Hcf Huniform H7 Ef E1) as (F1 & _). unfold may_restart in F1. rewrite Hsh, Hs in F1.
        cbn [andb] in F1. lia.
  Qed.

  Lemma epoch_returns ep p0 bs p : start_epoch fd ep = Ok p0 -> plan fd shape cf p0 bs p ->
    exists F r, r <> Err OutOfFuel /\ forall f, (F <= f)%nat -> next_batch fd shape cf f p = r.
  Proof.
    intros Hst Hpl.
    destruct (run_spec Hst Hpl) as (l0 & a & a' & E & rest & q' & H0 & H1 & H2 & H3 & H4 & H5 & H6 & H7 & HE).
    eapply next_returns; eauto.
  Qed.
End Glue.
