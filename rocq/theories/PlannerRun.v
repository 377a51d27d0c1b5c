(** From single calls to whole epochs: fuel does not matter, and runs of the
    planner are runs of the outside view. *)
From Verif Require Import Base BaseFacts Rng CompositeSim Sequential SequentialShard SequentialFacts.
From Verif Require Import Planner PlannerObs PlannerSpec PlannerDict PlannerSim PlannerSpecFacts.
Set Implicit Arguments.
Unset Strict Implicit.

(** ** Fuel *)
Definition le_fuel {B} (r r' : res B) : Prop := r = Err OutOfFuel \/ r = r'.

Lemma le_fuel_refl {B} (r : res B) : le_fuel r r.
Proof. right. reflexivity. Qed.
Lemma le_fuel_bind {B C} (m m' : res B) (k k' : B -> res C) :
  le_fuel m m' -> (forall x, le_fuel (k x) (k' x)) -> le_fuel (bind m k) (bind m' k').
Proof.
  intros [-> | ->] H; [left; reflexivity|]. destruct m' as [x|]; [apply H|right; reflexivity].
Qed.
#[local] Hint Resolve le_fuel_refl : core.

Section Fuel.
  Variables X A T : Type.
  Variable fd : feed X A T.
  Variable shape : A -> Z.
  Variable cf : pconfig.

  Lemma refill_fuel : forall f f' (p : planner X A), (f <= f')%nat -> le_fuel (refill fd f p) (refill fd f' p).
  Proof.
    induction f as [|f IH]; intros f' p H.
    - destruct f'; cbn [refill]; [apply le_fuel_refl|]. destruct (pl_ready p); [|apply le_fuel_refl].
      destruct (pl_exhausted p); [apply le_fuel_refl|left; reflexivity].
    - destruct f' as [|f']; [lia|]. cbn [refill]. destruct (pl_ready p); [|apply le_fuel_refl].
      destruct (pl_exhausted p); [apply le_fuel_refl|]. apply le_fuel_bind; [apply le_fuel_refl|].
      intros [[chunk ended] x]. apply IH. lia.
  Qed.

  Lemma uniform_fuel code : forall f f' f0 f0' (p : planner X A) acc empty, (f <= f')%nat -> (f0 <= f0')%nat ->
    le_fuel (uniform_loop fd shape cf f f0 code p acc empty) (uniform_loop fd shape cf f' f0' code p acc empty).
  Proof.
    induction f as [|f IH]; intros f' f0 f0' p acc empty H H0; [left; reflexivity|].
    destruct f' as [|f']; [lia|]. cbn [uniform_loop]. destruct (_ <? _)%nat; [|apply le_fuel_refl].
    apply le_fuel_bind; [apply refill_fuel; auto|]. intros p1. destruct (pl_ready p1) as [|e t].
    - destruct (negb (pc_packed cf) && may_restart cf (pl_index p1)); [|apply le_fuel_refl].
      apply le_fuel_bind; [apply le_fuel_refl|]. intros [p2 e1]. apply IH; lia.
    - match goal with |- le_fuel (if ?c then _ else _) _ => destruct c; [|apply le_fuel_refl] end. apply IH; lia.
  Qed.

  Lemma mixed_fuel : forall f f' f0 f0' (p : planner X A) empty, (f <= f')%nat -> (f0 <= f0')%nat ->
    le_fuel (mixed_loop fd shape cf f f0 p empty) (mixed_loop fd shape cf f' f0' p empty).
  Proof.
    induction f as [|f IH]; intros f' f0 f0' p empty H H0; [left; reflexivity|].
    destruct f' as [|f']; [lia|]. cbn [mixed_loop].
    apply le_fuel_bind; [apply refill_fuel; auto|]. intros p1. destruct (pl_ready p1) as [|e t].
    - destruct (may_restart cf (pl_index p1)); [|apply le_fuel_refl].
      apply le_fuel_bind; [apply le_fuel_refl|]. intros [p2 e1]. apply IH; lia.
    - apply le_fuel_bind; [apply le_fuel_refl|]. intros [q l].
      match goal with |- le_fuel (if ?c then _ else _) _ => destruct c; [apply le_fuel_refl|] end. apply IH; lia.
  Qed.

  Theorem next_fuel f f' (p : planner X A) : (f <= f')%nat ->
    le_fuel (next_batch fd shape cf f p) (next_batch fd shape cf f' p).
  Proof.
    intros H. unfold next_batch. destruct (pl_finished p); [apply le_fuel_refl|].
    destruct (pc_uniform cf); [apply uniform_fuel; auto|apply mixed_fuel; auto].
  Qed.

  Lemma next_det f f' (p : planner X A) r r' : next_batch fd shape cf f p = r -> next_batch fd shape cf f' p = r' ->
    r <> Err OutOfFuel -> r' <> Err OutOfFuel -> r = r'.
  Proof.
    intros H H' N N'. destruct (next_fuel (f := f) (f' := Nat.max f f') p) as [E|E]; [lia|congruence|].
    destruct (next_fuel (f := f') (f' := Nat.max f f') p) as [E'|E']; [lia|congruence|congruence].
  Qed.
End Fuel.

(** ** Runs of the outside view *)
Section ARun.
  Variable A : Type.
  Variable stream : Z -> Z -> res (list A).
  Variable shape : A -> Z.
  Variable cf : pconfig.
  Hypothesis Hcf : config_ok cf.
  Hypothesis Huniform : forall code ep cy l, pc_uniform cf = Some code -> stream ep cy = Ok l ->
    Forall (fun e => shape e = code) l.

  Inductive a_plan : astate A -> list (batch A) -> astate A -> Prop :=
  | a_plan_nil a : a_plan a [] a
  | a_plan_cons cycles a b a1 bs a2 :
      a_next stream shape cf cycles a = Ok (Some b, a1) -> a_plan a1 bs a2 -> a_plan a (b :: bs) a2.

  Definition breals (b : batch A) : list A := reals (b_items b) (b_real b).

  Lemma a_next_finished cycles a ob a1 : a_finished a = true ->
    a_next stream shape cf cycles a = Ok (ob, a1) -> ob = None /\ a1 = a.
  Proof. intros H E. unfold a_next in E. rewrite H in E. injection E as <- <-. auto. Qed.

  Lemma a_plan_inv a bs a' : a_inv shape cf a -> a_plan a bs a' -> a_inv shape cf a'.
  Proof.
    intros HI H. revert HI. induction H as [a|cycles a b a1 bs a2 H1 H2 IH]; intros HI; auto. apply IH.
    destruct (a_finished a) eqn:Ef; [destruct (a_next_finished Ef H1) as [E _]; discriminate|].
    eapply a_next_spec; eauto.
  Qed.

  Definition indices (i : Z) (n : nat) : list Z := map (fun k => i + Z.of_nat k) (range n).

  Lemma indices_S i n : indices i (S n) = i :: indices (i + 1) n.
  Proof.
    unfold indices, range. cbn [seq map]. f_equal; [lia|]. rewrite <- seq_shift, map_map. apply map_ext. intros k. lia.
  Qed.

  (** The whole history of one epoch. *)
  Record epoch_spec (a : astate A) (bs : list (batch A)) (a' : astate A) (E rest : list A)
      (q' : list (Z * list A)) : Prop := {
    es_eats : eats stream (a_epoch a) (a_cycle a, a_items a) E (a_cycle a', rest);
    es_shapes : forall t, queue (a_queues a) t ++ of_shape shape t E
        = of_shape shape t (flat_map breals bs) ++ queue q' t;
    es_queues : qok shape cf q';
    es_cycle : pc_sharded cf = false -> a_cycle a' = a_cycle a;
    es_good : Forall (good_batch shape cf) bs;
    es_epoch : Forall (fun b => b_epoch b = a_epoch a) bs /\ a_epoch a' = a_epoch a;
    es_index : map (@b_index A) bs = indices (a_index a) (List.length bs)
        /\ a_index a' = a_index a + zlen bs;
    es_open : a_finished a' = false -> a_items a' = rest /\ a_queues a' = q'
        /\ Forall (fun b => b_last b = false) bs;
    es_closed : a_finished a' = true -> exists bs0 b, bs = bs0 ++ [b] /\ b_last b = true
        /\ Forall (fun b => b_last b = false) bs0
        /\ ((exists s, pc_steps cf = Some s /\ a_index a' = s)
            \/ pc_train cf = false /\ rest = [] /\ forall t, queue q' t = [])
  }.

  Lemma a_plan_spec a bs a' : a_inv shape cf a -> a_finished a = false -> a_plan a bs a' ->
    exists E rest q', epoch_spec a bs a' E rest q'.
  Proof.
    intros HI Hf H. revert HI Hf. induction H as [a|cycles a b a1 bs a2 H1 H2 IH]; intros HI Hf.
    - exists [], (a_items a), (a_queues a). constructor; auto.
      + constructor. reflexivity.
      + intros t. apply app_nil_r.
      + apply HI.
      + cbn. split; [reflexivity|unfold zlen; cbn; lia].
      + congruence.
    - destruct (a_next_spec Hcf Huniform HI Hf H1) as [HC HI1].
      destruct HC as (E & q' & rest & G1 & G2 & G3 & G4 & G5 & G6 & G6' & K1 & K2 & K3 & K4 & K5 & K6).
      destruct (a_finished a1) eqn:Ef1.
      + assert (bs = [] /\ a2 = a1) as [-> ->].
        { inversion H2 as [|cy ? b' ? ? ? N1 N2]; subst; auto.
          destruct (a_next_finished Ef1 N1) as [N _]. discriminate. }
        exists E, rest, q'. constructor; auto.
        * cbn [flat_map]. intros t. rewrite app_nil_r. apply G2.
        * cbn. rewrite K2. split; [unfold indices; cbn; rewrite Z.add_0_r; reflexivity|unfold zlen; cbn; lia].
        * congruence.
        * intros _. exists [], b. conj; auto. destruct K6 as [K6|(K6 & _ & K7 & K8)]; [|auto].
          symmetry in K6. unfold budget_last in K6. destruct (pc_steps cf) as [s|] eqn:Es; [|discriminate].
          left. exists s. split; auto. pose proof (ai_budget HI Es) as [B1 B2]. specialize (B2 Hf). lia.
      + destruct (G6 eq_refl) as [Gi Gq]. destruct (IH HI1 eq_refl) as (E2 & rest2 & q2 & S1).
        destruct S1 as [T1 T2 T3 T4 T5 T6 T7 T8 T9].
        rewrite Gi, G4 in T1. rewrite Gq in T2. rewrite G4 in T6. exists (E ++ E2), rest2, q2. constructor; auto.
        * eapply eats_trans; eauto.
        * intros t. cbn [flat_map]. rewrite !of_shape_app, app_assoc, G2. cbn [out_reals].
          rewrite <- app_assoc, T2, app_assoc. reflexivity.
        * intros Hs. rewrite T4, G5; auto.
        * destruct T6. split; auto.
        * destruct T7 as [T7 T7']. cbn [map List.length]. rewrite indices_S, K2, T7, K3. split; auto.
          rewrite T7', K3. unfold zlen. cbn [List.length]. lia.
        * intros Hn. destruct (T8 Hn) as (? & ? & ?). conj; auto.
        * intros Hn. destruct (T9 Hn) as (bs0 & b' & -> & U2 & U3 & U4). exists (b :: bs0), b'. conj; auto.
  Qed.

  (** The end of an epoch. *)
  Lemma a_end_spec a cycles a' : a_inv shape cf a -> a_finished a = false ->
    a_next stream shape cf cycles a = Ok (None, a') ->
    may_restart cf (a_index a) = false
    /\ (forall t, (List.length (queue (a_queues a) t ++ of_shape shape t (a_items a)) < pc_batch cf)%nat)
    /\ (pc_train cf = false -> a_items a = [] /\ forall t, queue (a_queues a) t = []).
  Proof.
    intros HI Hf H. destruct (a_next_spec Hcf Huniform HI Hf H) as [HC HI1].
    destruct HC as (E & q' & rest & G1 & G2 & G3 & G4 & G5 & G6 & G6' & K1 & K2 & K3 & K4 & K5). subst rest.
    assert (Hpre : exists E0, E = a_items a ++ E0).
    { inversion G1; subst; [exists []; rewrite app_nil_r; rewrite app_nil_r in *; congruence|eauto]. }
    destruct Hpre as (E0 & ->). cbn [out_reals] in G2.
    conj; auto.
    - intros t. specialize (G2 t). rewrite of_shape_app, app_assoc in G2. cbn [app] in G2.
      assert (Hl : (List.length (queue q' t) < pc_batch cf)%nat).
      { unfold queue. destruct (dict_get q' t) eqn:Eg; [eapply G3; eauto|]. cbn. apply (ok_batch Hcf). }
      change (of_shape shape t [] ++ queue q' t) with (queue q' t) in G2.
      rewrite <- G2, app_length in Hl. lia.
    - intros Ht.
      assert (Hnil : forall t, queue (a_queues a) t = [] /\ of_shape shape t (a_items a) = []).
      { intros t. specialize (G2 t). rewrite (K5 Ht) in G2. rewrite of_shape_app in G2. cbn [app] in G2.
        change (of_shape shape t [] ++ []) with (@nil A) in G2.
        apply app_eq_nil in G2 as [G2 G2']. apply app_eq_nil in G2' as [G2' _]. auto. }
      split; [|intros t; apply Hnil]. destruct (a_items a) as [|x l]; auto. exfalso.
      destruct (Hnil (shape x)) as [_ H']. unfold of_shape in H'. cbn in H'. rewrite Z.eqb_refl in H'. discriminate.
  Qed.
End ARun.

(** ** Runs of the planner are runs of the outside view *)
Section Run.
  Variables X A T : Type.
  Variable fd : feed X A T.
  Variable stream : Z -> Z -> res (list A).
  Variable R : Z -> Z -> status -> nat -> X -> list A -> Prop.
  Variable shape : A -> Z.
  Variable cf : pconfig.
  Hypothesis HF : feeds fd stream R.
  Hypothesis Hcf : config_ok cf.
  Hypothesis Huniform : forall code ep cy l, pc_uniform cf = Some code -> stream ep cy = Ok l ->
    Forall (fun e => shape e = code) l.
  Hypothesis Hfuel : forall ep cy, 0 <= ep -> 0 <= cy -> stream ep cy <> Err OutOfFuel.

  Notation Rel := (Rel stream R).

  Lemma next_run cycles p a : Rel p a -> a_inv shape cf a ->
    same_next fd stream R shape cf (a_next stream shape cf cycles a) p.
  Proof.
    intros HR HI. eapply next_sim; eauto; try apply HI.
    - apply (ok_batch Hcf).
    - intros H. apply (ok_packed Hcf H).
  Qed.

  Lemma next_back fuel p a ob p1 : Rel p a -> a_inv shape cf a ->
    next_batch fd shape cf fuel p = Ok (ob, p1) ->
    exists cycles a1, a_next stream shape cf cycles a = Ok (ob, a1) /\ Rel p1 a1.
  Proof.
    intros HR HI H. destruct (a_next_total Hcf Huniform Hfuel HI) as (cycles & Hc). exists cycles.
    pose proof (next_run cycles HR HI) as Hn. unfold same_next in Hn.
    destruct (a_next stream shape cf cycles a) as [[ob' a1]|e].
    - destruct Hn as (F & p' & Hn & HR'). specialize (Hn F (le_n _)).
      assert (E : @Ok (option (batch A) * planner X A) (ob, p1) = Ok (ob', p')) by (eapply next_det; eauto; discriminate).
      injection E as <- <-. eauto.
    - exfalso. destruct e; try congruence; destruct Hn as (F & Hn); specialize (Hn F (le_n _));
        pose proof (next_det H Hn ltac:(discriminate) ltac:(discriminate)); discriminate.
  Qed.

  Lemma plan_back p bs p' : plan fd shape cf p bs p' -> forall a, Rel p a -> a_inv shape cf a ->
    exists a', a_plan stream shape cf a bs a' /\ Rel p' a' /\ a_inv shape cf a'.
  Proof.
    induction 1 as [p|fuel p b p1 bs p2 H1 H2 IH]; intros a HR HI.
    - exists a. conj; auto. constructor.
    - destruct (next_back HR HI H1) as (cycles & a1 & E1 & HR1).
      assert (HI1 : a_inv shape cf a1).
      { destruct (a_finished a) eqn:Ef; [destruct (a_next_finished Ef E1); discriminate|]. eapply a_next_spec; eauto. }
      destruct (IH a1 HR1 HI1) as (a' & K1 & K2 & K3). exists a'. conj; auto. econstructor; eauto.
  Qed.

  Lemma plan_forth a bs a' : a_plan stream shape cf a bs a' -> forall p, Rel p a -> a_inv shape cf a ->
    exists p', plan fd shape cf p bs p' /\ Rel p' a'.
  Proof.
    induction 1 as [a|cycles a b a1 bs a2 H1 H2 IH]; intros p HR HI.
    - exists p. split; auto. constructor.
    - pose proof (next_run cycles HR HI) as Hn. rewrite H1 in Hn. destruct Hn as (F & p1 & Hn & HR1).
      assert (HI1 : a_inv shape cf a1).
      { destruct (a_finished a) eqn:Ef; [destruct (a_next_finished Ef H1); discriminate|]. eapply a_next_spec; eauto. }
      destruct (IH p1 HR1 HI1) as (p' & K1 & K2). exists p'. split; auto. econstructor; eauto.
  Qed.

  (** One call always returns: a batch, the end of the epoch, or an error. *)
  Lemma next_returns p a : Rel p a -> a_inv shape cf a ->
    exists F r, r <> Err OutOfFuel /\ forall f, (F <= f)%nat -> next_batch fd shape cf f p = r.
  Proof.
    intros HR HI. destruct (a_next_total Hcf Huniform Hfuel HI) as (cycles & Hc).
    pose proof (next_run cycles HR HI) as Hn. unfold same_next in Hn.
    destruct (a_next stream shape cf cycles a) as [[ob' a1]|e].
    - destruct Hn as (F & p' & Hn & HR'). exists F, (Ok (ob', p')). split; [discriminate|exact Hn].
    - destruct e; try congruence; destruct Hn as (F & Hn); eexists F, _; (split; [|exact Hn]); discriminate.
  Qed.
End Run.
