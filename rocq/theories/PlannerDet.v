(** The fuel of the planner model never changes an answer, only whether there is
    one: the planner is a function. *)
From Verif Require Import Base BaseFacts Rng Sequential Planner PlannerObs PlannerSim PlannerResume.
Set Implicit Arguments.
Unset Strict Implicit.

Section Det.
  Variables X A T : Type.
  Variable fd : feed X A T.
  Variable shape : A -> Z.
  Variable cf : pconfig.

  Lemma bind_mono {U V} (m m' : res U) (k k' : U -> res V) :
    (m <> Err OutOfFuel -> m' = m) -> (forall x, k x <> Err OutOfFuel -> k' x = k x) ->
    bind m k <> Err OutOfFuel -> bind m' k' = bind m k.
  Proof.
    intros Hm Hk H. destruct m as [x|e]; cbn in *.
    - rewrite Hm by discriminate. cbn. auto.
    - rewrite Hm by congruence. reflexivity.
  Qed.

  Lemma refill_mono : forall f f' p, (f <= f')%nat -> refill fd f p <> Err OutOfFuel -> refill fd f' p = refill fd f p.
  Proof.
    induction f as [|f IH]; intros [|f'] p Hle; cbn [refill]; auto; try lia; destruct (pl_ready p); auto;
      destruct (pl_exhausted p); auto; try congruence.
    apply bind_mono; auto. intros [[chunk ended] x]. apply IH. lia.
  Qed.

  Lemma uniform_mono : forall f f' g g' code p acc empty, (f <= f')%nat -> (g <= g')%nat ->
    uniform_loop fd shape cf f g code p acc empty <> Err OutOfFuel ->
    uniform_loop fd shape cf f' g' code p acc empty = uniform_loop fd shape cf f g code p acc empty.
  Proof.
    induction f as [|f IH]; intros [|f'] g g' code p acc empty Hf Hg; cbn [uniform_loop]; try congruence; try lia.
    destruct (List.length acc <? pc_batch cf)%nat; auto.
    apply bind_mono; [apply refill_mono; auto|]. intros p1.
    destruct (pl_ready p1) as [|e ready] eqn:Er.
    - destruct (negb (pc_packed cf) && may_restart cf (pl_index p1)); auto.
      apply bind_mono; auto. intros [p2 e1]. apply IH; lia.
    - destruct (pc_packed cf || _); auto. apply IH; lia.
  Qed.

  Lemma mixed_mono : forall f f' g g' p empty, (f <= f')%nat -> (g <= g')%nat ->
    mixed_loop fd shape cf f g p empty <> Err OutOfFuel ->
    mixed_loop fd shape cf f' g' p empty = mixed_loop fd shape cf f g p empty.
  Proof.
    induction f as [|f IH]; intros [|f'] g g' p empty Hf Hg; cbn [mixed_loop]; try congruence; try lia.
    apply bind_mono; [apply refill_mono; auto|]. intros p1.
    destruct (pl_ready p1) as [|e ready] eqn:Er.
    - destruct (may_restart cf (pl_index p1)); auto.
      apply bind_mono; auto. intros [p2 e1]. apply IH; lia.
    - apply bind_mono; auto. intros [q l]. destruct (_ =? _)%nat; auto. apply IH; lia.
  Qed.

  Lemma next_mono f f' p : (f <= f')%nat -> next_batch fd shape cf f p <> Err OutOfFuel ->
    next_batch fd shape cf f' p = next_batch fd shape cf f p.
  Proof.
    unfold next_batch. intros Hf. destruct (pl_finished p); auto. destruct (pc_uniform cf).
    - apply uniform_mono; auto.
    - apply mixed_mono; auto.
  Qed.

  Lemma next_det f f' p r r' : next_batch fd shape cf f p = Ok r -> next_batch fd shape cf f' p = Ok r' -> r = r'.
  Proof.
    intros H H'. destruct (Nat.le_ge_cases f f') as [Hle|Hle]; apply next_mono with (p := p) in Hle; congruence.
  Qed.

  Lemma plan_det p bs p1 : plan fd shape cf p bs p1 -> forall bs' p2, plan fd shape cf p bs' p2 ->
    List.length bs = List.length bs' -> bs = bs' /\ p1 = p2.
  Proof.
    induction 1 as [p|f p b p1 bs p2 H1 H2 IH]; intros bs' p3 H' Hl; inversion H'; subst; try discriminate Hl; auto.
    pose proof (next_det H1 H) as E. injection E as E1 E2. subst.
    injection Hl as Hl. destruct (IH _ _ H0 Hl) as [<- <-]. auto.
  Qed.

  Lemma interrupted_det p segs p1 : interrupted fd shape cf p segs p1 -> forall segs' p2,
    interrupted fd shape cf p segs' p2 -> map (@List.length _) segs = map (@List.length _) segs' ->
    segs = segs' /\ p1 = p2.
  Proof.
    induction 1 as [p|p seg p1 s p2 segs p3 H1 H2 H3 H4 IH]; intros segs' p4 H' Hl; inversion H'; subst; try discriminate Hl; auto.
    injection Hl as Hl Hl'. destruct (plan_det H1 H Hl) as [-> ->].
    assert (s0 = s) as -> by congruence. assert (p6 = p2) as -> by congruence.
    destruct (IH _ _ H6 Hl') as [<- <-]. auto.
  Qed.
End Det.
