(** The planner over any feed meeting the contract [feeds] produces exactly the
    batches of the outside view PlannerSpec.v. *)
From Verif Require Import Base BaseFacts Rng CompositeSim Sequential SequentialFacts Planner PlannerSpec PlannerDict.
Set Implicit Arguments.
Unset Strict Implicit.

(** Where a feed is in its cycle: reading, read to the end, or dropped early
    because the epoch's step budget was reached. *)
Inductive status := Open | Ended | Dropped.
Definition is_open (st : status) : bool := match st with Open => true | _ => false end.

(** Contract of a feed: [R epoch cycle st n x l] means that from [x] exactly the
    items [l] are still to come, within [n] further pulls. *)
Record feeds {X A T} (fd : feed X A T) (stream : Z -> Z -> res (list A))
    (R : Z -> Z -> status -> nat -> X -> list A -> Prop) : Prop := {
  feeds_start : forall ep cy, 0 <= ep -> 0 <= cy ->
    match stream ep cy with
    | Ok l => exists x n, fd_start fd ep cy = Ok x /\ R ep cy Open n x l
    | Err e => fd_start fd ep cy = Err e
    end;
  feeds_pull : forall ep cy n x l, R ep cy Open n x l ->
    exists chunk ended x' l', fd_pull fd x = Ok (chunk, ended, x') /\ l = chunk ++ l'
      /\ if ended : bool then l' = [] /\ R ep cy Ended 0%nat x' []
         else exists m, (m < n)%nat /\ R ep cy Open m x' l';
  feeds_offered : forall ep cy n x l all, R ep cy Ended n x l -> stream ep cy = Ok all ->
    l = [] /\ fd_offered fd x = zlen all;
  feeds_drain : forall ep cy st n x l, R ep cy st n x l ->
    exists x', fd_drain fd x = Ok x' /\ R ep cy (if is_open st then Dropped else st) 0%nat x' []
}.

(** Saving and restoring a feed continues with the same items. *)
Definition resumes {X A T} (fd : feed X A T)
    (R : Z -> Z -> status -> nat -> X -> list A -> Prop) : Prop :=
  forall ep cy st n x l, R ep cy st n x l ->
    exists s x' m, fd_save fd x = Ok s /\ fd_closed fd s = negb (is_open st)
      /\ fd_restore fd ep cy s = Ok x' /\ R ep cy st m x' l.

(** ** Cyclic padding *)
Lemma cyclic_length {A} (real : list A) n : real <> [] -> List.length (cyclic real n) = n.
Proof.
  intros H. unfold cyclic, range. rewrite <- (seq_length n 0) at 2.
  induction (seq 0 n) as [|i t IH]; [reflexivity|]. cbn [flat_map List.length]. rewrite app_length, IH.
  destruct (nth_error real (i mod List.length real)) eqn:E; [reflexivity|].
  apply nth_error_None in E. exfalso.
  pose proof (Nat.mod_upper_bound i (List.length real)). destruct real; [congruence|cbn [List.length] in *; lia].
Qed.

Lemma cyclic_S {A} (real : list A) n x : nth_error real (n mod List.length real)%nat = Some x ->
  cyclic real (S n) = cyclic real n ++ [x].
Proof.
  intros H. unfold cyclic, range. rewrite seq_S, flat_map_app. cbn [flat_map plus]. rewrite H. reflexivity.
Qed.

Lemma cyclic_prefix {A} (real : list A) n : (n <= List.length real)%nat -> cyclic real n = firstn n real.
Proof.
  induction n as [|n IH]; intros H; [reflexivity|].
  destruct (nth_error real n) as [x|] eqn:E; [|apply nth_error_None in E; lia].
  rewrite cyclic_S with (x := x) by (rewrite Nat.mod_small by lia; exact E).
  rewrite IH by lia. symmetry. apply firstn_S_nth. exact E.
Qed.

Lemma cyclic_all {A} (real : list A) : cyclic real (List.length real) = real.
Proof. rewrite cyclic_prefix by lia. apply firstn_all. Qed.

Lemma cyclic_firstn {A} (real : list A) n : real <> [] -> (List.length real <= n)%nat ->
  firstn (List.length real) (cyclic real n) = real.
Proof.
  intros Hr H. induction H as [|m H IH]; [rewrite cyclic_all; apply firstn_all|].
  assert (Hl : List.length real <> 0%nat) by (destruct real; [congruence|discriminate]).
  pose proof (Nat.mod_upper_bound m _ Hl).
  destruct (nth_error real (m mod List.length real)) as [x|] eqn:E; [|apply nth_error_None in E; lia].
  rewrite (cyclic_S E), firstn_app, cyclic_length by auto.
  replace (List.length real - m)%nat with 0%nat by lia. rewrite app_nil_r. exact IH.
Qed.

Lemma pad_loop_cyclic {A} (real : list A) : real <> [] -> forall todo n,
  (List.length real <= n)%nat -> pad_loop todo real (cyclic real n) = Ok (cyclic real (n + todo)).
Proof.
  intros Hr. assert (Hl : List.length real <> 0%nat) by (destruct real; [congruence|discriminate]).
  induction todo as [|k IH]; intros n Hn; cbn [pad_loop]; [rewrite Nat.add_0_r; reflexivity|].
  destruct (List.length real) as [|m] eqn:El; [congruence|]. rewrite <- El in *.
  rewrite cyclic_length by auto.
  assert (Em : ((n - List.length real) mod List.length real = n mod List.length real)%nat).
  { rewrite <- (Nat.mod_add (n - List.length real) 1) by auto. f_equal. lia. }
  rewrite Em. pose proof (Nat.mod_upper_bound n _ Hl) as Hu.
  unfold py_get. destruct (nth_error real (n mod List.length real)) as [x|] eqn:E; [|apply nth_error_None in E; lia].
  cbn [bind]. rewrite <- (cyclic_S E), IH by lia. do 2 f_equal. lia.
Qed.

Lemma pad_real {A} (real : list A) b : real <> [] -> (List.length real <= b)%nat ->
  pad_loop (b - List.length real) real real = Ok (cyclic real b).
Proof.
  intros Hr Hb. rewrite <- (cyclic_all real) at 3. rewrite pad_loop_cyclic by auto. do 2 f_equal. lia.
Qed.

Lemma np_resize_cyclic {A} (real : list A) n : real <> [] -> np_resize real n = Ok (cyclic real n).
Proof.
  intros Hr. assert (Hl : List.length real <> 0%nat) by (destruct real; [congruence|discriminate]).
  unfold np_resize, cyclic. induction (range n) as [|i t IH]; [reflexivity|].
  cbn [mapM flat_map]. rewrite IH. unfold py_get.
  destruct (nth_error real (i mod List.length real)) eqn:E; [reflexivity|].
  apply nth_error_None in E. pose proof (Nat.mod_upper_bound i _ Hl). lia.
Qed.

Section Sim.
  Variables X A T : Type.
  Variable fd : feed X A T.
  Variable stream : Z -> Z -> res (list A).
  Variable R : Z -> Z -> status -> nat -> X -> list A -> Prop.
  Variable shape : A -> Z.
  Variable cf : pconfig.
  Hypothesis HF : feeds fd stream R.
  Hypothesis Hb : (0 < pc_batch cf)%nat.
  Hypothesis Hpacked : pc_packed cf = true -> pc_sharded cf = false.
  (** A uniform source really has a single shape. *)
  Hypothesis Huniform : forall code ep cy l, pc_uniform cf = Some code -> stream ep cy = Ok l ->
    Forall (fun e => shape e = code) l.

  Record Rel (p : planner X A) (a : astate A) : Prop := {
    rl_epoch : pl_epoch p = a_epoch a;
    rl_index : pl_index p = a_index a;
    rl_cycle : pl_cycle p = a_cycle a;
    rl_queues : pl_queues p = a_queues a;
    rl_finished : pl_finished p = a_finished a;
    rl_pos : 0 <= a_epoch a /\ 0 <= a_cycle a;
    rl_feed : exists st n l, R (a_epoch a) (a_cycle a) st n (pl_x p) l
        /\ a_items a = pl_ready p ++ l /\ pl_exhausted p = negb (is_open st)
        /\ (is_open st = false -> l = [])
        /\ (a_finished a = false -> st <> Dropped)
        /\ (a_finished a = true -> st <> Open /\ pl_ready p = []);
    rl_size : exists all pre, stream (a_epoch a) (a_cycle a) = Ok all /\ a_size a = zlen all
        /\ (a_items a <> [] -> all = pre ++ a_items a)
  }.

  Lemma start_sim epoch :
    match a_start stream epoch with
    | Ok a => exists p, start_epoch fd epoch = Ok p /\ Rel p a
    | Err e => start_epoch fd epoch = Err e
    end.
  Proof.
    clear Hb Hpacked Huniform shape cf.
    unfold a_start, start_epoch. destruct (0 <=? epoch) eqn:E; [|reflexivity].
    pose proof (feeds_start HF (ep := epoch) (cy := 0)) as H.
    destruct (stream epoch 0) as [l|e] eqn:Es; cbn [bind].
    - destruct H as (x & n & -> & HR); [lia|lia|]. cbn [bind]. eexists. split; [reflexivity|].
      constructor; cbn; auto; try lia.
      + exists Open, n, l. conj; auto; discriminate.
      + exists l, []. auto.
    - rewrite H by lia. reflexivity.
  Qed.

  Definition same_out (r : res (option (batch A) * astate A))
      (run : nat -> nat -> res (option (batch A) * planner X A)) : Prop :=
    match r with
    | Ok (ob, a') => exists F p', (forall f f0, (F <= f)%nat -> (F <= f0)%nat -> run f f0 = Ok (ob, p')) /\ Rel p' a'
    | Err OutOfFuel => True
    | Err e => exists F, forall f f0, (F <= f)%nat -> (F <= f0)%nat -> run f f0 = Err e
    end.

  Lemma refill_sim : forall n p a st l,
    Rel p a -> a_finished a = false ->
    R (a_epoch a) (a_cycle a) st n (pl_x p) l -> a_items a = pl_ready p ++ l ->
    pl_exhausted p = negb (is_open st) -> (is_open st = false -> l = []) -> st <> Dropped ->
    exists p', (forall f, (n < f)%nat -> refill fd f p = Ok p') /\ Rel p' a
      /\ (pl_ready p' = [] -> a_items a = [] /\ pl_exhausted p' = true).
  Proof.
    induction n as [n IH] using lt_wf_ind. intros p a st l HR Hfin Hx Hit Hex Hl Hst.
    destruct (pl_ready p) as [|e t] eqn:Er.
    - destruct (pl_exhausted p) eqn:Ex.
      + exists p. split; [|split; auto].
        * intros f Hf. destruct f; [lia|]. cbn [refill]. rewrite Er, Ex. reflexivity.
        * intros _. rewrite Hit, Hl; auto. destruct st; auto; discriminate.
      + assert (st = Open) as -> by (destruct st; auto; discriminate).
        destruct (feeds_pull HF Hx) as (chunk & ended & x' & l' & Hp & Hll & Hend).
        pose (p1 := set_x p x' (pl_ready p ++ chunk) ended).
        assert (Hstep : forall f, refill fd (S f) p = refill fd f p1).
        { intros f. cbn [refill]. rewrite Er, Ex, Hp. cbn [bind]. rewrite <- Er. reflexivity. }
        assert (H1 : Rel p1 a /\ exists st' m, (m <= n)%nat /\ (ended = false -> (m < n)%nat)
              /\ R (a_epoch a) (a_cycle a) st' m x' l' /\ pl_exhausted p1 = negb (is_open st')
              /\ (is_open st' = false -> l' = []) /\ st' <> Dropped).
        { assert (Hq : exists st' m, (m <= n)%nat /\ (ended = false -> (m < n)%nat) /\ R (a_epoch a) (a_cycle a) st' m x' l'
             /\ ended = negb (is_open st') /\ (is_open st' = false -> l' = []) /\ st' <> Dropped).
          { destruct ended.
            - destruct Hend as [-> Hend]. exists Ended, 0%nat. conj; auto; try discriminate. lia.
            - destruct Hend as (m & Hm & Hend). exists Open, m. conj; auto; try discriminate. lia. }
          split.
          - destruct HR. destruct Hq as (st' & m & _ & _ & Q1 & Q2 & Q3 & Q4).
            constructor; cbn; auto. exists st', m, l'. conj; auto.
            + rewrite Er, Hit, Hll. reflexivity.
            + congruence.
          - destruct Hq as (st' & m & Q0 & Q0' & Q1 & Q2 & Q3 & Q4). exists st', m. conj; auto. }
        destruct H1 as [H1 (st' & m & Hm & Hm' & Q1 & Q2 & Q3 & Q4)].
        destruct ended.
        * (* exhausted: one more unfolding *)
          destruct Hend as [-> Hend]. rewrite app_nil_r in Hll. subst chunk. exists p1.
          split; [|split; auto].
          -- intros f Hf. destruct f as [|f]; [lia|]. rewrite Hstep.
             destruct f as [|f]; cbn [refill]; destruct (pl_ready p1); auto.
          -- unfold p1; cbn. rewrite Er. cbn. intros ->. rewrite Hit. auto.
        * destruct (IH m (Hm' eq_refl) p1 a st' l' H1 Hfin Q1) as (p' & F1 & F2 & F3); auto.
          { unfold p1; cbn. rewrite Er, Hit, Hll. reflexivity. }
          exists p'. split; [|split; auto]. intros f Hf. destruct f as [|f]; [lia|]. rewrite Hstep. apply F1.
          specialize (Hm' eq_refl). lia.
    - exists p. split; [|split; auto].
      + intros f Hf. destruct f; [lia|]. cbn [refill]. rewrite Er. reflexivity.
      + rewrite Er. discriminate.
  Qed.

  Lemma refill_rel p a : Rel p a -> a_finished a = false ->
    exists F p', (forall f, (F <= f)%nat -> refill fd f p = Ok p') /\ Rel p' a
      /\ (pl_ready p' = [] -> a_items a = [] /\ pl_exhausted p' = true).
  Proof.
    intros HR Hf. destruct (rl_feed HR) as (st & n & l & H1 & H2 & H3 & H4 & H5 & H6).
    destruct (@refill_sim n p a st l HR Hf H1 H2 H3 H4 (H5 Hf)) as (p' & G1 & G2 & G3).
    exists (S n), p'. conj; auto.
  Qed.

  (** Taking items off the ready queue. *)
  Lemma Rel_take p a k : Rel p a -> (k <= List.length (pl_ready p))%nat -> a_finished a = false ->
    Rel (set_ready p (skipn k (pl_ready p))) (a_set a (skipn k (a_items a)) (a_queues a) (a_finished a)).
  Proof.
    intros HR Hk Hf. destruct HR. constructor; cbn; auto.
    - destruct rl_feed0 as (st & n & l & H1 & H2 & H3 & H4 & H5 & H6). exists st, n, l. conj; auto.
      + rewrite H2, skipn_app. replace (k - List.length (pl_ready p))%nat with 0%nat by lia. reflexivity.
      + rewrite Hf. discriminate.
    - destruct rl_size0 as (all & pre & H1 & H2 & H3). exists all, (pre ++ firstn k (a_items a)). conj; auto.
      intros Hne. rewrite <- app_assoc, firstn_skipn. apply H3. intros E. rewrite E, skipn_nil in Hne. auto.
  Qed.

  Lemma Rel_queues p a q : Rel p a -> Rel (set_queues p q) (a_set a (a_items a) q (a_finished a)).
  Proof. intros HR. destruct HR. constructor; cbn; auto. Qed.

  (** Finishing when nothing is left. *)
  Lemma Rel_finish p a : Rel p a -> a_items a = [] -> pl_exhausted p = true ->
    Rel (set_finished p) (a_set a [] (a_queues a) true).
  Proof.
    intros HR Hi He. destruct HR. constructor; cbn; auto.
    - destruct rl_feed0 as (st & n & l & H1 & H2 & H3 & H4 & H5 & H6). exists st, n, l.
      rewrite Hi in H2. conj; auto; try discriminate.
      intros _. split; [intros ->; cbn in H3; congruence|]. destruct (pl_ready p); auto; discriminate.
    - destruct rl_size0 as (all & pre & H1 & H2 & H3). exists all, pre. conj; auto. congruence.
  Qed.

  Lemma make_batch_sim p a items real last : Rel p a ->
    (a_finished a = true -> True) ->
    exists p', make_batch fd cf p items real last = Ok (fst (a_emit cf a items real last), p')
      /\ Rel p' (snd (a_emit cf a items real last)).
  Proof.
    intros HR _. unfold make_batch, a_emit, fst, snd. rewrite (rl_epoch HR), (rl_index HR).
    destruct (budget_last cf (a_index a)) eqn:Eb.
    - unfold finish_budget. cbn [pl_x pl_epoch pl_index pl_cycle].
      destruct (rl_feed HR) as (st & n & l & H1 & H2 & H3 & H4 & H5 & H6).
      destruct (feeds_drain HF H1) as (x' & E & HR'). rewrite E. cbn [bind].
      eexists. split; [reflexivity|]. destruct HR.
      constructor; cbn; auto.
      + rewrite orb_true_r. reflexivity.
      + exists (if is_open st then Dropped else st), 0%nat, []. conj; auto.
        * destruct st; reflexivity.
        * rewrite orb_true_r. discriminate.
        * intros _. split; [|reflexivity]. destruct st; discriminate.
      + destruct rl_size0 as (all & pre & G1 & G2 & G3). exists all, pre. conj; auto. congruence.
    - eexists. split; [reflexivity|]. rewrite orb_false_r. destruct HR.
      constructor; cbn; auto.
  Qed.

  Lemma next_cycle_sim p a empty :
    Rel p a -> a_finished a = false -> a_items a = [] -> pl_exhausted p = true ->
    pc_sharded cf = true ->
    match a_next_cycle stream a empty with
    | Ok (a', e') => exists p', next_cycle fd cf p empty = Ok (p', e') /\ Rel p' a' /\ a_finished a' = false
    | Err e => next_cycle fd cf p empty = Err e
    end.
  Proof.
    intros HR Hf Hi He Hs. unfold a_next_cycle, next_cycle, restart_cycle.
    destruct (rl_feed HR) as (st & n & l & H1 & H2 & H3 & H4 & H5 & H6).
    destruct (rl_size HR) as (all & pre & G1 & G2 & _).
    rewrite Hi in H2. symmetry in H2. apply app_eq_nil in H2 as [H2 ->].
    assert (st = Ended) as ->.
    { destruct st; auto; [cbn in H3; congruence|exfalso; apply (H5 Hf); reflexivity]. }
    destruct (feeds_offered HF H1 G1) as [_ Ho]. rewrite Ho, G2.
    destruct ((if zlen all =? 0 then empty + 1 else 0) <=? 16); [|reflexivity].
    rewrite Hs, He, H2. cbn [nonempty negb andb].
    destruct (rl_pos HR) as [P1 P2].
    pose proof (feeds_start HF P1 (cy := a_cycle a + 1)) as Hst.
    rewrite (rl_epoch HR), (rl_cycle HR).
    destruct (stream (a_epoch a) (a_cycle a + 1)) as [l1|e] eqn:Es; cbn [bind].
    - destruct Hst as (x & m & -> & HR'); [lia|]. cbn [bind]. eexists. split; [reflexivity|]. split; [|exact Hf].
      destruct HR. constructor; cbn; auto; try lia.
      + exists Open, m, l1. conj; auto; try discriminate; congruence.
      + exists l1, []. conj; auto.
    - rewrite Hst by lia. reflexivity.
  Qed.

  Lemma may_restart_sharded i : may_restart cf i = true -> pc_sharded cf = true.
  Proof. unfold may_restart. destruct (pc_sharded cf); auto. Qed.

  (** ** Uniform shape *)

  Lemma a_uniform_step cycles a acc empty k :
    (k <= pc_batch cf - List.length acc)%nat -> (k <= List.length (a_items a))%nat ->
    a_uniform stream cf cycles a acc empty =
    a_uniform stream cf cycles (a_set a (skipn k (a_items a)) (a_queues a) (a_finished a)) (acc ++ firstn k (a_items a)) empty.
  Proof.
    intros H1 H2. destruct cycles as [|c]; cbn [a_uniform a_set a_items a_queues a_finished a_index];
      rewrite (app_length acc (firstn k (a_items a))), firstn_length_le, skipn_length by lia;
      destruct (Nat.leb_spec (pc_batch cf - List.length acc) (List.length (a_items a))) as [Hle|Hle];
      destruct (Nat.leb_spec (pc_batch cf - (List.length acc + k)) (List.length (a_items a) - k)) as [Hle'|Hle'];
      try lia.
    all: try (f_equal; f_equal; [unfold a_set; cbn; f_equal; rewrite skipn_skipn; f_equal; lia|];
      rewrite <- app_assoc; f_equal;
      replace (pc_batch cf - List.length acc)%nat with (k + (pc_batch cf - (List.length acc + k)))%nat by lia;
      rewrite <- (firstn_skipn k (a_items a)) at 1;
      rewrite firstn_app, firstn_length_le, firstn_firstn by lia;
      f_equal; [f_equal; lia|f_equal; lia]).
    all: rewrite <- app_assoc, firstn_skipn; reflexivity.
  Qed.



  Lemma same_out_step r (run1 run2 : nat -> nat -> res (option (batch A) * planner X A)) :
    same_out r run2 -> (exists F, forall f f0, (F <= f0)%nat -> run1 (S f) f0 = run2 f f0) -> same_out r run1.
  Proof.
    intros H [F HS]. destruct r as [[ob a']|e]; cbn [same_out] in *.
    - destruct H as (G & p' & H & HR). exists (S (F + G)), p'. split; auto.
      intros f f0 Hf Hf0. destruct f as [|f]; [lia|]. rewrite HS by lia. apply H; lia.
    - destruct e; auto; destruct H as (G & H); exists (S (F + G)); intros f f0 Hf Hf0;
        (destruct f as [|f]; [lia|]); (rewrite HS by lia); apply H; lia.
  Qed.

  Lemma uniform_sim code : pc_uniform cf = Some code -> forall cycles m p a acc empty,
    (List.length (a_items a) <= m)%nat -> Rel p a -> a_finished a = false ->
    (List.length acc <= pc_batch cf)%nat ->
    same_out (a_uniform stream cf cycles a acc empty)
             (fun f f0 => uniform_loop fd shape cf f f0 code p acc empty).
  Proof.
    intros Hu. induction cycles as [cycles IHc] using lt_wf_ind. induction m as [m IHm] using lt_wf_ind.
    intros p a acc empty Hm HR Hfin Hacc.
    destruct (Nat.eq_dec (List.length acc) (pc_batch cf)) as [Eacc|Nacc].
    { (* batch complete *)
      assert (E : a_uniform stream cf cycles a acc empty
                  = Ok (a_emit cf a acc (mask (pc_batch cf) (pc_batch cf)) false)).
      { destruct cycles; cbn [a_uniform]; rewrite Eacc, Nat.sub_diag; cbn [Nat.leb firstn skipn]; rewrite app_nil_r;
          destruct a; reflexivity. }
      rewrite E. destruct (make_batch_sim acc (mask (pc_batch cf) (pc_batch cf)) false HR) as (p' & E1 & HR'); auto.
      destruct (a_emit cf a acc (mask (pc_batch cf) (pc_batch cf)) false) as [ob a'] eqn:Ee.
      exists 1%nat, p'. split; auto. intros f f0 Hf _. destruct f; [lia|]. cbn [uniform_loop].
      replace (List.length acc <? pc_batch cf)%nat with false by (symmetry; apply Nat.ltb_ge; lia). exact E1. }
    destruct (refill_rel HR Hfin) as (F & p1 & HF1 & HR1 & Hend).
    destruct (pl_ready p1) as [|e t] eqn:Er.
    - destruct (Hend eq_refl) as [Hi Hex].
      assert (Hneed : (pc_batch cf - List.length acc <=? List.length (a_items a))%nat = false).
      { apply Nat.leb_gt. rewrite Hi. cbn. lia. }
      assert (Ha : a_set a [] (a_queues a) (a_finished a) = a) by (rewrite <- Hi; destruct a; reflexivity).
      assert (Hacc1 : acc ++ a_items a = acc) by (rewrite Hi; apply app_nil_r).
      assert (Hpk : negb (pc_packed cf) && may_restart cf (pl_index p1) = may_restart cf (a_index a)).
      { rewrite (rl_index HR1). destruct (pc_packed cf) eqn:Ep; auto. cbn. unfold may_restart. rewrite Hpacked; auto. }
      destruct (may_restart cf (a_index a)) eqn:Em.
      + (* next source cycle *)
        destruct cycles as [|k]; cbn [a_uniform]; rewrite Hneed, Em; [exact I|].
        rewrite Ha, Hacc1.
        pose proof (@next_cycle_sim p1 a empty HR1 Hfin Hi Hex (may_restart_sharded Em)) as Hn.
        destruct (a_next_cycle stream a empty) as [[a2 empty1]|e] eqn:En; cbn [bind].
        * destruct Hn as (p2 & E2 & HR2 & Hf2).
          eapply same_out_step; [apply (IHc k ltac:(lia) _ p2 a2 acc empty1 (le_n _)); auto|].
          exists F. intros f f0 Hf0. cbn [uniform_loop].
          replace (List.length acc <? pc_batch cf)%nat with true by (symmetry; apply Nat.ltb_lt; lia).
          rewrite HF1 by auto. cbn [bind]. rewrite Er, Hpk, E2. reflexivity.
        * assert (Hx : forall f f0, (S F <= f)%nat -> (S F <= f0)%nat ->
              uniform_loop fd shape cf f f0 code p acc empty = Err e).
          { intros f f0 Hf Hf0. destruct f as [|f]; [lia|]. cbn [uniform_loop].
            replace (List.length acc <? pc_batch cf)%nat with true by (symmetry; apply Nat.ltb_lt; lia).
            rewrite HF1 by lia. cbn [bind]. rewrite Er, Hpk, Hn. reflexivity. }
          destruct e; cbn [same_out]; eauto.
      + assert (Hstop : exists p' , forall f f0, (S F <= f)%nat -> (S F <= f0)%nat ->
           uniform_loop fd shape cf f f0 code p acc empty
           = match (if pc_train cf || negb (nonempty acc) then Ok (None, set_finished p1) else Ok (Some tt, p')) with
             | Ok (None, q) => Ok (None, q)
             | Ok (Some _, q) => Ok (fst (a_emit cf (a_set a [] (a_queues a) true) (cyclic acc (pc_batch cf))
                              (mask (List.length acc) (pc_batch cf)) true), q)
             | Err e => Err e end
           /\ Rel p' (snd (a_emit cf (a_set a [] (a_queues a) true) (cyclic acc (pc_batch cf))
                              (mask (List.length acc) (pc_batch cf)) true))).
        { pose proof (Rel_finish HR1 Hi Hex) as HRf.
          destruct (make_batch_sim (cyclic acc (pc_batch cf)) (mask (List.length acc) (pc_batch cf)) true HRf) as (p' & E1 & HR'); auto.
          exists p'. intros f f0 Hf Hf0. split; [|exact HR']. destruct f as [|f]; [lia|]. cbn [uniform_loop].
          replace (List.length acc <? pc_batch cf)%nat with true by (symmetry; apply Nat.ltb_lt; lia).
          rewrite HF1 by lia. cbn [bind]. rewrite Er, Hpk.
          destruct (pc_train cf); [reflexivity|]. cbn [orb]. destruct acc as [|x acc']; [reflexivity|].
          cbn [nonempty negb].
          rewrite np_resize_cyclic by discriminate.
          rewrite pad_real by (auto; discriminate).
          destruct (pc_packed cf); cbn [bind]; exact E1. }
        destruct Hstop as (p' & Hstop).
        assert (Hstop1 := fun f H => proj1 (Hstop f f H H)).
        destruct (Hstop (S F) (S F) (le_n _) (le_n _)) as [_ HR'].
        assert (Eu : a_uniform stream cf cycles a acc empty =
                 if pc_train cf || negb (nonempty acc) then Ok (None, a_set a [] (a_queues a) true)
                 else Ok (a_emit cf (a_set a [] (a_queues a) true) (cyclic acc (pc_batch cf))
                              (mask (List.length acc) (pc_batch cf)) true)).
        { destruct cycles; cbn [a_uniform]; rewrite Hneed, Em, Hacc1; reflexivity. }
        rewrite Eu. destruct (pc_train cf || negb (nonempty acc)) eqn:Et; cbn [same_out].
        * exists (S F), (set_finished p1). split; [|apply Rel_finish; auto].
          intros f f0 Hf Hf0. apply (Hstop f f0 Hf Hf0).
        * exists (S F), p'. split; auto. intros f f0 Hf Hf0. apply (Hstop f f0 Hf Hf0).
    - (* take from the ready queue *)
      rewrite <- Er in *. remember (pl_ready p1) as ready eqn:Eready.
      remember (Nat.min (pc_batch cf - List.length acc) (List.length ready)) as take eqn:Etake.
      assert (Htake : (0 < take)%nat).
      { subst take. rewrite Er. cbn [List.length]. lia. }
      destruct (rl_feed HR1) as (st & n & l & H1 & H2 & H3 & H4 & H5 & H6). rewrite <- Eready in H2.
      assert (Hpre : firstn take (a_items a) = firstn take ready).
      { rewrite H2, firstn_app. replace (take - List.length ready)%nat with 0%nat by lia. apply app_nil_r. }
      assert (Hlen : (List.length ready <= List.length (a_items a))%nat) by (rewrite H2, app_length; lia).
      rewrite (@a_uniform_step cycles a acc empty take) by lia. rewrite Hpre.
      eapply same_out_step.
      + apply (IHm (m - take)%nat) with (p := set_ready p1 (skipn take ready)).
        * assert (0 < List.length (a_items a))%nat by (rewrite Er in Hlen; cbn [List.length] in Hlen; lia). lia.
        * cbn [a_set a_items]. rewrite skipn_length. lia.
        * subst ready. apply Rel_take; auto. lia.
        * exact Hfin.
        * rewrite app_length, firstn_length_le by lia. lia.
      + exists F. intros f f0 Hf0. cbn [uniform_loop].
        replace (List.length acc <? pc_batch cf)%nat with true by (symmetry; apply Nat.ltb_lt; lia).
        rewrite HF1 by auto. cbn [bind]. rewrite <- Eready.
        assert (Hsh : pc_packed cf || forallb (fun e0 => shape e0 =? code) (firstn take ready) = true).
        { apply orb_true_iff. right. apply forallb_forall. intros x Hx.
          destruct (rl_size HR1) as (all & pre & G1 & G2 & G3).
          assert (Hne : a_items a <> []) by (rewrite H2, Er; discriminate).
          pose proof (@Huniform code _ _ _ Hu G1) as HU. rewrite (G3 Hne), Forall_app in HU. destruct HU as [_ HU].
          rewrite Forall_forall in HU. apply Z.eqb_eq. apply HU. rewrite <- Hpre in Hx.
          eapply in_firstn; eauto. }
        rewrite Er in Hsh, Etake |- *. rewrite <- Etake. rewrite Hsh. reflexivity.
  Qed.

  (** ** Mixed shapes *)

  Lemma mixed_sim : pc_uniform cf = None -> forall cycles m p a empty,
    (List.length (a_items a) <= m)%nat -> Rel p a -> a_finished a = false -> qok shape cf (a_queues a) ->
    same_out (a_mixed stream shape cf cycles a empty)
             (fun f f0 => mixed_loop fd shape cf f f0 p empty).
  Proof.
    intros Hu. induction cycles as [cycles IHc] using lt_wf_ind. induction m as [m IHm] using lt_wf_ind.
    intros p a empty Hm HR Hfin Hq.
    destruct (refill_rel HR Hfin) as (F & p1 & HF1 & HR1 & Hend).
    destruct (pl_ready p1) as [|e t] eqn:Er.
    - destruct (Hend eq_refl) as [Hi Hex].
      assert (Hunf : forall f f0, (F <= f0)%nat -> mixed_loop fd shape cf (S f) f0 p empty =
          if may_restart cf (a_index a) then
            '(p2, empty1) <- next_cycle fd cf p1 empty ;; mixed_loop fd shape cf f f0 p2 empty1
          else if pc_train cf then Ok (None, set_finished (set_queues p1 []))
          else match nonempty_shapes (a_queues a) with
               | [] => Ok (None, set_finished p1)
               | code :: _ =>
                   match dict_get (a_queues a) code with
                   | None => Err KeyError
                   | Some real =>
                       let p2 := set_queues p1 (dict_del (a_queues a) code) in
                       items <- pad_loop (pc_batch cf - List.length real) real real ;;
                       let is_last := negb (existsb (fun kv => nonempty (snd kv)) (pl_queues p2)) in
                       make_batch fd cf (if is_last then set_finished p2 else p2) items
                         (mask (List.length real) (pc_batch cf)) is_last
                   end
               end).
      { intros f f0 Hf0. cbn [mixed_loop]. rewrite HF1 by auto. cbn [bind]. rewrite Er, (rl_index HR1), (rl_queues HR1).
        reflexivity. }
      assert (Eu : a_mixed stream shape cf cycles a empty =
        if may_restart cf (a_index a) then
          match cycles with
          | O => Err OutOfFuel
          | S k => '(a2, empty1) <- a_next_cycle stream a empty ;; a_mixed stream shape cf k a2 empty1
          end
        else if pc_train cf then Ok (None, a_set a [] [] true)
        else match nonempty_shapes (a_queues a) with
             | [] => Ok (None, a_set a [] (a_queues a) true)
             | code :: _ =>
                 match dict_get (a_queues a) code with
                 | None => Err KeyError
                 | Some real =>
                     let q1 := dict_del (a_queues a) code in
                     let is_last := negb (existsb (fun kv => nonempty (snd kv)) q1) in
                     Ok (a_emit cf (a_set a [] q1 (is_last || a_finished a)) (cyclic real (pc_batch cf))
                           (mask (List.length real) (pc_batch cf)) is_last)
                 end
             end).
      { assert (Ha : a_set a [] (a_queues a) (a_finished a) = a) by (rewrite <- Hi; destruct a; reflexivity).
        destruct cycles; cbn [a_mixed]; rewrite Hi; cbn [absorb bind]; rewrite ?Ha; reflexivity. }
      rewrite Eu. clear Eu. destruct (may_restart cf (a_index a)) eqn:Em.
      + destruct cycles as [|k]; [exact I|].
        pose proof (@next_cycle_sim p1 a empty HR1 Hfin Hi Hex (may_restart_sharded Em)) as Hn.
        destruct (a_next_cycle stream a empty) as [[a2 empty1]|e] eqn:En; cbn [bind].
        * destruct Hn as (p2 & E2 & HR2 & Hf2).
          eapply same_out_step; [apply (IHc k ltac:(lia) _ p2 a2 empty1 (le_n _)); auto|].
          { unfold a_next_cycle in En. apply guard_Ok in En as [_ En]. inv_bind En. injection En as <- _. exact Hq. }
          exists F. intros f f0 Hf0. rewrite Hunf, E2 by auto. reflexivity.
        * assert (Hx : forall f f0, (S F <= f)%nat -> (S F <= f0)%nat -> mixed_loop fd shape cf f f0 p empty = Err e).
          { intros f f0 Hf Hf0. destruct f as [|f]; [lia|]. rewrite Hunf, Hn by lia. reflexivity. }
          destruct e; cbn [same_out]; eauto.
      + destruct (pc_train cf) eqn:Et.
        { exists (S F), (set_finished (set_queues p1 [])). split.
          - intros f f0 Hf Hf0. destruct f as [|f]; [lia|]. rewrite Hunf by lia. reflexivity.
          - change (a_set a [] [] true) with (a_set (a_set a (a_items a) [] (a_finished a)) [] (a_queues (a_set a (a_items a) [] (a_finished a))) true).
            apply Rel_finish; auto. apply Rel_queues; auto. }
        destruct (nonempty_shapes (a_queues a)) as [|code rest] eqn:En.
        { exists (S F), (set_finished p1). split; [|apply Rel_finish; auto].
          intros f f0 Hf Hf0. destruct f as [|f]; [lia|]. rewrite Hunf by lia. reflexivity. }
        assert (Hne : queue (a_queues a) code <> []).
        { apply nonempty_shapes_In; [apply Hq|]. rewrite En. left. reflexivity. }
        unfold queue in Hne. destruct (dict_get (a_queues a) code) as [real|] eqn:Eg; [|congruence].
        destruct (proj2 Hq _ _ Eg) as [Hl Hs]. cbv zeta in Hunf |- *. cbn [set_queues pl_queues] in Hunf.
        rewrite pad_real in Hunf by (auto; lia). cbn [bind] in Hunf.
        set (q1 := dict_del (a_queues a) code) in *.
        set (il := negb (existsb (fun kv => nonempty (snd kv)) q1)) in *.
        assert (HRq : Rel (if il then set_finished (set_queues p1 q1) else set_queues p1 q1)
                          (a_set a [] q1 (il || a_finished a))).
        { pose proof (Rel_queues q1 HR1) as HRq. rewrite Hi in HRq. destruct il.
          - cbn [orb]. change (a_set a [] q1 true) with
              (a_set (a_set a [] q1 (a_finished a)) [] (a_queues (a_set a [] q1 (a_finished a))) true).
            apply Rel_finish; auto.
          - exact HRq. }
        destruct (make_batch_sim (cyclic real (pc_batch cf)) (mask (List.length real) (pc_batch cf)) il HRq) as (p' & E1 & HR'); auto.
        destruct (a_emit cf (a_set a [] q1 (il || a_finished a)) (cyclic real (pc_batch cf))
                    (mask (List.length real) (pc_batch cf)) il) as [ob a'] eqn:Ee.
        exists (S F), p'. split; auto. intros f f0 Hf Hf0. destruct f as [|f]; [lia|]. rewrite Hunf by lia. exact E1.
    - destruct (rl_feed HR1) as (st & n & l & H1 & H2 & H3 & H4 & H5 & H6). rewrite Er in H2. cbn [app] in H2.
      assert (HR2 : Rel (set_ready p1 t) (a_set a (t ++ l) (a_queues a) (a_finished a))).
      { pose proof (Rel_take (k := 1) HR1) as HT. rewrite Er, H2 in HT. cbn [skipn List.length] in HT. apply HT; auto. lia. }
      destruct (append_shape shape cf (a_queues a) e) as [[q1 l1]|er] eqn:Ea.
      + destruct (append_shape_qok Hq Hb Ea) as (L1 & L2 & L3 & L4).
        destruct (Nat.eqb_spec (List.length l1) (pc_batch cf)) as [El|El].
        * assert (Eu : a_mixed stream shape cf cycles a empty
               = Ok (a_emit cf (a_set a (t ++ l) (dict_set q1 (shape e) []) (a_finished a)) l1
                       (mask (pc_batch cf) (pc_batch cf)) false)).
          { destruct cycles; cbn [a_mixed]; rewrite H2; cbn [absorb]; rewrite Ea; cbn [bind];
              rewrite El, Nat.eqb_refl; reflexivity. }
          rewrite Eu.
          assert (HR3 : Rel (set_queues (set_queues (set_ready p1 t) q1) (dict_set q1 (shape e) []))
                            (a_set a (t ++ l) (dict_set q1 (shape e) []) (a_finished a))).
          { apply (Rel_queues (dict_set q1 (shape e) []) HR2). }
          destruct (make_batch_sim l1 (mask (pc_batch cf) (pc_batch cf)) false HR3) as (p' & E1 & HR'); auto.
          destruct (a_emit cf (a_set a (t ++ l) (dict_set q1 (shape e) []) (a_finished a)) l1
                       (mask (pc_batch cf) (pc_batch cf)) false) as [ob a'].
          exists (S F), p'. split; auto. intros f f0 Hf Hf0. destruct f as [|f]; [lia|]. cbn [mixed_loop].
          rewrite HF1 by lia. cbn [bind]. rewrite Er, (rl_queues HR1), Ea. cbn [bind]. rewrite El, Nat.eqb_refl. exact E1.
        * assert (Eu : a_mixed stream shape cf cycles a empty
               = a_mixed stream shape cf cycles (a_set a (t ++ l) q1 (a_finished a)) empty).
          { destruct cycles; cbn [a_mixed]; rewrite H2; cbn [absorb a_set a_queues a_items]; rewrite Ea; cbn [bind];
              (replace (List.length l1 =? pc_batch cf)%nat with false by (symmetry; apply Nat.eqb_neq; auto));
              destruct (absorb shape cf q1 (t ++ l)) as [[[q2 o2] r2]|]; reflexivity. }
          rewrite Eu. eapply same_out_step.
          -- apply (IHm (m - 1)%nat) with (p := set_queues (set_ready p1 t) q1).
             ++ rewrite H2 in Hm. cbn [List.length] in Hm. lia.
             ++ cbn [a_set a_items]. rewrite H2 in Hm. cbn [List.length] in Hm. lia.
             ++ apply (Rel_queues q1 HR2).
             ++ exact Hfin.
             ++ apply L3. auto.
          -- exists F. intros f f0 Hf0. cbn [mixed_loop]. rewrite HF1 by lia. cbn [bind].
             rewrite Er, (rl_queues HR1), Ea. cbn [bind].
             replace (List.length l1 =? pc_batch cf)%nat with false by (symmetry; apply Nat.eqb_neq; auto). reflexivity.
      + assert (Eu : a_mixed stream shape cf cycles a empty = Err er).
        { destruct cycles; cbn [a_mixed]; rewrite H2; cbn [absorb]; rewrite Ea; reflexivity. }
        rewrite Eu.
        assert (Hx : forall f f0, (S F <= f)%nat -> (S F <= f0)%nat -> mixed_loop fd shape cf f f0 p empty = Err er).
        { intros f f0 Hf Hf0. destruct f as [|f]; [lia|]. cbn [mixed_loop]. rewrite HF1 by lia. cbn [bind].
          rewrite Er, (rl_queues HR1), Ea. reflexivity. }
        destruct er; cbn [same_out]; eauto.
  Qed.

  (** One planner call refines one call of the outside view. *)
  Definition same_next (r : res (option (batch A) * astate A)) (p : planner X A) : Prop :=
    match r with
    | Ok (ob, a') => exists F p', (forall f, (F <= f)%nat -> next_batch fd shape cf f p = Ok (ob, p')) /\ Rel p' a'
    | Err OutOfFuel => True
    | Err e => exists F, forall f, (F <= f)%nat -> next_batch fd shape cf f p = Err e
    end.

  Theorem next_sim cycles p a : Rel p a -> qok shape cf (a_queues a) ->
    same_next (a_next stream shape cf cycles a) p.
  Proof.
    intros HR Hq. unfold a_next, same_next. pose proof (rl_finished HR) as Hp.
    destruct (a_finished a) eqn:Ef.
    - exists 0%nat, p. split; auto. intros f _. unfold next_batch. rewrite Hp. reflexivity.
    - pose proof (@uniform_sim) as US. pose proof (@mixed_sim) as MS.
      case_eq (pc_uniform cf); [intros code Eu|intros Eu].
      + assert (En : forall f, next_batch fd shape cf f p = uniform_loop fd shape cf f f code p [] 0).
        { intros f. unfold next_batch. rewrite Hp, Eu. reflexivity. }
        pose proof (US code Eu cycles _ p a [] 0 (le_n _) HR Ef) as H. cbn [List.length] in H.
        specialize (H ltac:(lia)). unfold same_out in H.
        destruct (a_uniform stream cf cycles a [] 0) as [[ob a']|[]]; auto.
        all: first [destruct H as (F & p' & H & HR'); exists F, p'; split; [|exact HR']; intros f Hf; rewrite En; apply H; exact Hf
                   | destruct H as (F & H); exists F; intros f Hf; rewrite En; apply H; exact Hf].
      + assert (En : forall f, next_batch fd shape cf f p = mixed_loop fd shape cf f f p 0).
        { intros f. unfold next_batch. rewrite Hp, Eu. reflexivity. }
        pose proof (MS Eu cycles _ p a 0 (le_n _) HR Ef Hq) as H. unfold same_out in H.
        destruct (a_mixed stream shape cf cycles a 0) as [[ob a']|[]]; auto.
        all: first [destruct H as (F & p' & H & HR'); exists F, p'; split; [|exact HR']; intros f Hf; rewrite En; apply H; exact Hf
                   | destruct H as (F & H); exists F; intros f Hf; rewrite En; apply H; exact Hf].
  Qed.
End Sim.
