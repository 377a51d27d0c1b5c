(** Saving a planner and restoring it: the restored planner forgets empty shape
    queues and their order, and otherwise goes on as if nothing had happened. *)
From Verif Require Import Base BaseFacts Rng CompositeSim Sequential SequentialShard SequentialFacts.
From Verif Require Import Planner PlannerObs PlannerSpec PlannerDict PlannerSim PlannerSpecFacts PlannerRun.
Set Implicit Arguments.
Unset Strict Implicit.

Lemma Ok_inj {B} (x y : B) : Ok x = Ok y -> x = y.
Proof. intros H. injection H. auto. Qed.

(** ** Sorting distinct integers *)
Inductive asc : list Z -> Prop :=
| asc_nil : asc []
| asc_cons x l : (forall y, In y l -> x < y) -> asc l -> asc (x :: l).

Lemma asc_insert x l : asc l -> ~ In x l -> asc (insert_by Z.ltb x l).
Proof.
  induction 1 as [|y l Hy Hl IH]; intros Hx; cbn [insert_by].
  - constructor; [intros ? []|constructor].
  - destruct (Z.ltb_spec y x) as [H|H].
    + constructor; [|apply IH; intros Hin; apply Hx; right; auto].
      intros z Hz. apply (Permutation_in z (Permutation_sym (insert_by_perm Z.ltb x l))) in Hz.
      destruct Hz as [<-|Hz]; auto.
    + assert (x <> y) by (intros ->; apply Hx; left; reflexivity).
      constructor; [|constructor; auto]. intros z [<-|Hz]; [lia|]. specialize (Hy z Hz). lia.
Qed.

Lemma asc_sort l : NoDup l -> asc (sort_by Z.ltb l).
Proof.
  induction 1 as [|x l Hx Hl IH]; cbn; [constructor|]. apply asc_insert; auto.
  intros Hin. apply Hx. apply (sort_by_In Z.ltb l x). exact Hin.
Qed.

Lemma asc_unique l m : asc l -> asc m -> (forall x, In x l <-> In x m) -> l = m.
Proof.
  intros Hl. revert m. induction Hl as [|x l Hx Hl IH]; intros m Hm H.
  - destruct m as [|y m]; auto. destruct (proj2 (H y) (or_introl eq_refl)).
  - destruct m as [|y m]; [destruct (proj1 (H x) (or_introl eq_refl))|].
    inversion Hm as [|? ? Hy Hm']; subst.
    assert (x = y).
    { destruct (proj1 (H x) (or_introl eq_refl)) as [E|E]; auto.
      destruct (proj2 (H y) (or_introl eq_refl)) as [E'|E']; auto.
      specialize (Hx y E'). specialize (Hy x E). lia. }
    subst y. f_equal. apply IH; auto. intros z. split; intros Hz.
    + destruct (proj1 (H z) (or_intror Hz)) as [E|E]; auto. subst z. specialize (Hx x Hz). lia.
    + destruct (proj2 (H z) (or_intror Hz)) as [E|E]; auto. subst z. specialize (Hy x Hz). lia.
Qed.

Section Sim.
  Variable A : Type.
  Variable stream : Z -> Z -> res (list A).
  Variable shape : A -> Z.
  Variable cf : pconfig.
  Hypothesis Hcf : config_ok cf.

  (** [q2] is [q1] without some empty queues, possibly reordered. *)
  Record qsim (q1 q2 : list (Z * list A)) : Prop := {
    qs_nd1 : NoDup (map fst q1);
    qs_nd2 : NoDup (map fst q2);
    qs_queue : forall t, queue q1 t = queue q2 t;
    qs_incl : incl (map fst q2) (map fst q1);
    qs_count : zlen q1 <= pc_max_queues cf
  }.

  Lemma qsim_refl q : NoDup (map fst q) -> zlen q <= pc_max_queues cf -> qsim q q.
  Proof. intros. constructor; auto. apply incl_refl. Qed.

  Lemma qsim_trans q1 q2 q3 : qsim q1 q2 -> qsim q2 q3 -> qsim q1 q3.
  Proof.
    intros [] []. constructor; auto; [congruence|eapply incl_tran; eauto].
  Qed.

  Lemma qsim_le q1 q2 : qsim q1 q2 -> zlen q2 <= zlen q1.
  Proof.
    intros [N1 N2 _ Hi _]. unfold zlen. apply NoDup_incl_length in Hi; auto. rewrite !map_length in Hi. lia.
  Qed.

  Lemma keys_set (q : list (Z * list A)) k l x : In x (map fst (dict_set q k l)) <-> x = k \/ In x (map fst q).
  Proof.
    rewrite dict_set_keys. destruct (existsb (Z.eqb k) (map fst q)) eqn:E.
    - apply existsb_key in E. split; [auto|]. intros [-> |H]; auto.
    - rewrite in_app_iff. cbn. intuition.
  Qed.

  Lemma qsim_set q1 q2 k l : qsim q1 q2 -> zlen (dict_set q1 k l) <= pc_max_queues cf ->
    qsim (dict_set q1 k l) (dict_set q2 k l).
  Proof.
    intros [N1 N2 Hq Hi Hc] Hz. constructor; auto using dict_set_NoDup.
    - intros t. rewrite !queue_set, Hq. reflexivity.
    - intros x Hx. apply keys_set in Hx. apply keys_set. destruct Hx; auto.
  Qed.

  Lemma append_sim q1 q2 e q1' l : qsim q1 q2 -> append_shape shape cf q1 e = Ok (q1', l) ->
    exists q2', append_shape shape cf q2 e = Ok (q2', l) /\ qsim q1' q2'.
  Proof.
    intros HS H. pose proof (qs_count HS) as Hc. destruct (append_shape_count H Hc) as (C1 & _ & _).
    destruct (append_shape_spec H) as (S1 & S2 & S3). pose proof (qs_queue HS (shape e)) as Hq.
    exists (dict_set q2 (shape e) l). split; [|subst q1'; apply qsim_set; auto].
    unfold append_shape. unfold queue in Hq at 2. destruct (dict_get q2 (shape e)) as [l2|] eqn:E2.
    - rewrite S1, Hq. reflexivity.
    - assert (zlen q2 < pc_max_queues cf).
      { destruct (dict_get q1 (shape e)) eqn:E1.
        - destruct HS as [N1 N2 _ Hi _]. unfold zlen in *. apply dict_get_None in E2.
          assert (Hin : In (shape e) (map fst q1)).
          { apply dict_get_In in E1. apply in_map with (f := fst) in E1. exact E1. }
          assert (Hle : (List.length (shape e :: map fst q2) <= List.length (map fst q1))%nat).
          { apply NoDup_incl_length; [constructor; auto|]. intros x [<-|Hx]; auto. }
          cbn in Hle. rewrite !map_length in Hle. lia.
        - specialize (S3 eq_refl). pose proof (qsim_le HS). lia. }
      destruct (Z.ltb_spec (zlen q2) (pc_max_queues cf)); [|lia]. rewrite S1, Hq. reflexivity.
  Qed.

  Lemma absorb_sim : forall items q1 q2 q1' full rest, qsim q1 q2 ->
    absorb shape cf q1 items = Ok (q1', full, rest) ->
    exists q2', absorb shape cf q2 items = Ok (q2', full, rest) /\ qsim q1' q2'.
  Proof.
    induction items as [|e t IH]; intros q1 q2 q1' full rest HS H; cbn [absorb] in *.
    - injection H as <- <- <-. eauto.
    - inv_bind H. destruct v as [q l]. destruct (append_sim HS Hm) as (q2' & -> & HS2). cbn [bind].
      destruct (List.length l =? pc_batch cf)%nat; [|eauto].
      injection H as <- <- <-. eexists. split; [reflexivity|]. apply qsim_set; auto.
      destruct (append_shape_count Hm (qs_count HS)) as (C1 & _ & C3).
      unfold zlen in *. rewrite dict_set_length; auto.
  Qed.

  Lemma nonempty_shapes_sim q1 q2 : qsim q1 q2 -> nonempty_shapes q1 = nonempty_shapes q2.
  Proof.
    intros [N1 N2 Hq _ _].
    assert (HN : forall q : list (Z * list A), NoDup (map fst q) -> NoDup (map fst (filter (fun kv => nonempty (snd kv)) q))).
    { intros q. induction q as [|[k l] t IH]; cbn; intros H; [constructor|]. inversion H as [|? ? H1 H2]; subst.
      destruct (nonempty l); cbn; auto. constructor; auto. intros Hin. apply H1.
      apply in_map_iff in Hin as (x & E & Hin). apply filter_In in Hin as [Hin _]. rewrite <- E. apply in_map. auto. }
    apply asc_unique.
    - apply asc_sort; auto.
    - apply asc_sort; auto.
    - intros x. rewrite !nonempty_shapes_In by auto. rewrite Hq. tauto.
  Qed.

  Lemma existsb_sim q1 q2 : qsim q1 q2 ->
    existsb (fun kv => nonempty (snd kv)) q1 = existsb (fun kv => nonempty (snd kv)) q2.
  Proof.
    intros [N1 N2 Hq _ _].
    destruct (existsb (fun kv => nonempty (snd kv)) q1) eqn:E1, (existsb (fun kv => nonempty (snd kv)) q2) eqn:E2; auto.
    - exfalso. assert (existsb (fun kv => nonempty (snd kv)) q1 = false); [|congruence].
      apply existsb_nonempty; auto. intros k. rewrite Hq. revert k. apply existsb_nonempty; auto.
    - exfalso. assert (existsb (fun kv => nonempty (snd kv)) q2 = false); [|congruence].
      apply existsb_nonempty; auto. intros k. rewrite <- Hq. revert k. apply existsb_nonempty; auto.
  Qed.

  Lemma keys_del (q : list (Z * list A)) k x : NoDup (map fst q) ->
    (In x (map fst (dict_del q k)) <-> x <> k /\ In x (map fst q)).
  Proof.
    induction q as [|[k0 l0] t IH]; cbn; [tauto|]. intros H. inversion H as [|? ? H1 H2]; subst.
    destruct (Z.eqb_spec k k0) as [E|N].
    - subst k0. split; [intros Hx; split; auto; intros ->; auto|intros [Hx [E|E]]; [congruence|auto]].
    - cbn. rewrite IH by auto. split; [intros [E|[E1 E2]]; [subst x; auto|auto]|intros [Hx [E|E]]; auto].
  Qed.

  Lemma qsim_del q1 q2 k : qsim q1 q2 -> qsim (dict_del q1 k) (dict_del q2 k).
  Proof.
    intros [N1 N2 Hq Hi Hc]. constructor; auto using dict_del_NoDup.
    - intros t. rewrite !queue_del by auto. rewrite Hq. reflexivity.
    - intros x Hx. apply keys_del in Hx; auto. apply keys_del; auto. destruct Hx. auto.
    - unfold zlen in *. destruct (dict_get q1 k) eqn:E.
      + rewrite (dict_del_length E) in Hc. lia.
      + clear -E Hc. enough (dict_del q1 k = q1) as -> by auto.
        induction q1 as [|[k0 l0] t IH]; cbn in *; auto. destruct (k =? k0); [discriminate|]. f_equal. apply IH; auto.
        unfold zlen in *. cbn in *. lia.
  Qed.

  Record asim (a a2 : astate A) : Prop := {
    as_epoch : a_epoch a = a_epoch a2;
    as_index : a_index a = a_index a2;
    as_cycle : a_cycle a = a_cycle a2;
    as_size : a_size a = a_size a2;
    as_items : a_items a = a_items a2;
    as_finished : a_finished a = a_finished a2;
    as_queues : qsim (a_queues a) (a_queues a2)
  }.

  Lemma asim_refl a : a_inv shape cf a -> asim a a.
  Proof. intros H. constructor; auto. apply qsim_refl; apply H. Qed.

  Lemma asim_trans a b c : asim a b -> asim b c -> asim a c.
  Proof.
    intros [] []. constructor; try congruence. eapply qsim_trans; eauto.
  Qed.

  Lemma emit_sim a a2 items real il : asim a a2 ->
    fst (a_emit cf a items real il) = fst (a_emit cf a2 items real il)
    /\ asim (snd (a_emit cf a items real il)) (snd (a_emit cf a2 items real il)).
  Proof.
    intros []. unfold a_emit. cbn. rewrite <- as_index0, <- as_epoch0. split; [reflexivity|].
    constructor; cbn; try congruence.
    - rewrite as_items0. reflexivity.
    - destruct (budget_last cf (a_index a)); auto. pose proof (ok_queues Hcf). apply qsim_refl; cbn; [constructor|unfold zlen; cbn; lia].
  Qed.

  Lemma set_sim a a2 items q q2 fin : asim a a2 -> qsim q q2 -> asim (a_set a items q fin) (a_set a2 items q2 fin).
  Proof. intros [] H. constructor; auto. Qed.

  Lemma next_cycle_asim a a2 e a' e' : asim a a2 -> a_next_cycle stream a e = Ok (a', e') ->
    exists a2', a_next_cycle stream a2 e = Ok (a2', e') /\ asim a' a2'.
  Proof.
    intros [] H. unfold a_next_cycle in *. rewrite as_size0, as_epoch0, as_cycle0 in H.
    apply guard_Ok in H as [-> H]. inv_bind H. injection H as <- <-. rewrite Hm. cbn [bind]. eexists. split; [reflexivity|].
    constructor; auto.
  Qed.

  Lemma mixed_stop_asim a a2 q q2 ob a' : asim a a2 -> qsim q q2 ->
    (if pc_train cf then Ok (None, a_set a [] [] true)
     else match nonempty_shapes q with
          | [] => Ok (None, a_set a [] q true)
          | code :: _ =>
              match dict_get q code with
              | None => Err KeyError
              | Some real =>
                  let q1 := dict_del q code in
                  let is_last := negb (existsb (fun kv => nonempty (snd kv)) q1) in
                  Ok (a_emit cf (a_set a [] q1 (is_last || a_finished a)) (cyclic real (pc_batch cf))
                        (mask (List.length real) (pc_batch cf)) is_last)
              end
          end) = Ok (ob, a') ->
    exists a2', (if pc_train cf then Ok (None, a_set a2 [] [] true)
     else match nonempty_shapes q2 with
          | [] => Ok (None, a_set a2 [] q2 true)
          | code :: _ =>
              match dict_get q2 code with
              | None => Err KeyError
              | Some real =>
                  let q1 := dict_del q2 code in
                  let is_last := negb (existsb (fun kv => nonempty (snd kv)) q1) in
                  Ok (a_emit cf (a_set a2 [] q1 (is_last || a_finished a2)) (cyclic real (pc_batch cf))
                        (mask (List.length real) (pc_batch cf)) is_last)
              end
          end) = Ok (ob, a2') /\ asim a' a2'.
  Proof.
    intros HS HQ H. destruct (pc_train cf).
    - injection H as <- <-. eexists. split; [reflexivity|]. apply set_sim; auto.
      pose proof (ok_queues Hcf). apply qsim_refl; cbn; [constructor|unfold zlen; cbn; lia].
    - rewrite <- (nonempty_shapes_sim HQ). destruct (nonempty_shapes q) as [|code rest] eqn:En.
      + injection H as <- <-. eexists. split; [reflexivity|]. apply set_sim; auto.
      + assert (Hne : queue q code <> []).
        { apply nonempty_shapes_In; [apply HQ|]. rewrite En. left. reflexivity. }
        pose proof (qs_queue HQ code) as Hq. unfold queue in Hq, Hne.
        destruct (dict_get q code) as [real|]; [|congruence].
        destruct (dict_get q2 code) as [real2|]; [|congruence]. subst real2.
        cbv zeta in *. rewrite <- (existsb_sim (qsim_del code HQ)), <- (as_finished HS).
        set (il := negb (existsb (fun kv => nonempty (snd kv)) (dict_del q code))) in *.
        pose proof (set_sim [] (il || a_finished a) HS (qsim_del code HQ)) as HS2.
        destruct (emit_sim (cyclic real (pc_batch cf)) (mask (List.length real) (pc_batch cf)) il HS2) as [K1 K2].
        apply Ok_inj in H. eexists. rewrite H in K1, K2. cbn [fst snd] in K1, K2.
        rewrite (surjective_pairing (a_emit cf (a_set a2 _ _ _) _ _ _)), <- K1. split; [reflexivity|exact K2].
  Qed.

  Lemma mixed_asim : forall cycles a a2 e ob a', asim a a2 ->
    a_mixed stream shape cf cycles a e = Ok (ob, a') ->
    exists a2', a_mixed stream shape cf cycles a2 e = Ok (ob, a2') /\ asim a' a2'.
  Proof.
    induction cycles as [|k IH]; intros a a2 e ob a' HS H; cbn [a_mixed] in *;
      inv_bind H; destruct v as [[q full] rest];
      destruct (absorb_sim (as_queues HS) Hm) as (q2 & E2 & HQ); rewrite <- (as_items HS), E2; cbn [bind];
      destruct full as [l|].
    1, 3: pose proof (set_sim rest (a_finished a) HS HQ) as HS2; rewrite (as_finished HS) in HS2 at 2;
      destruct (emit_sim l (mask (pc_batch cf) (pc_batch cf)) false HS2) as [K1 K2];
      (match goal with |- exists _, Ok ?x = _ /\ _ => exists (snd x) end);
      apply Ok_inj in H; rewrite (surjective_pairing (a_emit cf (a_set a2 _ _ _) _ _ _)), <- K1, H; cbn [fst snd];
      rewrite H in K2; split; [reflexivity|exact K2].
    all: rewrite <- (as_index HS).
    - destruct (may_restart cf (a_index a)); [discriminate|]. eapply mixed_stop_asim; eauto.
    - destruct (may_restart cf (a_index a)); [|eapply mixed_stop_asim; eauto].
      inv_bind H. destruct v as [a3 e3].
      assert (HS2 : asim (a_set a [] q (a_finished a)) (a_set a2 [] q2 (a_finished a2))).
      { rewrite <- (as_finished HS). apply set_sim; auto. }
      destruct (next_cycle_asim HS2 Hm0) as (a4 & -> & HS4). cbn [bind]. eauto.
  Qed.

  Hypothesis Huniform : forall code ep cy l, pc_uniform cf = Some code -> stream ep cy = Ok l ->
    Forall (fun e => shape e = code) l.

  Lemma next_asim cycles a a2 ob a' : asim a a2 -> a_inv shape cf a ->
    a_next stream shape cf cycles a = Ok (ob, a') ->
    exists a2', a_next stream shape cf cycles a2 = Ok (ob, a2') /\ asim a' a2'.
  Proof.
    intros HS HI H. pose proof H as H0. unfold a_next in H |- *. rewrite <- (as_finished HS). destruct (a_finished a) eqn:Ef.
    - injection H as <- <-. eauto.
    - pose proof (a_next_spec Hcf Huniform HI Ef H0) as [_ HI'].
      pose proof (ai_uniform HI) as HU. destruct (pc_uniform cf) eqn:Eu.
      + assert (Hq : a_queues a = []) by (apply HU; discriminate).
        assert (Hq2 : a_queues a2 = []).
        { pose proof (qsim_le (as_queues HS)) as Hle. rewrite Hq in Hle. unfold zlen in Hle. cbn in Hle.
          destruct (a_queues a2); [auto|cbn in Hle; lia]. }
        assert (a = a2) as <-.
        { destruct HS. destruct a, a2; cbn in *; congruence. }
        exists a'. split; auto. apply asim_refl; auto.
      + eapply mixed_asim; eauto.
  Qed.

  Lemma plan_asim a bs a' : a_plan stream shape cf a bs a' -> a_inv shape cf a -> forall a2, asim a a2 ->
    exists a2', a_plan stream shape cf a2 bs a2' /\ asim a' a2'.
  Proof.
    induction 1 as [a|cycles a b a1 bs a3 H1 H2 IH]; intros HI a2 HS.
    - exists a2. split; auto. constructor.
    - destruct (next_asim HS HI H1) as (a2' & E & HS').
      assert (HI1 : a_inv shape cf a1).
      { destruct (a_finished a) eqn:Ef; [destruct (a_next_finished Ef H1); discriminate|]. eapply a_next_spec; eauto. }
      destruct (IH HI1 a2' HS') as (a4 & K1 & K2). exists a4. split; auto. econstructor; eauto.
  Qed.

  (** What planner.state() keeps of the queues. *)
  Definition saved_queues (q : list (Z * list A)) : list (Z * list A) :=
    filter (fun kv => nonempty (snd kv)) (sort_by (fun a b => fst a <? fst b) q).

  Lemma saved_In q kv : In kv (saved_queues q) <-> In kv q /\ nonempty (snd kv) = true.
  Proof. unfold saved_queues. rewrite filter_In, sort_by_In. tauto. Qed.

  Lemma saved_NoDup q : NoDup (map fst q) -> NoDup (map fst (saved_queues q)).
  Proof.
    intros H. unfold saved_queues.
    assert (HN : NoDup (map fst (sort_by (fun a b => fst a <? fst b) q))).
    { eapply Permutation_NoDup; [|exact H]. apply Permutation_map. apply sort_by_perm. }
    revert HN. generalize (sort_by (fun a b => fst a <? fst b) q) as l. clear.
    induction l as [|[k v] t IH]; cbn; intros H; [constructor|]. inversion H as [|? ? H1 H2]; subst.
    destruct (nonempty v); cbn; auto. constructor; auto. intros Hin. apply H1.
    apply in_map_iff in Hin as (x & E & Hin). apply filter_In in Hin as [Hin _]. rewrite <- E. apply in_map. auto.
  Qed.

  Lemma saved_sim q : NoDup (map fst q) -> zlen q <= pc_max_queues cf -> qsim q (saved_queues q).
  Proof.
    intros HN Hz. pose proof (saved_NoDup HN) as HN2. constructor; auto.
    - intros t. unfold queue. destruct (dict_get (saved_queues q) t) as [l|] eqn:E.
      + apply dict_get_In in E. apply saved_In in E as [E _]. rewrite (dict_In_get HN E). reflexivity.
      + destruct (dict_get q t) as [l|] eqn:E2; auto. destruct l as [|x l]; auto. exfalso.
        apply dict_get_None in E. apply E. apply in_map_iff. exists (t, x :: l). split; auto.
        apply saved_In. split; auto. apply dict_get_In; auto.
    - intros x Hx. apply in_map_iff in Hx as (kv & E & Hx). apply saved_In in Hx as [Hx _]. rewrite <- E. apply in_map; auto.
  Qed.

  Definition clean (a : astate A) : astate A :=
    a_set a (a_items a) (saved_queues (a_queues a)) (a_finished a).

  Lemma clean_sim a : a_inv shape cf a -> asim a (clean a).
  Proof. intros HI. constructor; auto. apply saved_sim; apply HI. Qed.

  Lemma asim_inv a a2 : asim a a2 -> qok shape cf (a_queues a2) -> a_inv shape cf a -> a_inv shape cf a2.
  Proof.
    intros [] Hq []. constructor; auto; try congruence.
    - pose proof (qsim_le as_queues0). lia.
    - rewrite <- as_finished0, <- as_items0. intros H. destruct (ai_finished H) as [F1 F2]. split; auto.
      intros t. rewrite <- (qs_queue as_queues0). auto.
    - intros s Hs. rewrite <- as_index0, <- as_finished0. auto.
    - intros H. pose proof (qsim_le as_queues0) as Hle. rewrite (ai_uniform H) in Hle. unfold zlen in Hle. cbn in Hle.
      destruct (a_queues a2); [auto|cbn in Hle; lia].
    - intros code Hu. rewrite <- as_items0. auto.
  Qed.

  Lemma clean_inv a : a_inv shape cf a -> a_inv shape cf (clean a).
  Proof.
    intros HI. eapply asim_inv; [apply clean_sim; auto| |auto]. cbn.
    pose proof (ai_queues HI) as [N1 N2]. split; [apply saved_NoDup; auto|].
    intros k l E. apply dict_get_In, saved_In in E as [E _]. apply (N2 k l). apply dict_In_get; auto.
  Qed.
End Sim.

Section Reload.
  Variables X A T : Type.
  Variable fd : feed X A T.
  Variable stream : Z -> Z -> res (list A).
  Variable R : Z -> Z -> status -> nat -> X -> list A -> Prop.
  Variable shape : A -> Z.
  Variable cf : pconfig.
  Hypothesis HF : feeds fd stream R.
  Hypothesis HS : resumes fd R.
  Hypothesis Hcf : config_ok cf.
  Hypothesis Huniform : forall code ep cy l, pc_uniform cf = Some code -> stream ep cy = Ok l ->
    Forall (fun e => shape e = code) l.
  Hypothesis Hfuel : forall ep cy, 0 <= ep -> 0 <= cy -> stream ep cy <> Err OutOfFuel.

  Notation Rel := (Rel stream R).

  Lemma has_dup_false l : NoDup l -> has_dup l = false.
  Proof.
    induction 1 as [|x l Hx Hl IH]; cbn; auto. rewrite IH, orb_false_r.
    destruct (existsb (Z.eqb x) l) eqn:E; auto. exfalso. apply Hx. apply existsb_key. exact E.
  Qed.

  Lemma zlist_eqb_refl l : zlist_eqb l l = true.
  Proof. apply zlist_eqb_eq. reflexivity. Qed.

  (** Saving and loading a planner. *)
  Theorem reload_sim p a l0 : Rel p a -> a_inv shape cf a -> stream (a_epoch a) 0 = Ok l0 ->
    exists s p', planner_state fd cf p = Ok s /\ planner_restore fd shape cf s = Ok p' /\ Rel p' (clean a).
  Proof.
    intros HR HI H0. destruct (rl_feed HR) as (st & n & l & F1 & F2 & F3 & F4 & F5 & F6).
    destruct (HS F1) as (sv & x' & m & V1 & V2 & V3 & V4).
    unfold planner_state. rewrite V1. cbn [bind]. eexists. 
    pose proof (ai_pos HI) as [P1 P2].
    assert (Hs0 : exists p0, start_epoch fd (a_epoch a) = Ok p0).
    { pose proof (start_sim HF (a_epoch a)) as Hst. unfold a_start in Hst.
      replace (0 <=? a_epoch a) with true in Hst by lia. rewrite H0 in Hst. cbn [bind] in Hst.
      destruct Hst as (p0 & E & _). eauto. }
    destruct Hs0 as (p0 & Hs0).
    pose proof (ai_queues HI) as [N1 N2].
    fold (saved_queues (pl_queues p)). rewrite (rl_queues HR).
    pose proof (saved_NoDup N1) as N3.
    exists {| pl_epoch := a_epoch a; pl_index := a_index a; pl_cycle := a_cycle a; pl_x := x';
          pl_ready := pl_ready p; pl_queues := saved_queues (a_queues a); pl_exhausted := pl_exhausted p;
          pl_finished := a_finished a |}.
    split; [reflexivity|]. split.
    - unfold planner_restore. cbn [ps_contract ps_epoch ps_index ps_cycle ps_feed ps_ready ps_queues ps_exhausted ps_finished].
      rewrite zlist_eqb_refl, (rl_index HR), (rl_epoch HR), (rl_cycle HR), (rl_finished HR).
      pose proof (ai_index HI) as HI1. replace (0 <=? a_index a) with true by lia.
      assert (B1 : match pc_steps cf with None => true | Some k => a_index a <=? k end = true).
      { destruct (pc_steps cf) as [s|] eqn:E; auto. destruct (ai_budget HI E). lia. }
      rewrite B1.
      assert (B2 : match pc_steps cf with
          | None => true
          | Some k => negb ((a_index a =? k) && negb (a_finished a)) end = true).
      { destruct (pc_steps cf) as [s|] eqn:E; auto. destruct (ai_budget HI E) as [_ B2].
        destruct (a_finished a); cbn; [rewrite andb_false_r; reflexivity|]. specialize (B2 eq_refl).
        destruct (Z.eqb_spec (a_index a) s); [lia|reflexivity]. }
      rewrite B2, V2, F3, eqb_reflx.
      assert (B3 : negb (a_finished a && (negb (negb (is_open st)) || nonempty (pl_ready p)
             || nonempty (saved_queues (a_queues a)))) = true).
      { destruct (a_finished a) eqn:Ef; auto. destruct (F6 eq_refl) as [E1 E2]. rewrite E2.
        destruct (ai_finished HI Ef) as [_ E3].
        assert (saved_queues (a_queues a) = []) as ->.
        { destruct (saved_queues (a_queues a)) as [|[k v] t] eqn:Es; auto. exfalso.
          assert (Hin : In (k, v) (saved_queues (a_queues a))) by (rewrite Es; left; reflexivity).
          apply saved_In in Hin as [Hin Hne]. specialize (E3 k). unfold queue in E3.
          rewrite (dict_In_get N1 Hin) in E3. subst v. discriminate. }
        destruct st; cbn; congruence. }
      rewrite B3.
      assert (B4 : (zlen (saved_queues (a_queues a)) <=? pc_max_queues cf) = true).
      { pose proof (qsim_le (saved_sim N1 (ai_count HI))). pose proof (ai_count HI). lia. }
      rewrite B4, has_dup_false by auto. cbn [negb].
      assert (B5 : forallb (fun kv => nonempty (snd kv) && (List.length (snd kv) <? pc_batch cf)%nat)
            (saved_queues (a_queues a)) = true).
      { apply forallb_forall. intros [k v] Hin. apply saved_In in Hin as [Hin Hne]. cbn in *. rewrite Hne.
        apply Nat.ltb_lt. apply (N2 k v). apply dict_In_get; auto. }
      assert (B6 : forallb (fun kv => forallb (fun e => shape e =? fst kv) (snd kv)) (saved_queues (a_queues a)) = true).
      { apply forallb_forall. intros [k v] Hin. apply saved_In in Hin as [Hin Hne]. cbn in *.
        apply forallb_forall. intros e He. apply Z.eqb_eq.
        destruct (N2 k v) as [_ N4]; [apply dict_In_get; auto|]. rewrite Forall_forall in N4. auto. }
      rewrite B5, B6, Hs0. cbn [bind]. replace (0 <=? a_cycle a) with true by lia. rewrite V3. cbn [bind].
      reflexivity.
    - destruct HR. constructor; cbn; auto. exists st, m, l. conj; auto.
  Qed.

  (** A run that is saved and loaded in a new planner after each segment. *)
  Inductive interrupted : planner X A -> list (list (batch A)) -> planner X A -> Prop :=
  | int_nil p : interrupted p [] p
  | int_cons p seg p1 s p2 segs p3 :
      plan fd shape cf p seg p1 -> planner_state fd cf p1 = Ok s -> planner_restore fd shape cf s = Ok p2 ->
      interrupted p2 segs p3 -> interrupted p (seg :: segs) p3.

  Lemma a_plan_split a bs1 bs2 a' : a_plan stream shape cf a (bs1 ++ bs2) a' ->
    exists a1, a_plan stream shape cf a bs1 a1 /\ a_plan stream shape cf a1 bs2 a'.
  Proof.
    revert a. induction bs1 as [|b bs1 IH]; intros a H; cbn [app] in H.
    - exists a. split; [constructor|auto].
    - inversion H; subst. destruct (IH _ H5) as (a2 & K1 & K2). exists a2. split; auto. econstructor; eauto.
  Qed.

  Lemma a_plan_epoch a bs a' : a_plan stream shape cf a bs a' -> a_inv shape cf a -> a_epoch a' = a_epoch a.
  Proof.
    induction 1 as [a|cycles a b a1 bs a3 H1 H2 IH]; intros HI; auto.
    destruct (a_finished a) eqn:Ef; [destruct (a_next_finished Ef H1); discriminate|].
    destruct (a_next_spec Hcf Huniform HI Ef H1) as [HC HI1]. rewrite IH by auto.
    destruct HC as (E & q' & rest & G1 & G2 & G3 & G4 & _). exact G4.
  Qed.

  Lemma interrupted_sim : forall segs a a' a2 p l0,
    a_plan stream shape cf a (List.concat segs) a' -> a_inv shape cf a -> asim cf a a2 -> a_inv shape cf a2 -> Rel p a2 ->
    stream (a_epoch a) 0 = Ok l0 ->
    exists p' a2', interrupted p segs p' /\ Rel p' a2' /\ asim cf a' a2' /\ a_inv shape cf a2'.
  Proof.
    induction segs as [|seg segs IH]; intros a a' a2 p l0 H HI Hsim HI2 HR H0; cbn [List.concat] in H.
    - inversion H; subst. exists p, a2. conj; auto. constructor.
    - destruct (a_plan_split H) as (a1 & K1 & K2).
      destruct (plan_asim Hcf Huniform K1 HI Hsim) as (a21 & L1 & L2).
      destruct (plan_forth HF Hcf Huniform L1 HR HI2) as (p1 & M1 & M2).
      pose proof (a_plan_inv Hcf Huniform HI K1) as HI1. pose proof (a_plan_inv Hcf Huniform HI2 L1) as HI21.
      pose proof (a_plan_epoch K1 HI) as Ee.
      assert (H01 : stream (a_epoch a21) 0 = Ok l0) by (rewrite <- (as_epoch L2), Ee; exact H0).
      destruct (reload_sim M2 HI21 H01) as (s & p2 & S1 & S2 & S3).
      destruct (IH a1 a' (clean a21) p2 l0 K2 HI1) as (p' & a2' & J1 & J2 & J3 & J4); auto.
      + eapply asim_trans; [exact L2|apply clean_sim with (shape := shape); auto].
      + apply clean_inv; auto.
      + rewrite Ee. exact H0.
      + exists p', a2'. conj; auto. econstructor; eauto.
  Qed.

  Theorem interrupted_run ep p0 segs p : start_epoch fd ep = Ok p0 ->
    plan fd shape cf p0 (List.concat segs) p ->
    exists p', interrupted p0 segs p' /\ (at_end fd shape cf p -> at_end fd shape cf p').
  Proof.
    intros Hst Hpl. pose proof (start_sim HF ep) as Hs. destruct (a_start stream ep) as [a|e] eqn:Ea; [|congruence].
    destruct Hs as (p0' & E & HR). assert (p0' = p0) as -> by congruence.
    pose proof (a_start_inv Hcf Huniform Ea) as HI.
    destruct (plan_back HF Hcf Huniform Hfuel Hpl HR HI) as (a' & K1 & K2 & K3).
    assert (H0 : exists l0, stream (a_epoch a) 0 = Ok l0).
    { unfold a_start in Ea. apply guard_Ok in Ea as [_ Ea]. inv_bind Ea. injection Ea as <-. cbn. eauto. }
    destruct H0 as (l0 & H0).
    destruct (interrupted_sim K1 HI (asim_refl HI) HI HR H0) as (p' & a2' & J1 & J2 & J3 & J4).
    exists p'. split; auto. intros (fuel & pe & He).
    destruct (next_back HF Hcf Huniform Hfuel K2 K3 He) as (cycles & a1 & E1 & _).
    destruct (next_asim Hcf Huniform J3 K3 E1) as (a2'' & E2 & _).
    pose proof (next_run HF Hcf Huniform cycles J2 J4) as Hn. rewrite E2 in Hn. destruct Hn as (F & p'' & Hn & _).
    exists F, p''. apply Hn. lia.
  Qed.
End Reload.
