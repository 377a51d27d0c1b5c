(** Facts about the outside view of the planner (PlannerSpec.v): what one call
    consumes and emits, and what an epoch consumes and emits. *)
From Verif Require Import Base BaseFacts Rng CompositeSim Sequential SequentialShard SequentialFacts.
From Verif Require Import Planner PlannerSpec PlannerDict PlannerSim PlannerObs.
Set Implicit Arguments.
Unset Strict Implicit.

Section Facts.
  Variable A : Type.
  Variable stream : Z -> Z -> res (list A).
  Variable shape : A -> Z.
  Variable cf : pconfig.
  Hypothesis Hcf : config_ok cf.
  Hypothesis Huniform : forall code ep cy l, pc_uniform cf = Some code -> stream ep cy = Ok l ->
    Forall (fun e => shape e = code) l.

  Let Hb : (0 < pc_batch cf)%nat := ok_batch Hcf.

  Notation of_shape := (of_shape shape).
  Notation eats := (eats stream).

  Lemma eats_trans ep p E1 p1 E2 p2 : eats ep p E1 p1 -> eats ep p1 E2 p2 -> eats ep p (E1 ++ E2) p2.
  Proof. clear Hb Hcf Huniform.
    intros H. revert E2 p2. induction H as [cy items E rest H|cy items l E p1 Hs H IH]; intros E2 p2 H2.
    - subst items. inversion H2; subst.
      + constructor. apply app_assoc.
      + rewrite app_assoc. econstructor; eauto.
    - rewrite <- app_assoc. econstructor; eauto.
  Qed.

  Lemma eats_mono ep p E p1 : eats ep p E p1 -> fst p <= fst p1.
  Proof. clear Hb Hcf Huniform. induction 1; cbn in *; lia. Qed.

  Lemma eats_same ep cy items E rest : eats ep (cy, items) E (cy, rest) -> items = E ++ rest.
  Proof. clear Hb Hcf Huniform.
    intros H. inversion H as [|? ? l E' ? Hs H']; subst; auto. apply eats_mono in H'. cbn in H'. lia.
  Qed.

  Lemma eats_shape code ep p E p1 : pc_uniform cf = Some code -> eats ep p E p1 ->
    Forall (fun e => shape e = code) (snd p) -> Forall (fun e => shape e = code) (snd p1).
  Proof.
    intros Hu H. induction H as [cy items E rest H|cy items l E p1 Hs H IH]; cbn in *; intros HF.
    - subst items. apply Forall_app in HF. tauto.
    - apply IH. eapply Huniform; eauto.
  Qed.

  (** ** Masks *)
  Lemma mask_length n b : (n <= b)%nat -> List.length (mask n b) = b.
  Proof. clear Hb Hcf Huniform stream. intros H. unfold mask. rewrite app_length, !repeat_length. lia. Qed.

  Lemma reals_mask (items : list A) n b : (n <= b)%nat -> List.length items = b ->
    reals items (mask n b) = firstn n items.
  Proof. clear Hb Hcf Huniform stream.    unfold reals, mask. revert n b. induction items as [|x t IH]; intros n b Hn Hl.
    - rewrite firstn_nil. reflexivity.
    - cbn in Hl. destruct b as [|b]; [lia|]. destruct n as [|n].
      + cbn [repeat app Nat.sub combine filter map firstn]. specialize (IH 0%nat b).
        cbn [repeat app firstn] in IH. rewrite Nat.sub_0_r in IH. apply IH; lia.
      + cbn [repeat app Nat.sub combine filter map firstn snd fst]. f_equal. apply IH; lia.
  Qed.

  Lemma reals_cyclic (real : list A) b : real <> [] -> (List.length real <= b)%nat ->
    reals (cyclic real b) (mask (List.length real) b) = real.
  Proof. clear Hb Hcf Huniform stream.    intros Hr Hl. rewrite reals_mask; auto; [|apply cyclic_length; auto].
    apply cyclic_firstn; auto.
  Qed.

  Lemma reals_full (items : list A) : reals items (mask (List.length items) (List.length items)) = items.
  Proof. clear Hb Hcf Huniform stream. rewrite reals_mask by auto. apply firstn_all. Qed.

  (** ** Filtering by shape *)
  Lemma of_shape_all s l : Forall (fun e => shape e = s) l -> forall t, of_shape t l = if t =? s then l else [].
  Proof. clear Hb Hcf Huniform stream.    intros H t. unfold PlannerObs.of_shape. induction H as [|x l Hx H IH]; cbn; [destruct (t =? s); reflexivity|].
    rewrite IH, Hx. destruct (Z.eqb_spec s t) as [->|N].
    - rewrite Z.eqb_refl. reflexivity.
    - destruct (Z.eqb_spec t s); congruence.
  Qed.

  Lemma of_shape_app t l m : of_shape t (l ++ m) = of_shape t l ++ of_shape t m.
  Proof. clear Hb Hcf Huniform stream. apply filter_app. Qed.

  (** What one successful call does. *)
  Definition good_batch (b : batch A) : Prop :=
    exists n s, (0 < n <= pc_batch cf)%nat /\ (pc_train cf = true -> n = pc_batch cf)
      /\ b_real b = mask n (pc_batch cf)
      /\ List.length (b_items b) = pc_batch cf
      /\ b_items b = cyclic (firstn n (b_items b)) (pc_batch cf)
      /\ Forall (fun e => shape e = s) (b_items b).

  Definition out_reals (ob : option (batch A)) : list A :=
    match ob with Some b => reals (b_items b) (b_real b) | None => [] end.

  Definition call_gen (pre : Z -> list A) (a : astate A) (ob : option (batch A)) (a' : astate A) : Prop :=
    exists E q' rest,
      eats (a_epoch a) (a_cycle a, a_items a) E (a_cycle a', rest)
      /\ (forall t, pre t ++ of_shape t E = of_shape t (out_reals ob) ++ queue q' t)
      /\ qok shape cf q'
      /\ a_epoch a' = a_epoch a
      /\ (pc_sharded cf = false -> a_cycle a' = a_cycle a)
      /\ (a_finished a' = false -> a_items a' = rest /\ a_queues a' = q')
      /\ (a_finished a' = true -> a_items a' = [])
      /\ match ob with
         | Some b =>
             b_epoch b = a_epoch a /\ b_index b = a_index a /\ a_index a' = a_index a + 1
             /\ good_batch b
             /\ b_last b = a_finished a'
             /\ (a_finished a' = budget_last cf (a_index a)
                 \/ pc_train cf = false /\ a_finished a' = true /\ rest = [] /\ forall t, queue q' t = [])
         | None =>
             a_finished a' = true /\ a_index a' = a_index a /\ rest = []
             /\ may_restart cf (a_index a) = false
             /\ (pc_train cf = false -> forall t, queue q' t = [])
         end.

  Definition call_spec (a : astate A) := call_gen (queue (a_queues a)) a.

  Record a_inv (a : astate A) : Prop := {
    ai_queues : qok shape cf (a_queues a);
    ai_count : zlen (a_queues a) <= pc_max_queues cf;
    ai_index : 0 <= a_index a;
    ai_finished : a_finished a = true -> a_items a = [] /\ forall t, queue (a_queues a) t = [];
    ai_budget : forall s, pc_steps cf = Some s -> a_index a <= s /\ (a_finished a = false -> a_index a < s);
    ai_uniform : pc_uniform cf <> None -> a_queues a = [];
    ai_shape : forall code, pc_uniform cf = Some code -> Forall (fun e => shape e = code) (a_items a);
    ai_pos : 0 <= a_epoch a /\ 0 <= a_cycle a
  }.

  Lemma a_start_inv ep a : a_start stream ep = Ok a -> a_inv a.
  Proof.
    unfold a_start. intros H. apply guard_Ok in H as [H1 H]. inv_bind H. injection H as <-.
    constructor; cbn; auto; try lia.
    - apply qok_nil; auto.
    - pose proof (ok_queues Hcf). unfold zlen. cbn. lia.
    - intros s Hs. pose proof (ok_steps Hcf Hs). lia.
    - intros code Hu. eapply Huniform; eauto.
  Qed.

  Lemma queue_nil t : queue ([] : list (Z * list A)) t = [].
  Proof. reflexivity. Qed.

  Lemma cyclic_self (l : list A) : List.length l = pc_batch cf -> l = cyclic (firstn (pc_batch cf) l) (pc_batch cf).
  Proof. clear Hb Hcf Huniform stream. intros H. rewrite <- H, firstn_all. symmetry. apply cyclic_all. Qed.

  Lemma good_full (b : batch A) s : List.length (b_items b) = pc_batch cf ->
    b_real b = mask (pc_batch cf) (pc_batch cf) -> Forall (fun e => shape e = s) (b_items b) -> good_batch b.
  Proof.
    intros H1 H2 H3. exists (pc_batch cf), s. conj; auto; try lia. apply cyclic_self; auto.
  Qed.

  Lemma cyclic_Forall (P : A -> Prop) real n : Forall P real -> Forall P (cyclic real n).
  Proof. clear Hb Hcf Huniform stream.    intros H. apply Forall_forall. intros x Hx. unfold cyclic in Hx. apply in_flat_map in Hx as (i & _ & Hx).
    destruct (nth_error real (i mod List.length real)) eqn:E; [|contradiction].
    destruct Hx as [<-|[]]. apply nth_error_In in E. rewrite Forall_forall in H. auto.
  Qed.

  Lemma good_partial (b : batch A) real s : real <> [] -> (List.length real <= pc_batch cf)%nat ->
    pc_train cf = false -> b_items b = cyclic real (pc_batch cf) ->
    b_real b = mask (List.length real) (pc_batch cf) -> Forall (fun e => shape e = s) real -> good_batch b.
  Proof.
    intros H0 H1 H2 H3 H4 H5. exists (List.length real), s. conj; auto; try congruence.
    - destruct real; [congruence|cbn; lia].
    - rewrite H3. apply cyclic_length; auto.
    - rewrite H3 at 1. f_equal. rewrite H3. symmetry. apply cyclic_firstn; auto.
    - rewrite H3. apply cyclic_Forall; auto.
  Qed.

  Lemma may_restart_sharded_false i : pc_sharded cf = false -> may_restart cf i = false.
  Proof. intros H. unfold may_restart. rewrite H. reflexivity. Qed.

  (** Going on with the next cycle after consuming all items of this one. *)
  Lemma call_gen_next pre pre' a a2 l ob a' :
    stream (a_epoch a) (a_cycle a + 1) = Ok l ->
    a_epoch a2 = a_epoch a -> a_cycle a2 = a_cycle a + 1 -> a_items a2 = l -> a_index a2 = a_index a ->
    may_restart cf (a_index a) = true ->
    (forall t, pre' t = pre t ++ of_shape t (a_items a)) ->
    call_gen pre' a2 ob a' -> call_gen pre a ob a'.
  Proof.
    intros Hs E1 E2 E3 E4 Hm Hpre (E & q' & rest & H1 & H2 & H3 & H4 & H5 & H6 & H6' & H7).
    rewrite E1, E2, E3 in H1. rewrite E1 in H4. rewrite E4 in H7.
    assert (Hsh : pc_sharded cf = true).
    { unfold may_restart in Hm. apply andb_true_iff in Hm. tauto. }
    exists (a_items a ++ E), q', rest. conj; auto.
    - econstructor; eauto.
    - intros t. rewrite of_shape_app, app_assoc, <- Hpre. apply H2.
    - congruence.
    - destruct ob; rewrite ?E1 in H7; exact H7.
  Qed.

  Definition code_queue (code : Z) (acc : list A) : list (Z * list A) := [(code, acc)].

  Lemma code_queue_qok code acc : (List.length acc < pc_batch cf)%nat ->
    Forall (fun e => shape e = code) acc -> qok shape cf (code_queue code acc).
  Proof.
    intros H1 H2. split; [repeat constructor; auto|]. intros k l. cbn.
    destruct (Z.eqb_spec k code) as [->|]; [|discriminate]. intros E. injection E as <-. auto.
  Qed.

  Lemma code_queue_get code acc t : Forall (fun e => shape e = code) acc ->
    queue (code_queue code acc) t = of_shape t acc.
  Proof.
    intros H. rewrite (of_shape_all H). unfold queue, code_queue. cbn. destruct (t =? code); reflexivity.
  Qed.

  Lemma nonempty_false {B} (l : list B) : nonempty l = false -> l = [].
  Proof. clear Hb Hcf Huniform stream. destruct l; [auto|discriminate]. Qed.

  Lemma uniform_stop code a acc ob a' :
    a_finished a = false -> a_queues a = [] ->
    Forall (fun e => shape e = code) acc -> Forall (fun e => shape e = code) (a_items a) ->
    (List.length (acc ++ a_items a) < pc_batch cf)%nat -> may_restart cf (a_index a) = false ->
    (if pc_train cf || negb (nonempty (acc ++ a_items a))
     then Ok (None, a_set (a_set a [] (a_queues a) (a_finished a)) [] (a_queues a) true)
     else Ok (a_emit cf (a_set (a_set a [] (a_queues a) (a_finished a)) [] (a_queues a) true)
                (cyclic (acc ++ a_items a) (pc_batch cf))
                (mask (List.length (acc ++ a_items a)) (pc_batch cf)) true)) = Ok (ob, a') ->
    call_gen (fun t => of_shape t acc) a ob a' /\ a_queues a' = [].
  Proof.
    intros Hf Hq Ha Hi Hl Hm H.
    assert (Hall : Forall (fun e => shape e = code) (acc ++ a_items a)) by (apply Forall_app; auto).
    destruct (pc_train cf || negb (nonempty (acc ++ a_items a))) eqn:Et.
    - injection H as <- <-. split; [|exact Hq]. exists (a_items a), (code_queue code (acc ++ a_items a)), [].
      cbn. conj; auto.
      + constructor. symmetry. apply app_nil_r.
      + intros t. rewrite code_queue_get by auto. symmetry. apply of_shape_app.
      + apply code_queue_qok; auto.
      + discriminate.
      + intros Htr t. rewrite code_queue_get by auto. rewrite Htr in Et. cbn in Et.
        apply negb_true_iff, nonempty_false in Et. rewrite Et. reflexivity.
    - apply orb_false_iff in Et as [Etr Ene].
      assert (Hne : acc ++ a_items a <> []) by (intros E; rewrite E in Ene; discriminate).
      injection H as <- <-. split; [|cbn; rewrite Hq; destruct (budget_last cf (a_index a)); reflexivity].
      exists (a_items a), [], []. cbn. conj; auto; try discriminate.
      + constructor. symmetry. apply app_nil_r.
      + intros t. rewrite app_nil_r, reals_cyclic by (auto; lia). symmetry. apply of_shape_app.
      + apply qok_nil; auto.
      + destruct (budget_last cf (a_index a)); auto.
      + eapply good_partial with (real := acc ++ a_items a); cbn; eauto. lia.
  Qed.

  Lemma a_uniform_spec code : pc_uniform cf = Some code -> forall cycles a acc empty ob a',
    a_finished a = false -> a_queues a = [] ->
    Forall (fun e => shape e = code) acc -> Forall (fun e => shape e = code) (a_items a) ->
    (List.length acc < pc_batch cf)%nat ->
    a_uniform stream cf cycles a acc empty = Ok (ob, a') ->
    call_gen (fun t => of_shape t acc) a ob a' /\ a_queues a' = [].
  Proof.
    intros Hu. induction cycles as [|k IH]; intros a acc empty ob a' Hf Hq Ha Hi Hl H; cbn [a_uniform] in H.
    all: destruct (Nat.leb_spec (pc_batch cf - List.length acc) (List.length (a_items a))) as [Hn|Hn].
    1, 3:
      injection H as <- <-; unfold a_emit; cbn;
      remember (pc_batch cf - List.length acc)%nat as need eqn:Eneed;
      assert (Hlen : List.length (acc ++ firstn need (a_items a)) = pc_batch cf)
        by (rewrite app_length, firstn_length_le; lia);
      assert (Hsh : Forall (fun e => shape e = code) (acc ++ firstn need (a_items a)))
        by (apply Forall_app; split; auto; apply Forall_forall; intros x Hx; apply in_firstn in Hx;
            rewrite Forall_forall in Hi; auto);
      (split; [|rewrite Hq; destruct (budget_last cf (a_index a)); reflexivity]);
      exists (firstn need (a_items a)), [], (skipn need (a_items a)); cbn; conj; auto;
      [ constructor; symmetry; apply firstn_skipn
      | intros t; rewrite app_nil_r, <- of_shape_app; rewrite <- Hlen, reals_full; reflexivity
      | apply qok_nil; auto
      | rewrite Hf; cbn; intros E; rewrite E; auto
      | rewrite Hf; cbn; intros E; rewrite E; auto
      | eapply good_full; cbn; eauto
      | rewrite Hf; reflexivity
      | left; rewrite Hf; reflexivity ].
    - destruct (may_restart cf (a_index a)) eqn:Em; [discriminate|].
      cbn [a_set a_queues a_items a_index a_cycle a_size a_epoch a_finished] in H.
      eapply uniform_stop; eauto. rewrite app_length. lia.
    - destruct (may_restart cf (a_index a)) eqn:Em.
      + inv_bind H. destruct v as [a2 empty1]. unfold a_next_cycle in Hm. apply guard_Ok in Hm as [_ Hm]. inv_bind Hm.
        injection Hm as <- <-. cbn in Hm0.
        apply IH in H; cbn; auto; [|apply Forall_app; auto|eapply Huniform; eauto|rewrite app_length; lia].
        destruct H as [G1 G2].
        split; auto. eapply call_gen_next; [exact Hm0|..|exact G1]; auto.
        intros t. apply of_shape_app.
      + cbn [a_set a_queues a_items a_index a_cycle a_size a_epoch a_finished] in H.
        eapply uniform_stop; eauto. rewrite app_length. lia.
  Qed.

  (** ** Mixed shapes *)
  Lemma absorb_spec : forall items q q' full rest, qok shape cf q ->
    absorb shape cf q items = Ok (q', full, rest) ->
    exists E, items = E ++ rest /\ qok shape cf q'
      /\ (full = None -> rest = [])
      /\ (forall t, queue q t ++ of_shape t E
            = of_shape t (match full with Some l => l | None => [] end) ++ queue q' t)
      /\ (forall l, full = Some l -> List.length l = pc_batch cf /\ exists s, Forall (fun e => shape e = s) l).
  Proof.
    induction items as [|e t IH]; intros q q' full rest Hq H; cbn [absorb] in H.
    - injection H as <- <- <-. exists []. conj; auto; try discriminate. intros u. unfold PlannerObs.of_shape. cbn. apply app_nil_r.
    - inv_bind H. destruct v as [q1 l]. destruct (append_shape_qok Hq Hb Hm) as (L1 & L2 & L3 & L4).
      destruct (append_shape_spec Hm) as (S1 & S2 & _).
      assert (Hone : forall u, queue q u ++ of_shape u [e] = if u =? shape e then l else queue q u).
      { intros u. unfold PlannerObs.of_shape. cbn. rewrite Z.eqb_sym. destruct (Z.eqb_spec u (shape e)) as [->|N].
        - symmetry. exact S1.
        - apply app_nil_r. }
      destruct (Nat.eqb_spec (List.length l) (pc_batch cf)) as [El|El].
      + injection H as <- <- <-. exists [e]. conj; auto; try discriminate.
        * intros u. rewrite Hone, queue_set. rewrite (of_shape_all L2). rewrite S2, queue_set.
          destruct (u =? shape e); [rewrite app_nil_r; reflexivity|reflexivity].
        * intros l0 E. injection E as <-. split; eauto.
      + destruct (IH _ _ _ _ (L3 El) H) as (E & G1 & G2 & G3 & G4 & G5). exists (e :: E). conj; auto.
        * cbn. congruence.
        * intros u. change (e :: E) with ([e] ++ E). rewrite of_shape_app, app_assoc, Hone.
          rewrite <- G4. f_equal. rewrite S2, queue_set. reflexivity.
  Qed.

  Fixpoint total (q : list (Z * list A)) : nat :=
    match q with [] => 0%nat | (_, l) :: t => (List.length l + total t)%nat end.

  Lemma queue_le_total q k : (List.length (queue q k) <= total q)%nat.
  Proof. clear Hb Hcf Huniform stream.    unfold queue. induction q as [|[k0 l0] t IH]; cbn; [lia|]. destruct (k =? k0); lia.
  Qed.

  Lemma total_set q k l : total (dict_set q k l) = (total q + List.length l - List.length (queue q k))%nat.
  Proof. clear Hb Hcf Huniform stream.    unfold queue. induction q as [|[k0 l0] t IH]; cbn; [lia|]. destruct (Z.eqb_spec k k0) as [->|]; cbn; [lia|].
    rewrite IH. pose proof (queue_le_total t k) as H. unfold queue in H. lia.
  Qed.

  Lemma append_shape_count q e q1 l : append_shape shape cf q e = Ok (q1, l) ->
    zlen q <= pc_max_queues cf ->
    zlen q1 <= pc_max_queues cf /\ total q1 = S (total q) /\ dict_get q1 (shape e) <> None.
  Proof. clear Hb Hcf Huniform stream.    intros H Hz. destruct (append_shape_spec H) as (S1 & S2 & S3). subst q1. conj.
    - unfold zlen in *. destruct (dict_get q (shape e)) eqn:Eg.
      + rewrite dict_set_length; congruence.
      + rewrite dict_set_length_new by auto. specialize (S3 eq_refl). lia.
    - rewrite total_set. subst l. rewrite app_length. cbn. pose proof (queue_le_total q (shape e)). lia.
    - rewrite dict_get_set, Z.eqb_refl. discriminate.
  Qed.

  Lemma absorb_count : forall items q q' full rest, zlen q <= pc_max_queues cf ->
    absorb shape cf q items = Ok (q', full, rest) ->
    zlen q' <= pc_max_queues cf /\ (full = None -> total q' = (total q + List.length items)%nat).
  Proof. clear Hb Hcf Huniform stream.    induction items as [|e t IH]; intros q q' full rest Hz H; cbn [absorb] in H.
    - injection H as <- <- <-. cbn. split; auto.
    - inv_bind H. destruct v as [q1 l]. destruct (append_shape_count Hm Hz) as (C1 & C2 & C3).
      destruct (Nat.eqb_spec (List.length l) (pc_batch cf)) as [El|El].
      + injection H as <- <- <-. split; [|discriminate]. unfold zlen in *. rewrite dict_set_length; auto.
      + destruct (IH _ _ _ _ C1 H) as [K1 K2]. split; auto. intros E. rewrite K2 by auto. cbn. lia.
  Qed.

  Lemma total_bound q : qok shape cf q -> (total q <= List.length q * pc_batch cf)%nat.
  Proof.
    intros [HN H].
    assert (HF : Forall (fun kv => (List.length (snd kv) < pc_batch cf)%nat) q).
    { apply Forall_forall. intros [k l] Hin. cbn. apply (H k l). apply dict_In_get; auto. }
    clear -HF Hb. induction HF as [|[k l] t H1 H2 IH]; cbn in *; lia.
  Qed.

  Lemma Forall_nil_of (q : list (Z * list A)) code real : qok shape cf q -> dict_get q code = Some real ->
    Forall (fun e => shape e = code) real /\ (List.length real < pc_batch cf)%nat.
  Proof. intros H E. destruct (proj2 H _ _ E). auto. Qed.

  Lemma mixed_stop a q ob a' :
    a_finished a = false -> qok shape cf q ->
    may_restart cf (a_index a) = false ->
    (forall t, queue (a_queues a) t ++ of_shape t (a_items a) = queue q t) ->
    (if pc_train cf then Ok (None, a_set a [] [] true)
     else match nonempty_shapes q with
          | [] => Ok (None, a_set a [] q true)
          | code :: _ =>
              match dict_get q code with
              | None => Err KeyError
              | Some real =>
                  let q1 := dict_del q code in
                  let is_last := negb (existsb (fun kv => nonempty (snd kv)) q1) in
                  Ok (a_emit cf (a_set a [] q1 (is_last || a_finished a)) (cyclic real (pc_batch cf))
                        (mask (List.length real) (pc_batch cf)) is_last)
              end
          end) = Ok (ob, a') ->
    call_spec a ob a' /\ qok shape cf (a_queues a')
      /\ (a_finished a' = true -> forall t, queue (a_queues a') t = [])
      /\ (List.length (a_queues a') <= List.length q)%nat.
  Proof.
    intros Hf Hq Hm Hpre H.
    assert (Heat : forall c, c = a_cycle a -> eats (a_epoch a) (a_cycle a, a_items a) (a_items a) (c, [])).
    { intros c ->. constructor. symmetry. apply app_nil_r. }
    destruct (pc_train cf) eqn:Etr.
    - injection H as <- <-. split; [|split; [apply qok_nil; auto|split; [auto|cbn; lia]]].
      exists (a_items a), q, []. cbn. conj; auto; try discriminate. congruence.
    - destruct (nonempty_shapes q) as [|code rest] eqn:En.
      + injection H as <- <-.
        assert (Hall : forall t, queue q t = []).
        { intros t. destruct (queue q t) eqn:E; auto. exfalso.
          assert (In t (nonempty_shapes q)) by (apply nonempty_shapes_In; [apply Hq|congruence]). rewrite En in H. exact H. }
        split; [|split; [exact Hq|split; [auto|cbn; lia]]].
        exists (a_items a), q, []. cbn. conj; auto; discriminate.
      + assert (Hne : queue q code <> []).
        { apply nonempty_shapes_In; [apply Hq|]. rewrite En. left. reflexivity. }
        pose proof Hne as Hreal. unfold queue in Hreal.
        destruct (dict_get q code) as [real|] eqn:Eg; [|congruence].
        destruct (Forall_nil_of Hq Eg) as [Hs Hl]. cbv zeta in H.
        assert (Hq1 : qok shape cf (dict_del q code)) by (apply qok_del; auto).
        set (q1 := dict_del q code) in *.
        destruct (existsb (fun kv => nonempty (snd kv)) q1) eqn:Ee; cbn [negb orb] in H; injection H as <- <-; cbn.
        * split; [|split; [|split]].
          -- exists (a_items a), q1, []. cbn. rewrite Hf. cbn. conj; auto; try discriminate.
             ++ intros t. rewrite Hpre, reals_cyclic by (auto; lia). rewrite (of_shape_all Hs). unfold q1.
                rewrite queue_del by apply Hq. unfold queue at 1. destruct (Z.eqb_spec t code) as [->|].
                ** rewrite Eg, app_nil_r. reflexivity.
                ** reflexivity.
             ++ intros E. rewrite E. auto.
             ++ intros E. rewrite E. auto.
             ++ eapply good_partial with (real := real); cbn; eauto. lia.
          -- destruct (budget_last cf (a_index a)); [apply qok_nil; auto|auto].
          -- rewrite Hf. cbn. intros E t. rewrite E. reflexivity.
          -- unfold q1. rewrite (dict_del_length Eg). destruct (budget_last cf (a_index a)); cbn; lia.
        * assert (Hnil : forall t, queue q1 t = []) by (apply existsb_nonempty; auto; apply Hq1).
          split; [|split; [|split]].
          -- exists (a_items a), q1, []. cbn. conj; auto; try discriminate.
             ++ intros t. rewrite Hpre, reals_cyclic by (auto; lia). rewrite (of_shape_all Hs). unfold q1.
                rewrite queue_del by apply Hq. unfold queue at 1. destruct (Z.eqb_spec t code) as [->|].
                ** rewrite Eg, app_nil_r. reflexivity.
                ** reflexivity.
             ++ destruct (budget_last cf (a_index a)); auto.
             ++ eapply good_partial with (real := real); cbn; eauto. lia.
          -- destruct (budget_last cf (a_index a)); [apply qok_nil; auto|auto].
          -- intros _ t. destruct (budget_last cf (a_index a)); auto.
          -- unfold q1. rewrite (dict_del_length Eg). destruct (budget_last cf (a_index a)); cbn; lia.
  Qed.

  Lemma a_mixed_spec : forall cycles a empty ob a',
    a_finished a = false -> qok shape cf (a_queues a) -> zlen (a_queues a) <= pc_max_queues cf ->
    a_mixed stream shape cf cycles a empty = Ok (ob, a') ->
    call_spec a ob a' /\ qok shape cf (a_queues a')
      /\ (a_finished a' = true -> forall t, queue (a_queues a') t = [])
      /\ zlen (a_queues a') <= pc_max_queues cf.
  Proof.
    pose proof (ok_queues Hcf) as Hmq.
    assert (Hstop : forall a (q : list (Z * list A)) ob a', zlen q <= pc_max_queues cf ->
      (call_spec a ob a' /\ qok shape cf (a_queues a')
      /\ (a_finished a' = true -> forall t, queue (a_queues a') t = [])
      /\ (List.length (a_queues a') <= List.length q)%nat) -> 
      call_spec a ob a' /\ qok shape cf (a_queues a')
      /\ (a_finished a' = true -> forall t, queue (a_queues a') t = [])
      /\ zlen (a_queues a') <= pc_max_queues cf).
    { intros a q ob a' Hz (K1 & K2 & K3 & K4). conj; auto. unfold zlen in *. lia. }
    induction cycles as [|k IH]; intros a empty ob a' Hf Hq Hz H; cbn [a_mixed] in H;
      inv_bind H; destruct v as [[q full] rest];
      destruct (absorb_spec Hq Hm) as (E & G1 & G2 & G3 & G4 & G5);
      destruct (absorb_count Hz Hm) as [Gz _]; destruct full as [l|].
    1, 3: (destruct (G5 l eq_refl) as [Gl [s Gs]]; injection H as <- <-; cbn; split; [|split; [|split]];
      [ exists E, q, rest; cbn; conj; auto;
        [ constructor; auto
        | intros t; rewrite <- Gl, reals_full; apply G4
        | rewrite Hf; cbn; intros Eb; rewrite Eb; auto
        | rewrite Hf; cbn; intros Eb; rewrite Eb; auto
        | eapply good_full; cbn; eauto
        | rewrite Hf; reflexivity
        | left; rewrite Hf; reflexivity ]
      | destruct (budget_last cf (a_index a)); auto; apply qok_nil; auto
      | rewrite Hf; cbn; intros Eb t; rewrite Eb; reflexivity
      | destruct (budget_last cf (a_index a)); auto; unfold zlen; cbn; lia ]).
    - specialize (G3 eq_refl). subst rest. rewrite app_nil_r in G1. subst E.
      destruct (may_restart cf (a_index a)) eqn:Em; [discriminate|].
      eapply Hstop; [exact Gz|]. eapply mixed_stop; eauto.
    - specialize (G3 eq_refl). subst rest. rewrite app_nil_r in G1. subst E.
      destruct (may_restart cf (a_index a)) eqn:Em; [|eapply Hstop; [exact Gz|]; eapply mixed_stop; eauto].
      inv_bind H. destruct v as [a2 empty1]. unfold a_next_cycle in Hm0. apply guard_Ok in Hm0 as [_ Hm0]. inv_bind Hm0.
      injection Hm0 as <- <-. cbn in Hm1. apply IH in H; auto. destruct H as (K1 & K2 & K3 & K4). split; [|auto].
      eapply call_gen_next; [exact Hm1|..|exact K1]; auto. cbn. intros t. symmetry. apply G4.
  Qed.

  (** Every call keeps the invariant and does what [call_spec] says. *)
  Theorem a_next_spec cycles a ob a' : a_inv a -> a_finished a = false ->
    a_next stream shape cf cycles a = Ok (ob, a') -> call_spec a ob a' /\ a_inv a'.
  Proof.
    intros HI Hf H. unfold a_next in H. rewrite Hf in H.
    assert (Hall : call_spec a ob a' /\ qok shape cf (a_queues a')
      /\ (a_finished a' = true -> forall t, queue (a_queues a') t = [])
      /\ (pc_uniform cf <> None -> a_queues a' = [])
      /\ zlen (a_queues a') <= pc_max_queues cf).
    { pose proof (ai_uniform HI) as HU. pose proof (ai_shape HI) as HS. pose proof (@a_uniform_spec) as US.
      revert H. case_eq (pc_uniform cf).
      - intros code Eu H. rewrite Eu in HU.
        assert (Hq : a_queues a = []) by (apply HU; discriminate).
        apply (US code Eu) in H; auto. destruct H as [G1 G2].
        conj; auto.
        + unfold call_spec. rewrite Hq. exact G1.
        + rewrite G2. apply qok_nil; auto.
        + intros _ t. rewrite G2. reflexivity.
        + rewrite G2. pose proof (ok_queues Hcf). unfold zlen. cbn. lia.
      - intros Eu H. apply a_mixed_spec in H; auto; [|apply HI|apply HI]. destruct H as (G1 & G2 & G3 & G4). conj; auto. congruence. }
    destruct Hall as (H1 & H2 & H3 & H4 & H5). split; auto.
    destruct H1 as (E & q' & rest & G1 & G2 & G3 & G4 & G5 & G6 & G6' & G7).
    pose proof (ai_index HI) as HI1. pose proof (ai_budget HI) as HI2. pose proof (ai_pos HI) as HI3.
    assert (Hcy : a_cycle a <= a_cycle a') by (apply eats_mono in G1; exact G1).
    constructor; auto.
    - destruct ob; lia.
    - intros s Hs. destruct (HI2 s Hs) as [B1 B2]. specialize (B2 Hf). destruct ob as [b|].
      + destruct G7 as (_ & _ & -> & _ & _ & G7). split; [lia|]. intros Hn.
        destruct G7 as [G7|[_ [G7 _]]]; [|congruence]. rewrite Hn in G7. unfold budget_last in G7. rewrite Hs in G7. lia.
      + destruct G7 as (G7 & -> & _). split; [lia|congruence].
    - intros code Hu. destruct (a_finished a') eqn:Ef; [rewrite G6' by auto; constructor|].
      destruct (G6 eq_refl) as [-> _]. apply (eats_shape Hu G1). exact (ai_shape HI Hu).
    - rewrite G4. lia.
  Qed.

  (** ** Termination: one call needs boundedly many source cycles. *)
  Hypothesis Hfuel : forall ep cy, 0 <= ep -> 0 <= cy -> stream ep cy <> Err OutOfFuel.

  Lemma uniform_total_fresh : forall cycles a acc empty,
    0 <= a_epoch a -> 0 <= a_cycle a -> a_size a = zlen (a_items a) -> 0 <= empty <= 16 -> (List.length acc <= pc_batch cf)%nat ->
    17 * Z.of_nat (pc_batch cf - List.length acc) + 17 - empty <= Z.of_nat cycles ->
    a_uniform stream cf cycles a acc empty <> Err OutOfFuel.
  Proof.
    induction cycles as [|k IH]; intros a acc empty He0 Hc0 Hsz He Hl Hk; [lia|]. cbn [a_uniform].
    destruct (Nat.leb_spec (pc_batch cf - List.length acc) (List.length (a_items a))) as [Hn|Hn]; [discriminate|].
    destruct (may_restart cf (a_index a)) eqn:Em.
    2:{ destruct (pc_train cf || negb (nonempty (acc ++ a_items a))); discriminate. }
    unfold a_next_cycle. cbn [a_set a_size a_epoch a_cycle a_index a_queues a_finished].
    destruct ((if a_size a =? 0 then empty + 1 else 0) <=? 16) eqn:E16; [|discriminate].
    destruct (stream (a_epoch a) (a_cycle a + 1)) as [l|e] eqn:Es; cbn [bind].
    2:{ intros E. apply (@Hfuel (a_epoch a) (a_cycle a + 1)); [lia|lia|congruence]. }
    assert (Hs : (a_size a =? 0) = true -> List.length (a_items a) = 0%nat) by (unfold zlen in Hsz; lia).
    assert (Hs2 : (a_size a =? 0) = false -> (0 < List.length (a_items a))%nat) by (unfold zlen in Hsz; lia).
    apply IH; cbn; auto; try lia; rewrite ?app_length; destruct (a_size a =? 0); try lia.
  Qed.

  Lemma absorb_fuel : forall items q, absorb shape cf q items = Err OutOfFuel -> False.
  Proof.
    induction items as [|x t IH]; intros q; cbn [absorb]; [discriminate|]. unfold append_shape.
    destruct (dict_get q (shape x)) as [l|].
    - cbn [bind]. destruct (_ =? _)%nat; [discriminate|]. apply IH.
    - destruct (zlen q <? pc_max_queues cf); [|discriminate]. cbn [bind]. destruct (_ =? _)%nat; [discriminate|]. apply IH.
  Qed.

  Lemma mixed_total_fresh : forall cycles a empty,
    0 <= a_epoch a -> 0 <= a_cycle a -> a_size a = zlen (a_items a) -> 0 <= empty <= 16 -> qok shape cf (a_queues a) ->
    zlen (a_queues a) <= pc_max_queues cf ->
    17 * (pc_max_queues cf * Z.of_nat (pc_batch cf) - Z.of_nat (total (a_queues a))) + 17 - empty <= Z.of_nat cycles ->
    a_mixed stream shape cf cycles a empty <> Err OutOfFuel.
  Proof.
    induction cycles as [|k IH]; intros a empty He0 Hc0 Hsz He Hq Hz Hk.
    { pose proof (total_bound Hq). unfold zlen in Hz. nia. }
    cbn [a_mixed]. destruct (absorb shape cf (a_queues a) (a_items a)) as [[[q full] rest]|e] eqn:Ea; cbn [bind].
    2:{ intros E. injection E as ->. apply (absorb_fuel Ea). }
    destruct (absorb_spec Hq Ea) as (E & G1 & G2 & G3 & G4 & G5).
    destruct (absorb_count Hz Ea) as [Gz Gt]. destruct full as [l|]; [discriminate|].
    specialize (Gt eq_refl).
    destruct (may_restart cf (a_index a)) eqn:Em.
    2:{ destruct (pc_train cf); [discriminate|]. destruct (nonempty_shapes q); [discriminate|]. destruct (dict_get q z); discriminate. }
    unfold a_next_cycle. cbn [a_set a_size a_epoch a_cycle a_index a_queues a_finished].
    destruct ((if a_size a =? 0 then empty + 1 else 0) <=? 16) eqn:E16; [|discriminate].
    destruct (stream (a_epoch a) (a_cycle a + 1)) as [l|e] eqn:Es; cbn [bind].
    2:{ intros Ex. apply (@Hfuel (a_epoch a) (a_cycle a + 1)); [lia|lia|congruence]. }
    assert (Hs : (a_size a =? 0) = true -> List.length (a_items a) = 0%nat) by (unfold zlen in Hsz; lia).
    assert (Hs2 : (a_size a =? 0) = false -> (0 < List.length (a_items a))%nat) by (unfold zlen in Hsz; lia).
    apply IH; cbn; auto; try lia; rewrite ?Gt; destruct (a_size a =? 0); try lia.
  Qed.

  Theorem a_next_total a : a_inv a -> exists cycles, a_next stream shape cf cycles a <> Err OutOfFuel.
  Proof.
    intros HI. pose proof (ai_pos HI) as Hpos. pose proof (ok_queues Hcf) as Hmq. pose proof uniform_total_fresh as UT. pose proof mixed_total_fresh as MT.
    unfold a_next. destruct (a_finished a) eqn:Ef; [exists 0%nat; discriminate|].
    case_eq (pc_uniform cf); [intros code Eu|intros Eu].
    - exists (S (Z.to_nat (17 * Z.of_nat (pc_batch cf) + 17))). cbn [a_uniform].
      destruct (Nat.leb_spec (pc_batch cf - List.length (A:=A) []) (List.length (a_items a))) as [Hn|Hn]; [discriminate|]. cbn [List.length] in Hn.
      destruct (may_restart cf (a_index a)) eqn:Em.
      2:{ destruct (pc_train cf || negb (nonempty ([] ++ a_items a))); discriminate. }
      unfold a_next_cycle. cbn [a_set a_size a_epoch a_cycle a_index a_queues a_finished].
      destruct ((if a_size a =? 0 then 0 + 1 else 0) <=? 16) eqn:E16; [|discriminate].
      destruct (stream (a_epoch a) (a_cycle a + 1)) as [l|e] eqn:Es; cbn [bind].
      2:{ intros Ex. apply (@Hfuel (a_epoch a) (a_cycle a + 1)); [lia|lia|congruence]. }
      cbn [a_set a_queues a_items a_index a_cycle a_size a_epoch a_finished].
      apply UT; cbn [a_size a_items app a_epoch a_cycle]; auto; [lia|lia|destruct (a_size a =? 0); lia|lia|].
      rewrite Z2Nat.id by lia. destruct (a_size a =? 0); lia.
    - pose proof (ai_queues HI) as Hq. pose proof (ai_count HI) as Hz.
      exists (S (Z.to_nat (17 * (pc_max_queues cf * Z.of_nat (pc_batch cf)) + 17))). cbn [a_mixed].
      destruct (absorb shape cf (a_queues a) (a_items a)) as [[[q full] rest]|e] eqn:Ea; cbn [bind].
      2:{ intros E. injection E as ->. apply (absorb_fuel Ea). }
      destruct (absorb_spec Hq Ea) as (E & G1 & G2 & G3 & G4 & G5).
      destruct (absorb_count Hz Ea) as [Gz Gt]. destruct full as [l|]; [discriminate|].
      destruct (may_restart cf (a_index a)) eqn:Em.
      2:{ destruct (pc_train cf); [discriminate|]. destruct (nonempty_shapes q); [discriminate|]. destruct (dict_get q z); discriminate. }
      unfold a_next_cycle. cbn [a_set a_size a_epoch a_cycle a_index a_queues a_finished].
      destruct ((if a_size a =? 0 then 0 + 1 else 0) <=? 16) eqn:E16; [|discriminate].
      destruct (stream (a_epoch a) (a_cycle a + 1)) as [l|e] eqn:Es; cbn [bind].
      2:{ intros Ex. apply (@Hfuel (a_epoch a) (a_cycle a + 1)); [lia|lia|congruence]. }
      apply MT; cbn [a_size a_items a_queues a_epoch a_cycle]; auto; [lia|lia|destruct (a_size a =? 0); lia|].
      rewrite Z2Nat.id by nia. destruct (a_size a =? 0); lia.
  Qed.
End Facts.
