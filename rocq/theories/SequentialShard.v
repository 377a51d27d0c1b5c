(** Facts about the size-balanced file sharding of the sequential source. *)
From Verif Require Import Base BaseFacts Rng RngFacts Source Composite CompositeSim Sequential.
Set Implicit Arguments.
Unset Strict Implicit.

Lemma insert_by_perm {A} (lt : A -> A -> bool) x l : Permutation (x :: l) (insert_by lt x l).
Proof.
  induction l as [|y l IH]; cbn; [reflexivity|].
  destruct (lt y x); [|reflexivity].
  rewrite perm_swap. constructor. exact IH.
Qed.

Lemma sort_by_perm {A} (lt : A -> A -> bool) l : Permutation l (sort_by lt l).
Proof.
  unfold sort_by. induction l as [|y l IH]; cbn [fold_right]; [constructor|].
  rewrite <- insert_by_perm. constructor. exact IH.
Qed.

Lemma argmin_from_spec loads : forall i best bl,
  (best < i)%nat ->
  let r := argmin_from i best bl loads in
  (r = best /\ (forall l, In l loads -> bl <= l)
   \/ exists k l, r = (i + k)%nat /\ nth_error loads k = Some l /\ l <= bl
        /\ (forall l', In l' loads -> l <= l')).
Proof.
  induction loads as [|x loads IH]; intros i best bl Hb; cbn zeta; cbn [argmin_from].
  - left. split; [reflexivity|]. intros l [].
  - destruct (Z.ltb_spec x bl).
    + destruct (IH (S i) i x) as [[-> H1]|(k & l & -> & Hn & Hl & H1)]; [lia| |].
      * right. exists 0%nat, x. conj; [lia|reflexivity|lia|]. intros l' [<-|Hin]; [lia|auto].
      * right. exists (S k), l. conj; [lia|exact Hn|lia|]. intros l' [<-|Hin]; [lia|auto].
    + destruct (IH (S i) best bl) as [[-> H1]|(k & l & -> & Hn & Hl & H1)]; [lia| |].
      * left. split; [reflexivity|]. intros l [<-|Hin]; auto.
      * right. exists (S k), l. conj; [lia|exact Hn|lia|]. intros l' [<-|Hin]; [lia|auto].
Qed.

Lemma argmin_spec loads : loads <> [] ->
  exists m, nth_error loads (argmin loads) = Some m /\ forall l, In l loads -> m <= l.
Proof.
  destruct loads as [|x loads]; [congruence|]. intros _. cbn [argmin].
  destruct (@argmin_from_spec loads 1 0 x) as [[-> H1]|(k & l & -> & Hn & Hl & H1)]; [lia| |].
  - exists x. split; [reflexivity|]. intros l [<-|Hin]; [lia|auto].
  - exists l. split; [exact Hn|]. intros l' [<-|Hin]; [lia|auto].
Qed.

Lemma concat_upd_app {A} (ls : list (list A)) r a x :
  nth_error ls r = Some a ->
  Permutation (List.concat (upd ls r (a ++ [x]))) (x :: List.concat ls).
Proof.
  revert r; induction ls as [|l ls IH]; intros [|r]; cbn; try discriminate.
  - intros H; inversion H; subst. rewrite <- app_assoc. cbn. symmetry. apply Permutation_middle.
  - intros H. rewrite (IH r H). symmetry. apply Permutation_middle.
Qed.

(** What the greedy loop maintains. *)
Record shard_inv (files : list seq_file) (M : Z) (world position : nat)
    (asg : list (list nat)) (loads : list Z) : Prop := {
  si_asg : List.length asg = world;
  si_loads : List.length loads = world;
  si_sum : forall r a l, nth_error asg r = Some a -> nth_error loads r = Some l ->
    l = zsum (map (size_of files) a);
  si_used : forall r a, nth_error asg r = Some a -> (r < position)%nat -> a <> [];
  si_fresh : forall r l, nth_error loads r = Some l -> (position <= r)%nat -> l = 0;
  si_bal : forall a b la lb, nth_error loads a = Some la -> nth_error loads b = Some lb -> la <= lb + M
}.

Lemma assign_files_spec files M world (HM : forall i, 0 <= size_of files i <= M) :
  (0 < world)%nat -> forall by_size position asg loads,
  shard_inv files M world position asg loads ->
  exists asg' loads', assign_files files world position by_size asg loads = Ok (asg', loads')
    /\ Permutation (List.concat asg') (List.concat asg ++ by_size)
    /\ shard_inv files M world (position + List.length by_size) asg' loads'.
Proof.
  intros Hw. induction by_size as [|i rest IH]; intros position asg loads H.
  - exists asg, loads. cbn. rewrite app_nil_r, Nat.add_0_r. auto.
  - cbn [assign_files]. set (r := if (position <? world)%nat then position else argmin loads).
    assert (Hr : (r < world)%nat /\ exists lr, nth_error loads r = Some lr /\
              forall b lb, nth_error loads b = Some lb -> lr <= lb).
    { subst r. destruct (Nat.ltb_spec position world) as [Hp|Hp].
      - split; [exact Hp|]. destruct (nth_error loads position) as [l|] eqn:El.
        2:{ apply nth_error_None in El. pose proof (si_loads H). lia. }
        exists l. split; [reflexivity|]. rewrite (si_fresh H El) by lia.
        intros b lb Hb. destruct (nth_error asg b) as [a|] eqn:Ea.
        2:{ apply nth_error_None in Ea. pose proof (si_asg H).
            assert (b < List.length loads)%nat by (apply nth_error_Some; congruence).
            pose proof (si_loads H). lia. }
        rewrite (si_sum H Ea Hb). apply zsum_nonneg. apply Forall_map.
        apply Forall_forall. intros; apply HM.
      - destruct (@argmin_spec loads) as (m & Hm & Hmin).
        { intros ->. pose proof (si_loads H). cbn in *. lia. }
        split.
        { assert (argmin loads < List.length loads)%nat by (apply nth_error_Some; congruence).
          pose proof (si_loads H). lia. }
        exists m. split; [exact Hm|]. intros b lb Hb. apply Hmin. eapply nth_error_In; eauto. }
    destruct Hr as (Hr & lr & Hlr & Hmin).
    destruct (nth_error asg r) as [a|] eqn:Ea.
    2:{ apply nth_error_None in Ea. pose proof (si_asg H). lia. }
    assert (E1 : py_get asg r = Ok a) by (apply py_get_Ok; exact Ea).
    assert (E3 : py_get loads r = Ok lr) by (apply py_get_Ok; exact Hlr).
    assert (E2 : py_set asg r (a ++ [i]) = Ok (upd asg r (a ++ [i]))).
    { apply py_set_lt. rewrite (si_asg H). exact Hr. }
    assert (E4 : py_set loads r (lr + size_of files i) = Ok (upd loads r (lr + size_of files i))).
    { apply py_set_lt. rewrite (si_loads H). exact Hr. }
    rewrite E1; cbn [bind]. rewrite E2; cbn [bind]. rewrite E3; cbn [bind]. rewrite E4; cbn [bind].
    destruct (IH (S position) (upd asg r (a ++ [i])) (upd loads r (lr + size_of files i)))
      as (asg' & loads' & He & Hp & Hi).
    + constructor.
      * rewrite upd_length. apply (si_asg H).
      * rewrite upd_length. apply (si_loads H).
      * intros q aq lq Ha Hl. rewrite nth_error_upd in Ha. rewrite nth_error_upd in Hl.
        destruct (Nat.eqb_spec q r) as [E|E].
        -- subst q. destruct (Nat.ltb_spec r (List.length asg)); [|pose proof (si_asg H); lia].
           destruct (Nat.ltb_spec r (List.length loads)); [|pose proof (si_loads H); lia].
           inversion Ha; inversion Hl; subst. rewrite map_app, zsum_app.
           rewrite <- (si_sum H Ea Hlr). cbn. lia.
        -- eapply (si_sum H); eauto.
      * intros q aq Ha Hq. rewrite nth_error_upd in Ha.
        destruct (Nat.eqb_spec q r) as [E|E].
        -- subst q. destruct (Nat.ltb_spec r (List.length asg)); inversion Ha; subst.
           intros Hn. apply app_eq_nil in Hn. destruct Hn as [_ Hn]; discriminate.
        -- destruct (Nat.lt_ge_cases q position) as [Hlt|Hge]; [eapply (si_used H); eauto|].
           exfalso. assert (q = position) by lia. subst q. apply E. subst r.
           destruct (Nat.ltb_spec position world); [reflexivity|].
           assert (position < List.length asg)%nat by (apply nth_error_Some; congruence).
           pose proof (si_asg H). lia.
      * intros q lq Hl Hq. rewrite nth_error_upd in Hl.
        destruct (Nat.eqb_spec q r) as [E|E]; [|eapply (si_fresh H); eauto; lia].
        exfalso. subst q. subst r. destruct (Nat.ltb_spec position world); lia.
      * intros x y lx ly Hx Hy. rewrite nth_error_upd in Hx. rewrite nth_error_upd in Hy.
        pose proof (HM i) as Hi.
        destruct (Nat.eqb_spec x r) as [E|E]; destruct (Nat.eqb_spec y r) as [E'|E'].
        -- subst x y. destruct (Nat.ltb_spec r (List.length loads)); [|discriminate].
           rewrite Hx in Hy. inversion Hy. lia.
        -- destruct (Nat.ltb_spec r (List.length loads)); [|discriminate].
           inversion Hx; subst lx. pose proof (Hmin _ _ Hy). lia.
        -- destruct (Nat.ltb_spec r (List.length loads)); [|discriminate].
           inversion Hy; subst ly. pose proof (si_bal H Hx Hlr). lia.
        -- eapply (si_bal H); eauto.
    + exists asg', loads'. conj.
      * exact He.
      * rewrite Hp, (concat_upd_app i Ea). cbn. apply Permutation_middle.
      * replace (position + List.length (i :: rest))%nat with (S position + List.length rest)%nat
          by (cbn; lia). exact Hi.
Qed.

Lemma nth_error_repeat {A} (x : A) n i y : nth_error (repeat x n) i = Some y -> y = x.
Proof. intros H. apply nth_error_In in H. apply repeat_spec in H. exact H. Qed.

Lemma concat_repeat_nil {A} n : List.concat (repeat (@nil A) n) = [].
Proof. induction n; cbn; auto. Qed.

Lemma size_bound files : Forall (fun f => 0 <= q_size f) files ->
  exists M, 0 <= M /\ forall i, 0 <= size_of files i <= M.
Proof.
  intros H. exists (zsum (map q_size files)).
  assert (Hn : forall l, Forall (fun f => 0 <= q_size f) l -> 0 <= zsum (map q_size l)).
  { intros l Hl. apply zsum_nonneg. apply Forall_map. exact Hl. }
  split; [auto|]. intros i. unfold size_of. destruct (nth_error files i) as [f|] eqn:E.
  - apply nth_error_split in E. destruct E as (l1 & l2 & -> & _).
    apply Forall_app in H. destruct H as [H1 H2]. inversion H2; subst.
    rewrite map_app, zsum_app. cbn [map]. rewrite zsum_cons.
    pose proof (Hn _ H1). pose proof (Hn _ H4). lia.
  - split; [lia|]. auto.
Qed.

Lemma shard_files_spec files world M :
  (forall i, 0 <= size_of files i <= M) -> (0 < world)%nat ->
  exists asg loads, shard_files files world = Ok (asg, loads)
    /\ Permutation (List.concat asg) (range (List.length files))
    /\ shard_inv files M world (List.length files) asg loads.
Proof.
  intros HM Hw. unfold shard_files.
  set (by_size := sort_by _ _).
  assert (Hp : Permutation (range (List.length files)) by_size) by apply sort_by_perm.
  destruct (@assign_files_spec files M world HM Hw by_size 0 (repeat [] world) (repeat 0 world))
    as (asg & loads & He & Hc & Hi).
  - constructor.
    + apply repeat_length.
    + apply repeat_length.
    + intros r a l Ha Hl. apply nth_error_repeat in Ha. apply nth_error_repeat in Hl. subst. reflexivity.
    + lia.
    + intros r l Hl _. eapply nth_error_repeat; eauto.
    + intros a b la lb Ha Hb. apply nth_error_repeat in Ha. apply nth_error_repeat in Hb. subst.
      specialize (HM 0%nat). lia.
  - exists asg, loads. conj.
    + exact He.
    + rewrite Hc, concat_repeat_nil. cbn. symmetry. exact Hp.
    + rewrite <- (Permutation_length Hp) in Hi. unfold range in Hi. rewrite seq_length in Hi. exact Hi.
Qed.

(** Any file sizes at all (also negative ones): the loop still partitions. *)
Section Order.
  Variable header : bytes.
  Variable hash64 : bytes -> Z.

  Lemma seq_file_order_unsharded s epoch cycle rank order :
    q_sharded s = false -> seq_file_order header hash64 s epoch cycle rank = Ok order ->
    Permutation (range (List.length (q_files s))) order.
  Proof.
    intros Hs. unfold seq_file_order. rewrite Hs. cbn [negb].
    destruct (q_shuffle s); cbn [negb].
    - intros H. eapply deterministic_permutation_perm; eauto.
    - intros H; inversion H. reflexivity.
  Qed.

  Lemma seq_file_order_sharded s epoch cycle rank order asg loads :
    q_sharded s = true -> shard_files (q_files s) (Z.to_nat (q_world s)) = Ok (asg, loads) ->
    seq_file_order header hash64 s epoch cycle rank = Ok order ->
    exists a, nth_error asg (Z.to_nat rank) = Some a /\ Permutation a order.
  Proof.
    intros Hs Hf. unfold seq_file_order. rewrite Hs, Hf. cbn [negb bind].
    intros H. inv_bind H. apply py_get_Ok in Hm.
    exists v. split; [exact Hm|].
    assert (Hp : Permutation v (sort_by Nat.ltb v)) by apply sort_by_perm.
    destruct (q_shuffle s); cbn [negb] in H.
    - inv_bind H. apply deterministic_permutation_perm in Hm0.
      rewrite Hp. eapply mapM_get_perm; eauto.
    - inversion H; subst. exact Hp.
  Qed.
End Order.
