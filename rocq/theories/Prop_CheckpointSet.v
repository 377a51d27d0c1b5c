(** C38: the files of a checkpoint fit together whatever happens (trainer/base.py saving,
    pruning and resuming).  The histories are those of [trained] in CheckpointSet.v: runs
    that save, die at any point of a save or of pruning, and resume. *)
From Coq Require Import Ascii String Sorted Permutation.
From Verif Require Import Base BaseFacts Checkpoint CheckpointFacts Prop_Checkpoint CheckpointSet CheckpointSetFacts CheckpointSetInv CheckpointSetNames.
Set Implicit Arguments.
Unset Strict Implicit.

(** ** Specification *)
(** A directory in which no trainer has worked yet: anything may be in it, but no file
    under a name the trainer uses. *)
Definition unused_directory (W T P : Type) (dir : str) (d : disk (obj W T P)) : Prop :=
  forall f t, (f = lit "state_" ++ t \/ f = lit "ckpt_" ++ t \/ f = lit "runtime_" ++ t \/ f = lit ".runtime-tmp_" ++ t) ->
    d (join_path dir f) = None.

Section Set_.
Variables W T P : Type.
Variable dir : str.
Variable names : list str.
Variable world : nat.
Variable num_keep_states : Z.
Variable save_interval : Z.
Variable state_save_interval : option Z.
Variable valid : T -> bool.
Hypothesis names_plain : forall n, In n names -> ~ In slash n.
Hypothesis names_distinct : NoDup names.
Notation obj := (obj W T P).
Notation at_ := (at_ dir).
Notation save := (save W T P).
Notation saves_state := (saves_state state_save_interval).
Notation write_ops := (write_ops dir names world state_save_interval).
Notation models_whole := (models_whole dir names).
Notation sidecars_whole := (sidecars_whole dir).
Notation cleanup := (cleanup dir num_keep_states valid).
Notation resume := (resume dir names).
Notation trained := (trained dir names world num_keep_states save_interval state_save_interval valid).
Notation lists := (lists dir).
Implicit Types (d : disk obj) (s : save).

Record inv (h : list (save * outcome)) d (ss : option session) : Prop := {
  i_pos : forall ev o, In (ev, o) h -> 0 <= sv_it ev;
  i_state : forall f, d (at_ f) <> None -> startswith (lit "state_") f = true ->
     exists i, 0 <= i /\ (f = state_name i \/ f = state_name i ++ lit ".tmp");
  i_set : forall i, 0 <= i -> d (at_ (state_name i)) <> None ->
     exists ev o sc, In (ev, o) h /\ sv_it ev = i /\ saves_state ev = true
       /\ d (at_ (state_name i)) = Some (Whole (OState i (sv_training ev) sc))
       /\ models_whole d ev /\ sidecars_whole d sc /\ forall f, In f sc -> exists t, f = "r"%char :: t;
  i_cur : forall (s : session), ss = Some s -> forall i, 0 <= i -> d (at_ (state_name i)) <> None ->
     i < ss_iteration s \/ (i = ss_iteration s /\ ss_last_state s = Some i);
  i_keep : num_keep_states <> 0 -> forall ev, In (ev, Completed) h -> saves_state ev = true ->
     exists i, sv_it ev <= i /\ 0 <= i /\ d (at_ (state_name i)) <> None;
  i_perm : forall ev n, In (ev, Completed) h -> sv_it ev mod save_interval = 0 -> In n names ->
     exists w, d (at_ (model_ckpt_name n (sv_it ev))) = Some (Whole (OModel (sv_it ev) w));
  i_temp : forall (s : session) i, ss = Some s -> In i (ss_temp s) -> i mod save_interval <> 0
}.

(** ** Listing the states *)
Lemma state_files_in fs i p : In (i, p) (state_files dir fs) <->
  exists f, In f fs /\ get_iteration_from_ckpt_filename f = Some i /\ startswith (lit "state_") f = true /\ p = at_ f.
Proof.
  unfold state_files. rewrite in_flat_map. split.
  - intros (f & Hf & H). destruct (get_iteration_from_ckpt_filename f) as [j|] eqn:E; [|destruct H].
    destruct (startswith (lit "state_") f) eqn:Es; [|destruct H]. destruct H as [H|[]]. inversion H; subst.
    exists f. auto.
  - intros (f & Hf & E & Es & ->). exists f. split; [exact Hf|]. rewrite E, Es. left. reflexivity.
Qed.
Lemma model_files_in fs i p : In (i, p) (model_files dir fs) ->
  exists f, In f fs /\ get_iteration_from_ckpt_filename f = Some i /\ startswith (lit "state_") f = false
    /\ startswith (lit "ckpt_") f = true /\ p = at_ f.
Proof.
  unfold model_files. rewrite in_flat_map. intros (f & Hf & H).
  destruct (get_iteration_from_ckpt_filename f) as [j|] eqn:E; [|destruct H].
  destruct (startswith (lit "state_") f) eqn:Es; [destruct H|]. destruct (startswith (lit "ckpt_") f) eqn:Ec; [|destruct H].
  destruct H as [H|[]]. inversion H; subst. exists f. auto.
Qed.
Lemma state_files_nodup fs : NoDup fs -> NoDup (state_files dir fs).
Proof.
  induction 1 as [|f fs Hf Hn IH]; [constructor|]. unfold state_files in *. cbn [flat_map].
  destruct (get_iteration_from_ckpt_filename f) as [i|]; [|exact IH]. destruct (startswith (lit "state_") f); [|exact IH].
  cbn [app]. constructor; [|exact IH]. intros X. apply state_files_in in X. destruct X as (g & Hg & _ & _ & E).
  apply at_inj in E. subst. contradiction.
Qed.

Lemma state_ltb_key a b : state_ltb a b = key_ltb (true, fst a, snd a) (true, fst b, snd b).
Proof. destruct a, b. reflexivity. Qed.
Lemma sorted_states l : StronglySorted (fun x y => state_ltb y x = false) (sort_by state_ltb l).
Proof.
  apply sort_sorted.
  - intros x y. rewrite !state_ltb_key. apply key_ltb_asym.
  - intros x y z. rewrite !state_ltb_key. apply key_ltb_trans.
Qed.
Lemma sorted_app (A : Type) (R : A -> A -> Prop) a b : StronglySorted R (a ++ b) -> forall x y, In x a -> In y b -> R x y.
Proof.
  induction a as [|u a IH]; intros H x y Hx Hy; [destruct Hx|]. cbn in H. inversion H as [|? ? Hs Hf]; subst.
  destruct Hx as [->|Hx]; [|apply IH; assumption]. rewrite Forall_forall in Hf. apply Hf. apply in_or_app. right. exact Hy.
Qed.
Lemma state_le x y : state_ltb y x = false -> fst x <= fst y.
Proof.
  unfold state_ltb. destruct (fst y =? fst x) eqn:E; [apply Z.eqb_eq in E; lia|]. intros H. apply Z.ltb_ge in H. exact H.
Qed.
Lemma num_delete_lt n : 0 < n -> num_keep_states <> 0 -> num_delete num_keep_states n < n.
Proof. unfold num_delete. intros. destruct (num_keep_states <? 0) eqn:E; [apply Z.ltb_lt in E|apply Z.ltb_ge in E]; lia. Qed.

Lemma protected_in d l prot : protected_sidecars valid d l = Ok prot -> forall i p, In (i, p) l ->
  exists t sc, d p = Some (Whole (OState i t sc)) /\ forall f, In f sc -> In f prot.
Proof.
  revert prot. induction l as [|[j q] l IH]; intros prot H i p Hin; [destruct Hin|]. cbn [protected_sidecars] in H.
  destruct (d q) as [[|[| j2 t2 sc2 | |]]|] eqn:E; try discriminate. apply guard_Ok in H. destruct H as [Hg H].
  apply andb_prop in Hg. destruct Hg as [Hg _]. apply Z.eqb_eq in Hg. subst j2. inv_bind H. inversion H; subst; clear H.
  destruct Hin as [Hin|Hin].
  - inversion Hin; subst. exists t2, sc2. split; [exact E|]. intros f Hf. apply in_or_app. left. exact Hf.
  - destruct (IH _ Hm _ _ Hin) as (t & sc & E2 & Hsc). exists t, sc. split; [exact E2|]. intros f Hf. apply in_or_app. right. auto.
Qed.

(** ** Pruning *)
Section Prune.
Variables (d : disk obj) (fs : list str) (order : list Z) (ops : list (op obj)) (temp : list Z).
Hypothesis Hlists : lists d fs.
Hypothesis Hclean : cleanup d fs order = Ok (ops, temp).
Hypothesis Hstate : forall f, d (at_ f) <> None -> startswith (lit "state_") f = true ->
     exists i, 0 <= i /\ (f = state_name i \/ f = state_name i ++ lit ".tmp").

Definition sorted := sort_by state_ltb (state_files dir fs).
Definition nd := Z.to_nat (num_delete num_keep_states (zlen sorted)).

Lemma sorted_in i : 0 <= i -> (In (i, at_ (state_name i)) sorted <-> d (at_ (state_name i)) <> None).
Proof.
  intros Hi. unfold sorted. split; intros H.
  - apply (Permutation_in _ (sort_perm _ _)) in H. apply state_files_in in H. destruct H as (f & Hf & _ & _ & E).
    rewrite E. apply Hlists. exact Hf.
  - apply (Permutation_in _ (Permutation_sym (sort_perm _ _))). apply state_files_in. exists (state_name i).
    split; [apply Hlists; split; [apply state_name_plain; exact Hi|exact H]|]. split; [apply state_iteration; exact Hi|].
    split; [reflexivity|reflexivity].
Qed.
Lemma sorted_form i p : In (i, p) sorted -> 0 <= i /\ p = at_ (state_name i) /\ d p <> None.
Proof.
  unfold sorted. intros H. apply (Permutation_in _ (sort_perm _ _)) in H. apply state_files_in in H.
  destruct H as (f & Hf & Hi & Hs & ->). destruct Hlists as [_ Hl]. apply Hl in Hf. destruct Hf as [_ Hf].
  destruct (Hstate Hf Hs) as (j & Hj & [->| ->]).
  - rewrite (state_iteration Hj) in Hi. inversion Hi; subst. auto.
  - rewrite (state_tmp_iteration Hj) in Hi. discriminate.
Qed.
Lemma sorted_nodup : NoDup sorted.
Proof. unfold sorted. apply (Permutation_NoDup (Permutation_sym (sort_perm _ _))). apply state_files_nodup. apply Hlists. Qed.

Lemma cleanup_parts : exists prot,
  protected_sidecars valid d (skipn nd sorted) = Ok prot
  /\ ops = map (fun e => Remove (snd e)) (firstn nd sorted)
      ++ map (fun f => Remove (at_ f)) (filter (fun f => is_sidecar f && negb (existsb (str_eqb f) prot) || is_runtime_temp f) fs)
      ++ flat_map (fun i => map (fun e => Remove (snd e)) (filter (fun e => fst e =? i) (model_files dir fs)))
           (filter (prunable (model_files dir fs) (map fst (skipn nd sorted))) order)
  /\ temp = filter (fun i => negb (prunable (model_files dir fs) (map fst (skipn nd sorted)) i)) order.
Proof.
  unfold CheckpointSet.cleanup in Hclean. cbv zeta in Hclean. fold sorted in Hclean. fold nd in Hclean.
  revert Hclean. intros H. inv_bind H. apply guard_Ok in H. destruct H as [_ H]. inversion H; subst. exists v. auto.
Qed.
Lemma ops_removes o : In o ops -> exists q, o = Remove q.
Proof.
  destruct cleanup_parts as (prot & _ & -> & _). rewrite !in_app_iff, !in_map_iff, in_flat_map.
  intros [(e & <- & _)|[(f & <- & _)|(i & _ & H)]]; [eauto|eauto|]. apply in_map_iff in H. destruct H as (e & <- & _). eauto.
Qed.
Lemma prune_any k p : run_ops d (firstn k ops) p = d p \/ run_ops d (firstn k ops) p = None.
Proof.
  rewrite run_removes by (intros o Ho; apply ops_removes; eapply in_firstn; eassumption). destruct (existsb _ _); auto.
Qed.
Lemma prune_kept k p : (forall o, In o (firstn k ops) -> o <> Remove p) -> run_ops d (firstn k ops) p = d p.
Proof.
  intros H. apply run_ops_untouched. intros o Ho Ht. destruct (ops_removes (in_firstn Ho)) as [q ->]. cbn in Ht. subst. exact (H _ Ho eq_refl).
Qed.

(** The three kinds of removals, by the name removed. *)
Lemma removed_state i : 0 <= i -> In (Remove (at_ (state_name i))) ops -> In (i, at_ (state_name i)) (firstn nd sorted).
Proof.
  intros Hi. destruct cleanup_parts as (prot & _ & -> & _). rewrite !in_app_iff, !in_map_iff, in_flat_map.
  intros [((j & q) & E & H)|[(f & E & H)|(j & _ & H)]].
  - inversion E; subst q. assert (Hs : In (j, at_ (state_name i)) sorted) by (eapply in_firstn; eassumption).
    apply sorted_form in Hs. destruct Hs as (Hj & Ej & _). apply at_inj in Ej. apply state_inj in Ej; [|assumption|assumption]. subst j. exact H.
  - inversion E as [E2]. apply at_inj in E2. subst f. apply filter_In in H. destruct H as [_ H]. exfalso.
    apply orb_prop in H. destruct H as [H|H].
    + apply andb_prop in H. destruct H as [H _]. apply sidecar_head in H. destruct H as [t H]. discriminate.
    + apply temp_head in H. destruct H as [t H]. discriminate.
  - apply in_map_iff in H. destruct H as ((m & q) & E & H). apply filter_In in H. destruct H as [H _].
    apply model_files_in in H. destruct H as (f & _ & _ & Hs & _ & ->). exfalso. inversion E as [E2]. apply at_inj in E2. subst f. discriminate.
Qed.
Lemma removed_model n i : 0 <= i -> ~ In slash n -> In (Remove (at_ (model_ckpt_name n i))) ops ->
  In i order /\ ~ In i (map fst (skipn nd sorted)).
Proof.
  intros Hi Hn. destruct cleanup_parts as (prot & _ & -> & _). rewrite !in_app_iff, !in_map_iff, in_flat_map.
  intros [((j & q) & E & H)|[(f & E & H)|(j & Hj & H)]].
  - inversion E; subst q. assert (Hs : In (j, at_ (model_ckpt_name n i)) sorted) by (eapply in_firstn; eassumption).
    apply sorted_form in Hs. destruct Hs as (_ & Ej & _). apply at_inj in Ej. discriminate.
  - inversion E as [E2]. apply at_inj in E2. subst f. apply filter_In in H. destruct H as [_ H]. exfalso.
    apply orb_prop in H. destruct H as [H|H].
    + apply andb_prop in H. destruct H as [H _]. apply sidecar_head in H. destruct H as [t H]. discriminate.
    + apply temp_head in H. destruct H as [t H]. discriminate.
  - apply in_map_iff in H. destruct H as ((m & q) & E & H). apply filter_In in H. destruct H as [H Hm].
    cbn in Hm. apply Z.eqb_eq in Hm. subst m. apply model_files_in in H. destruct H as (f & _ & Hf & _ & _ & ->). inversion E as [E2].
    apply at_inj in E2. subst f. rewrite (model_iteration Hi Hn) in Hf. inversion Hf; subst j. apply filter_In in Hj.
    destruct Hj as [Hj Hp]. split; [exact Hj|]. unfold prunable in Hp. apply andb_prop in Hp. destruct Hp as [_ Hp].
    apply negb_true_iff in Hp. intros X. rewrite <- not_true_iff_false in Hp. apply Hp. apply existsb_exists. exists i. split; [apply in_map_iff; exact X|apply Z.eqb_refl].
Qed.

(** A state that survives, at any point of pruning, keeps its models and sidecars. *)
Lemma prune_set k i : 0 <= i -> run_ops d (firstn k ops) (at_ (state_name i)) <> None ->
  run_ops d (firstn k ops) (at_ (state_name i)) = d (at_ (state_name i))
  /\ (forall n, In n names -> run_ops d (firstn k ops) (at_ (model_ckpt_name n i)) = d (at_ (model_ckpt_name n i)))
  /\ (forall t sc f, d (at_ (state_name i)) = Some (Whole (OState i t sc)) -> In f sc -> (exists u, f = "r"%char :: u) ->
        run_ops d (firstn k ops) (at_ f) = d (at_ f)).
Proof.
  intros Hi Hsome. set (d2 := run_ops d (firstn k ops)) in *.
  assert (Hd : d2 (at_ (state_name i)) = d (at_ (state_name i))) by (destruct (prune_any k (at_ (state_name i))) as [E|E]; [exact E|contradiction]).
  assert (Hdi : d (at_ (state_name i)) <> None) by congruence.
  split; [exact Hd|].
  assert (Hin : In (i, at_ (state_name i)) sorted) by (apply sorted_in; assumption).
  rewrite <- (firstn_skipn nd sorted) in Hin. apply in_app_or in Hin. destruct Hin as [Hin|Hin].
  - (* to be deleted, but not yet: only states can be gone *)
    destruct cleanup_parts as (prot & _ & Eops & _).
    assert (Hk : (k < List.length (map (fun e => Remove (obj := obj) (snd e)) (firstn nd sorted)))%nat).
    { destruct (Nat.lt_ge_cases k (List.length (map (fun e => Remove (obj := obj) (snd e)) (firstn nd sorted)))) as [H|H]; [exact H|].
      exfalso. apply Hsome. unfold d2. rewrite run_removes by (intros o Ho; apply ops_removes; eapply in_firstn; eassumption).
      assert (X : existsb (fun o => match o with Remove q => str_eqb (at_ (state_name i)) q | _ => false end) (firstn k ops) = true).
      { apply existsb_exists. exists (Remove (at_ (state_name i))). split; [|apply str_eqb_refl]. rewrite Eops.
        rewrite firstn_app, firstn_all2 by exact H. apply in_or_app. left.
        apply in_map_iff. exists (i, at_ (state_name i)). auto. }
      rewrite X. reflexivity. }
    assert (Hst : forall o, In o (firstn k ops) -> exists j, 0 <= j /\ o = Remove (at_ (state_name j))).
    { intros o Ho. rewrite Eops, firstn_app in Ho. replace (k - List.length (map (fun e => Remove (obj := obj) (snd e)) (firstn nd sorted)))%nat with 0%nat in Ho by lia.
      rewrite firstn_O, app_nil_r in Ho. apply in_firstn in Ho. apply in_map_iff in Ho. destruct Ho as ((j & q) & <- & Hq).
      apply in_firstn in Hq. apply sorted_form in Hq. destruct Hq as (Hj & -> & _). exists j. auto. }
    split.
    + intros n Hn. apply prune_kept. intros o Ho E. destruct (Hst o Ho) as (j & Hj & E2). rewrite E2 in E. inversion E as [E3]. apply at_inj in E3. discriminate.
    + intros t sc f _ _ (u & ->). apply prune_kept. intros o Ho E. destruct (Hst o Ho) as (j & Hj & E2). rewrite E2 in E. inversion E as [E3]. apply at_inj in E3. discriminate.
  - split.
    + intros n Hn. apply prune_kept. intros o Ho ->. apply in_firstn in Ho. apply removed_model in Ho; auto.
      destruct Ho as [_ Ho]. apply Ho. apply in_map_iff. exists (i, at_ (state_name i)). auto.
    + intros t sc f Et Hf (u & Eu). apply prune_kept. intros o Ho ->. apply in_firstn in Ho.
      destruct cleanup_parts as (prot & Hp & Eops & _). rewrite Eops in Ho. clear Eops.
      destruct (protected_in Hp Hin) as (t2 & sc2 & E2 & Hsc). rewrite Et in E2. inversion E2; subst t2 sc2.
      rewrite !in_app_iff, !in_map_iff, in_flat_map in Ho. destruct Ho as [((j & q) & E & H)|[(g & E & H)|(j & _ & H)]].
      * apply in_firstn in H. apply sorted_form in H. destruct H as (_ & -> & _). inversion E as [E3]. apply at_inj in E3. subst f. discriminate.
      * inversion E as [E3]. apply at_inj in E3. subst g. apply filter_In in H. destruct H as [_ H]. apply orb_prop in H. destruct H as [H|H].
        -- apply andb_prop in H. destruct H as [_ H]. apply negb_true_iff in H. rewrite <- not_true_iff_false in H. apply H.
           apply existsb_exists. exists f. split; [apply Hsc; exact Hf|apply str_eqb_refl].
        -- apply temp_head in H. destruct H as [t3 H]. subst f. discriminate.
      * apply in_map_iff in H. destruct H as ((m & q) & E & H). apply filter_In in H. destruct H as [H _].
        apply model_files_in in H. destruct H as (g & _ & _ & _ & Hc & ->). inversion E as [E3]. apply at_inj in E3. subst g.
        subst f. cbn in Hc. discriminate.
Qed.

(** Unless states are not kept at all, a newer or equal state survives every state. *)
Lemma prune_newest k i : num_keep_states <> 0 -> 0 <= i -> d (at_ (state_name i)) <> None ->
  exists j, i <= j /\ 0 <= j /\ run_ops d (firstn k ops) (at_ (state_name j)) <> None.
Proof.
  intros Hk Hi Hs. assert (Hin : In (i, at_ (state_name i)) sorted) by (apply sorted_in; assumption).
  assert (Keep : forall j, 0 <= j -> In (j, at_ (state_name j)) (skipn nd sorted) -> run_ops d (firstn k ops) (at_ (state_name j)) <> None).
  { intros j Hj Hjin. rewrite prune_kept.
    - assert (Hjs : In (j, at_ (state_name j)) sorted) by (rewrite <- (firstn_skipn nd sorted); apply in_or_app; right; exact Hjin).
      apply sorted_form in Hjs. apply Hjs.
    - intros o Ho ->. apply in_firstn in Ho. apply removed_state in Ho; [|exact Hj].
      pose proof sorted_nodup as Hnd. rewrite <- (firstn_skipn nd sorted) in Hnd. clear - Ho Hjin Hnd.
      induction (firstn nd sorted) as [|x l IH]; [destruct Ho|]. cbn in Hnd. inversion Hnd; subst. destruct Ho as [->|Ho]; [|apply IH; assumption].
      apply H1. apply in_or_app. right. exact Hjin. }
  pose proof (sorted_states (state_files dir fs)) as Ss. fold sorted in Ss.
  rewrite <- (firstn_skipn nd sorted) in Hin, Ss. apply in_app_or in Hin. destruct Hin as [Hin|Hin].
  - assert (Hlt : (nd < List.length sorted)%nat).
    { assert (L : 0 < zlen sorted). { apply in_firstn in Hin. unfold zlen. destruct sorted; [destruct Hin|cbn; lia]. }
      pose proof (num_delete_lt L Hk) as Hlt. unfold nd. unfold zlen in *. lia. }
    destruct (skipn nd sorted) as [|[j p] rest] eqn:E.
    { apply (f_equal (@List.length _)) in E. rewrite skipn_length in E. cbn in E. lia. }
    assert (Hjs : In (j, p) sorted) by (rewrite <- (firstn_skipn nd sorted), E; apply in_or_app; right; left; reflexivity).
    apply sorted_form in Hjs. destruct Hjs as (Hj & -> & _).
    exists j. split; [|split; [exact Hj|apply Keep; [exact Hj|left; reflexivity]]].
    pose proof (sorted_app Ss Hin (or_introl eq_refl)) as Hle. apply state_le in Hle. exact Hle.
  - exists i. split; [lia|]. split; [exact Hi|apply Keep; assumption].
Qed.
(** After pruning only the retained states are left. *)
Lemma prune_done i : 0 <= i -> run_ops d ops (at_ (state_name i)) <> None -> In (i, at_ (state_name i)) (skipn nd sorted).
Proof.
  intros Hi Hd. rewrite <- (firstn_all ops) in Hd.
  assert (Hin : In (i, at_ (state_name i)) sorted).
  { apply sorted_in; [exact Hi|]. destruct (prune_any (List.length ops) (at_ (state_name i))) as [E|E]; congruence. }
  rewrite <- (firstn_skipn nd sorted) in Hin. apply in_app_or in Hin. destruct Hin as [Hin|Hin]; [|exact Hin].
  exfalso. apply Hd. rewrite firstn_all. rewrite run_removes by (intros o Ho; apply ops_removes; exact Ho).
  assert (X : existsb (fun o => match o with Remove q => str_eqb (at_ (state_name i)) q | _ => false end) ops = true).
  { apply existsb_exists. exists (Remove (at_ (state_name i))). split; [|apply str_eqb_refl].
    destruct cleanup_parts as (prot & _ & -> & _). apply in_or_app. left. apply in_map_iff. exists (i, at_ (state_name i)). auto. }
  rewrite X. reflexivity.
Qed.
(** Which model files are removed. *)
Lemma latest_spec l m : latest_iter l = Some m -> (exists p, In (m, p) l) /\ forall j p, In (j, p) l -> j <= m.
Proof.
  destruct l as [|[i0 p0] l]; [discriminate|]. cbn [latest_iter]. intros E. injection E as E. revert i0 p0 m E. induction l as [|[i1 p1] l IH]; intros i0 p0 m E; cbn [fold_left fst] in E.
  - subst. split; [exists p0; left; reflexivity|]. intros j p [H|[]]. inversion H. lia.
  - destruct (IH (Z.max i0 i1) p0 m E) as ((p & Hp) & Hm).
    assert (M : Z.max i0 i1 <= m) by (apply (Hm _ p0); left; reflexivity). split.
    + destruct Hp as [Hp|Hp]; [|exists p; right; right; exact Hp]. inversion Hp; subst.
      destruct (Z.max_spec i0 i1) as [(_ & X)|(_ & X)]; rewrite X; [exists p1; right; left; reflexivity|exists p; left; reflexivity].
    + intros j q [H|[H|H]]; [inversion H; lia|inversion H; lia|apply (Hm j q); right; exact H].
Qed.
Lemma model_name_plain n i : 0 <= i -> ~ In slash n -> ~ In slash (model_ckpt_name n i).
Proof.
  intros Hi Hn H. unfold model_ckpt_name in H. apply in_app_or in H. destruct H as [H|H]; [cbn in H; intuition discriminate|].
  apply in_app_or in H. destruct H as [H|H]; [exact (Hn H)|]. apply (state_name_plain Hi). unfold state_name. apply in_or_app. right. destruct H as [H|H]; [discriminate|exact H].
Qed.
Lemma model_listed n i : 0 <= i -> ~ In slash n -> d (at_ (model_ckpt_name n i)) <> None -> In (i, at_ (model_ckpt_name n i)) (model_files dir fs).
Proof.
  intros Hi Hn Hd. unfold model_files. apply in_flat_map. exists (model_ckpt_name n i). split; [apply Hlists; split; [apply model_name_plain; assumption|exact Hd]|].
  rewrite (model_iteration Hi Hn). left. reflexivity.
Qed.
Lemma removed_model_iff n i : 0 <= i -> ~ In slash n -> d (at_ (model_ckpt_name n i)) <> None ->
  (In (Remove (at_ (model_ckpt_name n i))) ops <->
   In i order /\ ~ In i (map fst (skipn nd sorted)) /\
   exists f j, ~ In slash f /\ d (at_ f) <> None /\ startswith (lit "ckpt_") f = true /\ get_iteration_from_ckpt_filename f = Some j /\ i < j).
Proof.
  intros Hi Hn Hd. pose proof (model_listed Hi Hn Hd) as Hm. split.
  - intros H. destruct (removed_model Hi Hn H) as (H1 & H2). split; [exact H1|]. split; [exact H2|].
    destruct cleanup_parts as (prot & _ & Eo & _). rewrite Eo in H. rewrite !in_app_iff, !in_map_iff, in_flat_map in H.
    destruct H as [((j & q) & E & H)|[(f & E & H)|(j & Hj & H)]].
    + inversion E; subst q. assert (Hs : In (j, at_ (model_ckpt_name n i)) sorted) by (eapply in_firstn; eassumption).
      apply sorted_form in Hs. destruct Hs as (_ & Ej & _). apply at_inj in Ej. discriminate.
    + inversion E as [E2]. apply at_inj in E2. subst f. apply filter_In in H. destruct H as [_ H]. exfalso.
      apply orb_prop in H. destruct H as [H|H].
      * apply andb_prop in H. destruct H as [H _]. apply sidecar_head in H. destruct H as [t H]. discriminate.
      * apply temp_head in H. destruct H as [t H]. discriminate.
    + apply in_map_iff in H. destruct H as ((m & q) & E & H). apply filter_In in H. destruct H as [H Hmj].
      cbn in Hmj. apply Z.eqb_eq in Hmj. subst m. apply model_files_in in H. destruct H as (f & _ & Hf & _ & _ & ->). inversion E as [E2].
      apply at_inj in E2. subst f. rewrite (model_iteration Hi Hn) in Hf. inversion Hf; subst j. apply filter_In in Hj.
      destruct Hj as [_ Hp]. unfold prunable in Hp. apply andb_prop in Hp. destruct Hp as [Hp _]. apply negb_true_iff in Hp.
      destruct (latest_iter (model_files dir fs)) as [m|] eqn:El; [|destruct (model_files dir fs) as [|[? ?] ?]; [destruct Hm|discriminate]].
      destruct (latest_spec El) as ((p & Hin) & Hmax). specialize (Hmax _ _ Hm). apply Z.eqb_neq in Hp.
      apply model_files_in in Hin. destruct Hin as (f & Hf1 & Hf2 & _ & Hf3 & ->). apply Hlists in Hf1. destruct Hf1 as (P1 & P2).
      exists f, m. split; [exact P1|]. split; [exact P2|]. split; [exact Hf3|]. split; [exact Hf2|lia].
  - intros (H1 & H2 & f & j & P1 & P2 & P3 & P4 & P5). destruct cleanup_parts as (prot & _ & -> & _). apply in_or_app. right. apply in_or_app. right.
    apply in_flat_map. exists i. split.
    + apply filter_In. split; [exact H1|]. unfold prunable. apply andb_true_intro. split; apply negb_true_iff.
      * destruct (latest_iter (model_files dir fs)) as [m|] eqn:El; [|reflexivity]. destruct (latest_spec El) as (_ & Hmax).
        assert (Hj : In (j, at_ f) (model_files dir fs)).
        { unfold model_files. apply in_flat_map. exists f. split; [apply Hlists; auto|]. rewrite P4, P3.
          destruct (startswith (lit "state_") f) eqn:S; [|left; reflexivity]. exfalso. destruct f as [|c f]; [discriminate P3|]. cbn in P3, S. apply andb_prop in P3. apply andb_prop in S. destruct P3 as (P3 & _). destruct S as (S & _). clear - P3 S. destruct c as [[] [] [] [] [] [] [] []]; discriminate. }
        specialize (Hmax _ _ Hj). apply Z.eqb_neq. lia.
      * apply not_true_iff_false. intros X. apply existsb_exists in X. destruct X as (x & Hx & Ex). apply Z.eqb_eq in Ex. subst x. exact (H2 Hx).
    + apply in_map_iff. exists (i, at_ (model_ckpt_name n i)). split; [reflexivity|]. apply filter_In. split; [exact Hm|apply Z.eqb_refl].
Qed.
End Prune.

(** ** Resuming from a directory in order *)
Lemma load_models_ok d (ev : save) ns : (forall n, In n ns -> d (at_ (model_ckpt_name n (sv_it ev))) = Some (Whole (OModel (sv_it ev) (sv_weights ev n)))) ->
  load_models dir d (sv_it ev) ns = Ok (map (sv_weights ev) ns).
Proof.
  induction ns as [|n ns IH]; intros H; [reflexivity|]. cbn [load_models map]. rewrite (H n (or_introl eq_refl)). rewrite Z.eqb_refl.
  rewrite IH by (intros; apply H; right; assumption). reflexivity.
Qed.
Lemma check_sidecars_ok d l : sidecars_whole d l -> check_sidecars dir d l = Ok tt.
Proof.
  induction l as [|f l IH]; intros H; [reflexivity|]. cbn [check_sidecars]. destruct (H f (or_introl eq_refl)) as [p ->].
  apply IH. intros g Hg. apply H. right. exact Hg.
Qed.
Lemma resume_spec h d ss fs : inv h d ss -> lists d fs ->
  (resume d fs = Ok None /\ forall i, 0 <= i -> d (at_ (state_name i)) = None)
  \/ exists ev o, In (ev, o) h /\ saves_state ev = true /\ d (at_ (state_name (sv_it ev))) <> None
     /\ (forall i, 0 <= i -> d (at_ (state_name i)) <> None -> i <= sv_it ev)
     /\ resume d fs = Ok (Some (sv_it ev, sv_training ev, map (sv_weights ev) names)).
Proof.
  intros I Hl. set (entries := map (fun f => (f, true)) fs).
  assert (Hplain : plain_names entries).
  { intros f b H. apply in_map_iff in H. destruct H as (g & E & H). inversion E; subst. apply Hl in H. apply H. }
  assert (Hcand : forall f, candidate entries (lit "state_") default_exts f <-> exists i, 0 <= i /\ f = state_name i /\ d (at_ f) <> None).
  { intros f. split.
    - intros (Hin & Hs & e & hd & He & Hf). apply in_map_iff in Hin. destruct Hin as (g & E & Hg). inversion E; subst g.
      apply Hl in Hg. destruct Hg as [_ Hg]. apply startswith_spec in Hs. destruct (i_state I Hg Hs) as (i & Hi & [->| ->]); [eauto|].
      exfalso. apply (@tmp_not_checkpoint (state_name i)). exists hd, e. split; [exact Hf|exact He].
    - intros (i & Hi & -> & Hd). split; [apply in_map_iff; exists (state_name i); split; [reflexivity|]; apply Hl; split; [apply state_name_plain; exact Hi|exact Hd]|].
      split; [eexists; reflexivity|]. exists (lit ".pt"), (lit "state_" ++ padded i). split; [left; reflexivity|].
      unfold state_name. rewrite <- app_assoc. reflexivity. }
  unfold CheckpointSet.resume. fold entries.
  set (its := map fst (state_files dir fs)).
  assert (Hits : forall i, In i its <-> 0 <= i /\ d (at_ (state_name i)) <> None).
  { intros i. unfold its. rewrite in_map_iff. split.
    - intros ((j & p) & <- & Hj). apply state_files_in in Hj. destruct Hj as (f & Hf & Ei & Hs & ->). apply Hl in Hf. destruct Hf as [_ Hf].
      cbn [fst]. destruct (i_state I Hf Hs) as (i & Hi & [->| ->]).
      + rewrite (state_iteration Hi) in Ei. inversion Ei; subst. auto.
      + rewrite (state_tmp_iteration Hi) in Ei. discriminate.
    - intros [Hi Hd]. exists (i, at_ (state_name i)). split; [reflexivity|]. apply state_files_in. exists (state_name i).
      split; [apply Hl; split; [apply state_name_plain; exact Hi|exact Hd]|]. split; [apply state_iteration; exact Hi|]. split; reflexivity. }
  destruct its as [|i0 its0] eqn:Eits.
  - left. assert (Hno : forall i, 0 <= i -> d (at_ (state_name i)) = None).
    { intros i Hi. destruct (d (at_ (state_name i))) as [c|] eqn:E; [|reflexivity]. exfalso. apply (proj2 (Hits i)). split; [exact Hi|congruence]. }
    split; [|exact Hno].
    assert (E : find_latest_ckpt (Some entries) dir (lit "state_") default_exts = None).
    { apply C28_none_exactly_when_nothing_matches. right. exists entries. split; [reflexivity|]. intros f Hf.
      apply Hcand in Hf. destruct Hf as (i & Hi & -> & Hd). apply Hd. apply Hno. exact Hi. }
    rewrite E. reflexivity.
  - right. destruct (@C28_resume_picks_the_newest_state entries dir (i0 :: its0) Hplain) as (m & Hm & Hmax & E).
    + intros i Hi. apply Hits in Hi. apply Hi.
    + discriminate.
    + intros f. rewrite Hcand. split.
      * intros (i & Hi & -> & Hd). exists i. split; [apply Hits; auto|reflexivity].
      * intros (i & Hi & ->). apply Hits in Hi. exists i. destruct Hi. auto.
    + apply Hits in Hm. destruct Hm as [Hm0 Hmd]. destruct (i_set I Hm0 Hmd) as (ev & o & sc & Hh & <- & Hss & Hd & Hmod & Hsc & _).
      exists ev, o. split; [exact Hh|]. split; [exact Hss|]. split; [exact Hmd|]. split.
      * intros i Hi Hdi. apply Hmax. apply Hits. auto.
      * rewrite E. rewrite iteration_of_join by (apply state_name_plain; exact Hm0). rewrite (state_iteration Hm0).
        change (join_path dir (state_name (sv_it ev))) with (at_ (state_name (sv_it ev))). rewrite Hd, Z.eqb_refl.
        rewrite (load_models_ok Hmod). cbn [bind]. rewrite (check_sidecars_ok Hsc). reflexivity.
Qed.

(** ** The invariant holds along every history *)
Lemma in_snoc (A : Type) (l : list A) x y : In y (l ++ [x]) <-> In y l \/ y = x.
Proof. rewrite in_app_iff. cbn. intuition congruence. Qed.

(** Before pruning. *)
Lemma writes_inv h d ss s rt k o : inv h d (Some ss) -> save_called ss s -> tokens_fresh dir d s ->
  interleave (map (sidecar_ops dir s) (seq 0 world)) rt ->
  (o = Completed -> (List.length (write_ops s rt) <= k)%nat) ->
  inv (h ++ [(s, o)]) (run_ops d (firstn k (write_ops s rt))) None.
Proof.
  intros I [Hit Hcall] Hfresh Hil Hfull. set (d1 := run_ops d (firstn k (write_ops s rt))).
  (* no state of this iteration yet *)
  assert (Hnone : d (at_ (state_name (sv_it s))) = None).
  { destruct (d (at_ (state_name (sv_it s)))) as [c|] eqn:E; [|reflexivity]. exfalso.
    destruct (i_cur I eq_refl Hit) as [H|[H1 H2]]; [congruence| |]; destruct Hcall as [Hc|(_ & Hc & Hc2)]; try lia; congruence. }
  assert (Hother : forall i, 0 <= i -> i <> sv_it s -> d1 (at_ (state_name i)) = d (at_ (state_name i))).
  { intros i Hi Hne. apply writes_untouched; auto; try (intros; discriminate).
    - intros n _. split; discriminate.
    - intros E. apply state_inj in E; auto.
    - apply not_tmp_suffix. apply state_pt. }
  assert (Hmodel : forall n i, In n names -> 0 <= i -> i <> sv_it s -> d1 (at_ (model_ckpt_name n i)) = d (at_ (model_ckpt_name n i))).
  { intros n i Hn Hi Hne. apply writes_untouched; auto; try (intros; discriminate).
    intros m Hm. split; [intros E; apply model_inj in E; auto; destruct E; contradiction|apply not_tmp_suffix; apply model_pt]. }
  assert (Hside : forall f, (exists t, f = "r"%char :: t) -> d (at_ f) <> None -> d1 (at_ f) = d (at_ f)).
  { intros f (t & ->) Hd. apply writes_untouched; auto; try (intros; discriminate).
    - intros r E. destruct Hfresh as [_ Hfr]. destruct (Hfr r) as (_ & _ & Hb & _). unfold base in E. rewrite <- E in Hb. contradiction.
    - intros n _. split; discriminate. }
  pose proof (writes_state state_save_interval names_plain names_distinct Hit Hil Hfresh k) as Hst. cbn zeta in Hst. fold d1 in Hst.
  constructor.
  - intros ev o1 H. apply in_snoc in H. destruct H as [H|H]; [apply (i_pos I H)|inversion H; subst; exact Hit].
  - intros f Hf Hs.
    destruct (str_eq_dec f (state_name (sv_it s))) as [->|H1]; [exists (sv_it s); auto|].
    destruct (str_eq_dec f (state_name (sv_it s) ++ lit ".tmp")) as [->|H2]; [exists (sv_it s); auto|].
    apply (i_state I); [|exact Hs]. unfold d1 in Hf. rewrite writes_untouched in Hf; auto.
    + intros r ->. discriminate.
    + intros r ->. discriminate.
    + intros n _. split; intros ->; discriminate.
  - intros i Hi Hd. destruct (Z.eq_dec i (sv_it s)) as [->|Hne].
    + destruct Hst as [E|(Hss & E & Hm & Hsc)]; [congruence|]. exists s, o, (sidecars world s).
      split; [apply in_snoc; auto|]. split; [reflexivity|]. split; [exact Hss|]. split; [exact E|]. split; [exact Hm|]. split; [exact Hsc|].
      intros f Hf. unfold sidecars in Hf. apply in_map_iff in Hf. destruct Hf as (r & <- & _). eexists. reflexivity.
    + rewrite (Hother i Hi Hne) in Hd. destruct (i_set I Hi Hd) as (ev & o1 & sc & Hh & <- & Hss & E & Hm & Hsc & Hr).
      exists ev, o1, sc. split; [apply in_snoc; auto|]. split; [reflexivity|]. split; [exact Hss|].
      split; [rewrite Hother by auto; exact E|]. split; [intros n Hn; rewrite Hmodel by auto; apply Hm; exact Hn|].
      split; [|exact Hr]. intros f Hf. destruct (Hsc f Hf) as [p Hp]. exists p. rewrite Hside; [exact Hp|auto|congruence].
  - discriminate.
  - intros Hk ev Hin Hss. apply in_snoc in Hin. destruct Hin as [Hin|Hin].
    + destruct (i_keep I Hk Hin Hss) as (i & Hle & Hi & Hd). exists i. split; [exact Hle|]. split; [exact Hi|].
      destruct (Z.eq_dec i (sv_it s)) as [->|Hne]; [congruence|]. rewrite Hother by auto. exact Hd.
    + inversion Hin; subst. exists (sv_it s). split; [lia|]. split; [exact Hit|].
      destruct (writes_done state_save_interval names_plain names_distinct Hit Hil Hfresh) as [_ Hdone]. destruct (Hdone Hss) as [E _].
      unfold d1. rewrite firstn_all2 by (apply Hfull; reflexivity). congruence.
  - intros ev n Hin Hmod Hn. apply in_snoc in Hin. destruct Hin as [Hin|Hin].
    + destruct (i_perm I Hin Hmod Hn) as [w Hw]. destruct (Z.eq_dec (sv_it ev) (sv_it s)) as [Heq|Hne].
      * rewrite Heq in *. destruct (writes_model state_save_interval names_plain names_distinct d Hit Hil k Hn) as [E|E]; fold d1 in E; rewrite E; eauto.
      * rewrite Hmodel; eauto. apply (i_pos I Hin).
    + inversion Hin; subst. destruct (writes_done state_save_interval names_plain names_distinct Hit Hil Hfresh) as [Hdone _].
      exists (sv_weights s n). unfold d1. rewrite firstn_all2 by (apply Hfull; reflexivity). apply Hdone. exact Hn.
  - discriminate.
Qed.

(** During and after pruning. *)
Lemma prune_inv h d fs order ops temp k : inv h d None -> lists d fs -> cleanup d fs order = Ok (ops, temp) ->
  (forall i, In i order -> i mod save_interval <> 0) ->
  inv h (run_ops d (firstn k ops)) None.
Proof.
  intros I Hl Hc Ho. set (d2 := run_ops d (firstn k ops)). constructor.
  - apply (i_pos I).
  - intros f Hf Hs. apply (i_state I); [|exact Hs]. destruct (prune_any Hc k (at_ f)) as [E|E]; fold d2 in E; congruence.
  - intros i Hi Hd. destruct (prune_set Hl Hc (i_state I) Hi Hd) as (E & Hm & Hsc). fold d2 in E, Hm, Hsc. rewrite E in Hd.
    destruct (i_set I Hi Hd) as (ev & o1 & sc & Hh & <- & Hss & Es & Hmm & Hscc & Hr).
    exists ev, o1, sc. split; [exact Hh|]. split; [reflexivity|]. split; [exact Hss|]. split; [rewrite E; exact Es|].
    split; [intros n Hn; rewrite Hm by exact Hn; apply Hmm; exact Hn|]. split; [|exact Hr].
    intros f Hf. destruct (Hscc f Hf) as [p Hp]. exists p. rewrite (Hsc _ _ _ Es Hf (Hr f Hf)). exact Hp.
  - discriminate.
  - intros Hk ev Hin Hss. destruct (i_keep I Hk Hin Hss) as (i & Hle & Hi & Hd).
    destruct (prune_newest Hl Hc (i_state I) k Hk Hi Hd) as (j & Hj & Hj0 & Hdj). exists j. split; [lia|]. auto.
  - intros ev n Hin Hmod Hn. destruct (i_perm I Hin Hmod Hn) as [w Hw]. exists w. unfold d2. rewrite (prune_kept Hc); [exact Hw|].
    intros o Hin2 ->. apply in_firstn in Hin2. apply (removed_model Hl Hc (i_state I)) in Hin2; [|apply (i_pos I Hin)|auto].
    destruct Hin2 as [Hin2 _]. apply (Ho _ Hin2 Hmod).
  - discriminate.
Qed.

Lemma trained_inv d0 h d ss : unused_directory dir d0 -> trained d0 h d ss -> inv h d ss.
Proof.
  intros H0 Htr. induction Htr.
  - constructor.
    + intros ev o [].
    + intros f Hf Hs. exfalso. apply Hf. apply startswith_spec in Hs. destruct Hs as [t ->]. eapply H0. left. reflexivity.
    + intros i Hi Hd. exfalso. apply Hd. apply (H0 _ (padded i ++ lit ".pt")). left. reflexivity.
    + discriminate.
    + intros _ ev [].
    + intros ev n [].
    + discriminate.
  - destruct (resume_spec IHHtr H) as [[_ Hno]|(ev & o & _ & _ & _ & _ & E)]; [|congruence].
    destruct IHHtr. constructor; auto.
    + intros s _ i Hi Hd. rewrite Hno in Hd by exact Hi. contradiction.
    + intros s i E Hin. inversion E; subst. destruct Hin.
  - destruct (resume_spec IHHtr H) as [[E _]|(ev & o & _ & _ & _ & Hmax & E)]; [congruence|]. rewrite E in H1. inversion H1; subst.
    destruct IHHtr. constructor; auto.
    + intros s Es j Hj Hd. inversion Es; subst. cbn. specialize (Hmax j Hj Hd). destruct (Z.eq_dec j (sv_it ev)) as [->|]; [auto|left; lia].
    + intros s j Es Hin. inversion Es; subst. destruct Hin.
  - destruct IHHtr. constructor; auto; discriminate.
  - exfalso. destruct H as [Hit Hcall]. destruct (i_cur IHHtr eq_refl Hit H2) as [H3|[H3 H4]]; destruct Hcall as [Hc|(_ & Hc & Hc2)]; try lia; congruence.
  - assert (Hw : inv (h ++ [(s, Completed)]) (run_ops d (write_ops s rt)) None).
    { rewrite <- (firstn_all (write_ops s rt)) at 1. eapply writes_inv; eauto. }
    assert (Ho : forall i, In i order -> i mod save_interval <> 0).
    { intros i Hi. apply H5 in Hi. unfold temp_with in Hi. destruct (sv_it s mod save_interval =? 0) eqn:E.
      - apply (i_temp IHHtr eq_refl Hi).
      - destruct Hi as [<-|Hi]; [apply Z.eqb_neq; exact E|apply (i_temp IHHtr eq_refl Hi)]. }
    assert (Hp : inv (h ++ [(s, Completed)]) (run_ops (run_ops d (write_ops s rt)) ops) None).
    { rewrite <- (firstn_all ops). eapply prune_inv; eauto. }
    assert (Hcur : forall i, 0 <= i -> run_ops d (write_ops s rt) (at_ (state_name i)) <> None -> i < sv_it s \/ (i = sv_it s /\ saves_state s = true)).
    { intros i Hi Hd. destruct H as [Hit Hcall]. destruct (Z.eq_dec i (sv_it s)) as [->|Hne].
      - right. split; [reflexivity|]. destruct (saves_state s) eqn:Es; [reflexivity|]. exfalso.
        rewrite <- (firstn_all (write_ops s rt)) in Hd.
        destruct (writes_state state_save_interval names_plain names_distinct Hit H3 H2 (List.length (write_ops s rt))) as [E|(X & _)]; [|congruence].
        rewrite E in Hd. destruct (i_cur IHHtr eq_refl Hit Hd) as [H8|[H8 H9]]; destruct Hcall as [Hc|(_ & Hc & Hc2)]; try lia; congruence.
      - left. rewrite <- (firstn_all (write_ops s rt)) in Hd. rewrite writes_untouched in Hd; auto; try (intros; discriminate).
        + destruct (i_cur IHHtr eq_refl Hi Hd) as [H8|[H8 H9]]; destruct Hcall as [Hc|(_ & Hc & Hc2)]; lia.
        + intros n _. split; discriminate.
        + intros E. apply state_inj in E; auto.
        + apply not_tmp_suffix. apply state_pt. }
    destruct Hp as [p1 p2 p3 p4 p5 p6 p7]. constructor; auto.
    + intros s0 E i Hi Hd. inversion E; subst s0; clear E. cbn [ss_iteration ss_last_state].
      assert (Hd2 : run_ops d (write_ops s rt) (at_ (state_name i)) <> None).
      { rewrite <- (firstn_all ops) in Hd. destruct (prune_any H6 (List.length ops) (at_ (state_name i))) as [E|E]; congruence. }
      destruct (Hcur i Hi Hd2) as [Hlt|[-> ->]]; auto.
    + intros s0 i E Hin. inversion E; subst s0; clear E. cbn [ss_temp] in Hin. destruct (cleanup_parts H6) as (prot & _ & _ & ->).
      apply filter_In in Hin. apply Ho. apply Hin.
  - eapply writes_inv; eauto. discriminate.
  - eapply prune_inv; [|eassumption|eassumption|].
    + rewrite <- (firstn_all (write_ops s rt)) at 1. eapply writes_inv; eauto.
    + intros i Hi. apply H5 in Hi. unfold temp_with in Hi. destruct (sv_it s mod save_interval =? 0) eqn:E.
      * apply (i_temp IHHtr eq_refl Hi).
      * destruct Hi as [<-|Hi]; [apply Z.eqb_neq; exact E|apply (i_temp IHHtr eq_refl Hi)].
Qed.

(** Every runtime file in the directory has a name pruning recognises. *)
Definition runtime_ok d := forall f, d (at_ f) <> None ->
  (startswith (lit "runtime_") f = true -> is_sidecar f = true)
  /\ (startswith (lit ".runtime-tmp_") f = true -> is_runtime_temp f = true).
Lemma writes_runtime d s rt k : runtime_ok d -> 0 <= sv_it s -> tokens_fresh dir d s ->
  interleave (map (sidecar_ops dir s) (seq 0 world)) rt -> runtime_ok (run_ops d (firstn k (write_ops s rt))).
Proof.
  intros Hr Hit [Hg Hfr] Hil f Hf.
  assert (Hbase : forall r, is_sidecar (base s r) = true) by (intros r; apply basename_is_sidecar; assumption).
  assert (Htemp : forall r, is_runtime_temp (temp_ s r) = true) by (intros r; destruct (Hfr r) as (Hp & Hn & _); apply temp_is_temp; assumption).
  split; intros Hs.
  - destruct (is_sidecar f) eqn:E; [reflexivity|]. apply startswith_spec in Hs. destruct Hs as [t Ht]. rewrite <- E. 
    assert (Hold : d (at_ f) <> None).
    { rewrite writes_untouched in Hf; auto.
      - intros r X. rewrite X, Hbase in E. discriminate.
      - intros r X. rewrite X in Ht. discriminate.
      - intros n _. split; intros X; rewrite X in Ht; discriminate.
      - intros X. rewrite X in Ht. discriminate.
      - intros X. rewrite X in Ht. discriminate. }
    apply (Hr f Hold). subst f. reflexivity.
  - destruct (is_runtime_temp f) eqn:E; [reflexivity|]. apply startswith_spec in Hs. destruct Hs as [t Ht]. rewrite <- E. 
    assert (Hold : d (at_ f) <> None).
    { rewrite writes_untouched in Hf; auto.
      - intros r X. rewrite X in Ht. discriminate.
      - intros r X. rewrite X, Htemp in E. discriminate.
      - intros n _. split; intros X; rewrite X in Ht; discriminate.
      - intros X. rewrite X in Ht. discriminate.
      - intros X. rewrite X in Ht. discriminate. }
    apply (Hr f Hold). subst f. reflexivity.
Qed.
Lemma prune_runtime d fs order ops temp k : cleanup d fs order = Ok (ops, temp) -> runtime_ok d -> runtime_ok (run_ops d (firstn k ops)).
Proof. intros Hc Hr f Hf. apply Hr. destruct (prune_any Hc k (at_ f)) as [E|E]; congruence. Qed.
Lemma trained_runtime d0 h d ss : unused_directory dir d0 -> trained d0 h d ss -> runtime_ok d.
Proof.
  intros H0 Htr. induction Htr; try assumption.
  - intros f Hf. split; intros Hs; exfalso; apply Hf; apply startswith_spec in Hs; destruct Hs as [t ->]; eapply H0; [right; right; left|right; right; right]; reflexivity.
  - rewrite <- (firstn_all ops). eapply prune_runtime; [eassumption|].
    rewrite <- (firstn_all (write_ops s rt)). eapply writes_runtime; eauto. apply H.
  - eapply writes_runtime; eauto. apply H.
  - eapply prune_runtime; [eassumption|].
    rewrite <- (firstn_all (write_ops s rt)). eapply writes_runtime; eauto. apply H.
Qed.

(** C38: after any history of saves, crashes at any point and restarts, resuming never
    fails for want of a file: either there is no training state at all, or resuming
    returns the iteration, the training state and the weights of every model of one and
    the same save of the history. *)
Theorem C38_resuming_finds_one_complete_save :
  forall d0 h d ss fs, unused_directory dir d0 -> trained d0 h d ss -> lists d fs ->
  (resume d fs = Ok None /\ forall i, 0 <= i -> d (join_path dir (state_name i)) = None)
  \/ exists s o, In (s, o) h /\ saves_state s = true
     /\ resume d fs = Ok (Some (sv_it s, sv_training s, map (sv_weights s) names)).
Proof.
  intros d0 h d ss fs H0 Htr Hl. destruct (resume_spec (trained_inv H0 Htr) Hl) as [H|(ev & o & Hh & Hs & _ & _ & E)]; [left; exact H|].
  right. exists ev, o. auto.
Qed.

(** C38: a training state whose save completed is never lost to a later crash: resuming
    continues at its iteration or a later one (unless num_keep_states is 0, which deletes
    every state). *)
Theorem C38_completed_saves_are_not_lost :
  forall d0 h d ss fs s, unused_directory dir d0 -> trained d0 h d ss -> lists d fs ->
  num_keep_states <> 0 -> In (s, Completed) h -> saves_state s = true ->
  exists i t ws, resume d fs = Ok (Some (i, t, ws)) /\ sv_it s <= i.
Proof.
  intros d0 h d ss fs s H0 Htr Hl Hk Hin Hs. pose proof (trained_inv H0 Htr) as I.
  destruct (i_keep I Hk Hin Hs) as (i & Hle & Hi & Hd).
  destruct (resume_spec I Hl) as [[_ Hno]|(ev & o & _ & _ & _ & Hmax & E)]; [rewrite Hno in Hd by exact Hi; contradiction|].
  specialize (Hmax i Hi Hd). eexists; eexists; eexists. split; [exact E|lia].
Qed.

(** C38: the model files of a completed permanent checkpoint (a multiple of the save
    interval) are never pruned and never torn. *)
Theorem C38_permanent_checkpoints_stay :
  forall d0 h d ss s n, unused_directory dir d0 -> trained d0 h d ss ->
  In (s, Completed) h -> sv_it s mod save_interval = 0 -> In n names ->
  exists w, d (join_path dir (model_ckpt_name n (sv_it s))) = Some (Whole (OModel (sv_it s) w)).
Proof. intros d0 h d ss s n H0 Htr Hin Hm Hn. apply (i_perm (trained_inv H0 Htr) Hin Hm Hn). Qed.


(** C38: pruning after a save never gives up on a directory only trainers have worked in
    (provided the states saved in it pass the checks on the states themselves). *)
Theorem C38_pruning_does_not_fail :
  forall d0 h d ss s rt fs order, unused_directory dir d0 -> trained d0 h d (Some ss) ->
  save_called ss s -> tokens_fresh dir d s -> interleave (map (sidecar_ops dir s) (seq 0 world)) rt ->
  lists (run_ops d (write_ops s rt)) fs ->
  (forall ev o, In (ev, o) h \/ ev = s -> valid (sv_training ev) = true) ->
  exists ops temp, cleanup (run_ops d (write_ops s rt)) fs order = Ok (ops, temp).
Proof.
  intros d0 h d ss s rt fs order H0 Htr Hcall Hfresh Hil Hl Hv. pose proof (trained_inv H0 Htr) as I.
  assert (Hw : inv (h ++ [(s, Completed)]) (run_ops d (write_ops s rt)) None).
  { rewrite <- (firstn_all (write_ops s rt)) at 1. eapply writes_inv; eauto. }
  assert (Hr : runtime_ok (run_ops d (write_ops s rt))).
  { rewrite <- (firstn_all (write_ops s rt)). eapply writes_runtime; eauto; [eapply trained_runtime; eassumption|apply Hcall]. }
  set (d1 := run_ops d (write_ops s rt)) in *. clearbody d1.
  unfold CheckpointSet.cleanup. cbv zeta. fold (sorted fs). fold (nd fs).
  assert (Hp : exists prot, protected_sidecars valid d1 (skipn (nd fs) (sorted fs)) = Ok prot).
  { assert (Hsub : forall i p, In (i, p) (skipn (nd fs) (sorted fs)) -> exists t sc, d1 p = Some (Whole (OState i t sc)) /\ valid t = true).
    { intros i p Hin. assert (Hs : In (i, p) (sorted fs)) by (rewrite <- (firstn_skipn (nd fs) (sorted fs)); apply in_or_app; right; exact Hin).
      apply (sorted_form Hl (i_state Hw)) in Hs. destruct Hs as (Hi & -> & Hd).
      destruct (i_set Hw Hi Hd) as (ev & o & sc & Hh & <- & _ & E & _). exists (sv_training ev), sc. split; [exact E|].
      apply (Hv ev o). apply in_snoc in Hh. destruct Hh as [Hh|Hh]; [auto|inversion Hh; auto]. }
    clear - Hsub. induction (skipn (nd fs) (sorted fs)) as [|[i p] l IH]; [exists []; reflexivity|].
    destruct (Hsub i p (or_introl eq_refl)) as (t & sc & E & Ht). destruct IH as [prot IH]; [intros; apply Hsub; right; assumption|].
    cbn [protected_sidecars]. rewrite E, Z.eqb_refl, Ht. cbn [andb]. rewrite IH. cbn. eauto. }
  destruct Hp as [prot Hp]. rewrite Hp. cbn [bind].
  match goal with |- context [if ?c then _ else _] => assert (Hg : c = true) end.
  { apply forallb_forall. intros f Hf. apply Hl in Hf. destruct Hf as [_ Hf]. destruct (Hr f Hf) as [H1 H2].
    apply negb_true_iff. apply orb_false_intro.
    - destruct (startswith (lit "runtime_") f); [rewrite H1 by reflexivity|]; reflexivity.
    - destruct (startswith (lit ".runtime-tmp_") f); [rewrite H2 by reflexivity|]; reflexivity. }
  rewrite Hg. eauto.
Qed.

(** C38: after a completed save the directory holds at most num_keep_states training
    states (a negative number keeps them all). *)
Theorem C38_at_most_num_keep_states_remain :
  forall d0 h d ss s rt fs order ops temp fs2, unused_directory dir d0 -> trained d0 h d (Some ss) ->
  save_called ss s -> tokens_fresh dir d s -> interleave (map (sidecar_ops dir s) (seq 0 world)) rt ->
  lists (run_ops d (write_ops s rt)) fs -> cleanup (run_ops d (write_ops s rt)) fs order = Ok (ops, temp) ->
  lists (run_ops (run_ops d (write_ops s rt)) ops) fs2 -> 0 <= num_keep_states ->
  Z.of_nat (List.length (filter (fun f => startswith (lit "state_") f && endswith (lit ".pt") f) fs2)) <= num_keep_states.
Proof.
  intros d0 h d ss s rt fs order ops temp fs2 H0 Htr Hcall Hfresh Hil Hl Hc Hl2 Hk. pose proof (trained_inv H0 Htr) as I.
  assert (Hw : inv (h ++ [(s, Completed)]) (run_ops d (write_ops s rt)) None).
  { rewrite <- (firstn_all (write_ops s rt)) at 1. eapply writes_inv; eauto. }
  set (d1 := run_ops d (write_ops s rt)) in *. clearbody d1.
  set (l := filter _ fs2).
  assert (Hincl : incl (map at_ l) (map snd (skipn (nd fs) (sorted fs)))).
  { intros p Hp. apply in_map_iff in Hp. destruct Hp as (f & <- & Hf). apply filter_In in Hf. destruct Hf as [Hf Hb].
    apply andb_prop in Hb. destruct Hb as [Hs Hpt]. apply Hl2 in Hf. destruct Hf as [_ Hf].
    assert (Hf1 : d1 (at_ f) <> None) by (rewrite <- (firstn_all ops) in Hf; destruct (prune_any Hc (List.length ops) (at_ f)) as [E|E]; congruence).
    destruct (i_state Hw Hf1 Hs) as (i & Hi & [->| ->]).
    - apply in_map_iff. exists (i, at_ (state_name i)). split; [reflexivity|]. eapply prune_done; eauto.
    - exfalso. eapply not_tmp_suffix; [exact Hpt|reflexivity]. }
  assert (Hn : NoDup (map at_ l)).
  { apply FinFun.Injective_map_NoDup; [intros f g E; apply at_inj in E; exact E|]. apply NoDup_filter. apply Hl2. }
  pose proof (NoDup_incl_length Hn Hincl) as Hlen. rewrite !map_length, skipn_length in Hlen.
  unfold nd, num_delete in Hlen. destruct (num_keep_states <? 0) eqn:E; [apply Z.ltb_lt in E; lia|].
  unfold zlen in Hlen. lia.
Qed.

(** C38: of the model files, pruning removes exactly those of temporary snapshots of this
    run that are not the newest and whose training state does not stay. *)
Theorem C38_which_models_are_pruned :
  forall d0 h d ss s rt fs order ops temp n i, unused_directory dir d0 -> trained d0 h d (Some ss) ->
  save_called ss s -> tokens_fresh dir d s -> interleave (map (sidecar_ops dir s) (seq 0 world)) rt ->
  let d1 := run_ops d (write_ops s rt) in lists d1 fs -> cleanup d1 fs order = Ok (ops, temp) ->
  let d2 := run_ops d1 ops in
  0 <= i -> ~ In slash n -> d1 (join_path dir (model_ckpt_name n i)) <> None ->
  (d2 (join_path dir (model_ckpt_name n i)) = None <->
   In i order
   /\ d2 (join_path dir (state_name i)) = None
   /\ exists f j, ~ In slash f /\ d1 (join_path dir f) <> None /\ startswith (lit "ckpt_") f = true /\ get_iteration_from_ckpt_filename f = Some j /\ i < j).
Proof.
  intros d0 h d ss s rt fs order ops temp n i H0 Htr Hcall Hfresh Hil d1 Hl Hc d2 Hi Hn Hd. pose proof (trained_inv H0 Htr) as I.
  assert (Hw : inv (h ++ [(s, Completed)]) d1 None).
  { unfold d1. rewrite <- (firstn_all (write_ops s rt)) at 1. eapply writes_inv; eauto. }
  unfold d2. clear d2. clearbody d1.
  change (join_path dir (model_ckpt_name n i)) with (at_ (model_ckpt_name n i)) in *. change (join_path dir (state_name i)) with (at_ (state_name i)).
  assert (Rm : forall p, d1 p <> None -> (run_ops d1 ops p = None <-> In (Remove p) ops)).
  { intros p Hp. rewrite run_removes by (intros o Ho; exact (ops_removes Hc Ho)). destruct (existsb _ ops) eqn:X.
    - apply existsb_exists in X. destruct X as (o & Ho & Eo). destruct (ops_removes Hc Ho) as (q & ->). apply str_eqb_eq in Eo. subst q. split; [intros _; exact Ho|reflexivity].
    - split; [intros E; congruence|]. intros Ho. rewrite <- not_true_iff_false in X. exfalso. apply X. apply existsb_exists. exists (Remove p). split; [exact Ho|apply str_eqb_refl]. }
  rewrite (Rm _ Hd). rewrite (removed_model_iff Hl Hc (i_state Hw) Hi Hn Hd).
  assert (St : ~ In i (map fst (skipn (nd fs) (sorted fs))) <-> run_ops d1 ops (at_ (state_name i)) = None).
  { split.
    - intros H. destruct (run_ops d1 ops (at_ (state_name i))) eqn:E; [|reflexivity]. exfalso. apply H. apply in_map_iff. exists (i, at_ (state_name i)). split; [reflexivity|].
      apply (prune_done Hl Hc Hi). congruence.
    - intros E H. apply in_map_iff in H. destruct H as ((j & p) & Ej & H). cbn in Ej. subst j.
      assert (Hs : In (i, p) (sorted fs)) by (rewrite <- (firstn_skipn (nd fs) (sorted fs)); apply in_or_app; right; exact H).
      destruct (sorted_form Hl (i_state Hw) Hs) as (_ & -> & Hd1). apply (Rm _ Hd1) in E. apply (removed_state Hl Hc (i_state Hw) Hi) in E.
      pose proof (sorted_nodup Hl) as Nd. rewrite <- (firstn_skipn (nd fs) (sorted fs)) in Nd. clear - Nd E H. induction (firstn (nd fs) (sorted fs)) as [|x l IH]; [destruct E|].
      cbn in Nd. inversion Nd as [|? ? N1 N2]; subst. destruct E as [->|E]; [apply N1; apply in_or_app; right; exact H|exact (IH E N2)]. }
  rewrite St. reflexivity.
Qed.

End Set_.

(** ** Example: a run that saves twice, dies in the middle of a third save, and resumes. *)
Module Ex.
Definition dir := lit "run".
Definition names := [lit "a"; lit "b"].
Definition tok (c : ascii) : str := repeat c 32.
Definition mk (it : Z) (c : ascii) : save Z Z unit :=
  {| sv_it := it; sv_force := false; sv_weights := fun n => it * 10 + zlen n; sv_training := it * 1000;
     sv_generation := tok c; sv_payload := fun _ => tt; sv_pid := fun _ => 77; sv_nonce := fun _ => tok c; sv_chunks := 1 |}.
Definition d0 : disk (obj Z Z unit) := fun _ => None.
Definition s1 := mk 5 "a"%char.
Definition s2 := mk 8 "b"%char.
Definition s3 := mk 10 "c"%char.
Definition rt (s : save Z Z unit) := sidecar_ops dir s 0.
Definition wr (s : save Z Z unit) := write_ops dir names 1 None s (rt s).
Definition files (s : save Z Z unit) : list str :=
  [state_name (sv_it s); model_ckpt_name (lit "a") (sv_it s); model_ckpt_name (lit "b") (sv_it s); runtime_basename (sv_it s) (sv_generation s) 0].
Definition used (s : save Z Z unit) : list str :=
  files s ++ map (fun f => f ++ lit ".tmp") (files s) ++ [runtime_temp (sv_it s) (sv_generation s) 0 77 (sv_nonce s 0)].
Definition clean (d : disk (obj Z Z unit)) fs order := cleanup dir 1 (fun _ => true) d fs order.
Definition d1 := run_ops d0 (wr s1).
Definition ops1 := match clean d1 (files s1) [5] with Ok (o, _) => o | Err _ => [] end.
Definition d1' := run_ops d1 ops1.
Definition d2 := run_ops d1' (wr s2).
Definition ops2 := match clean d2 (files s1 ++ files s2) [8; 5] with Ok (o, _) => o | Err _ => [] end.
Definition d2' := run_ops d2 ops2.
Definition d3 := run_ops d2' (firstn 12 (wr s3)).

Lemma lists_by (d : disk (obj Z Z unit)) (u fs : list str) : NoDup fs ->
  (forall f, ~ In f u -> d (at_ dir f) = None) ->
  (forall f, In f u -> ~ In slash f) -> incl fs u ->
  (forall f, In f u -> existsb (str_eqb f) fs = match d (at_ dir f) with None => false | _ => true end) ->
  lists dir d fs.
Proof.
  intros Hn Hu Hs Hi H. split; [exact Hn|]. intros f. split.
  - intros Hf. split; [apply Hs, Hi, Hf|]. specialize (H f (Hi f Hf)). intros X. rewrite X in H.
    rewrite <- not_true_iff_false in H. apply H. apply existsb_exists. exists f. split; [exact Hf|apply str_eqb_refl].
  - intros [_ Hf]. destruct (in_dec str_eq_dec f u) as [Hin|Hin]; [|elim Hf; auto].
    specialize (H f Hin). destruct (d (at_ dir f)); [|elim Hf; auto]. apply existsb_exists in H. destruct H as (g & Hg & E).
    apply str_eqb_eq in E. subst. exact Hg.
Qed.
Definition op_names (o : op (obj Z Z unit)) : list str :=
  match o with Write q _ => [q] | Replace a b => [a; b] | Link _ b => [b] | Remove a => [a] end.
Lemma unused_by (u : list str) (l : list (op (obj Z Z unit))) (d : disk (obj Z Z unit)) f :
  forallb (fun o => forallb (fun p => existsb (str_eqb p) (map (at_ dir) u)) (op_names o)) l = true ->
  ~ In f u -> run_ops d l (at_ dir f) = d (at_ dir f).
Proof.
  intros H Hf. apply run_ops_untouched. intros o Ho Ht. rewrite forallb_forall in H. specialize (H o Ho).
  assert (Hin : In (at_ dir f) (op_names o)) by (destruct o; cbn in *; intuition).
  rewrite forallb_forall in H. specialize (H _ Hin). apply existsb_exists in H. destruct H as (q & Hq & E).
  apply str_eqb_eq in E. subst q. apply in_map_iff in Hq. destruct Hq as (g & E & Hg). apply at_inj in E. subst. contradiction.
Qed.
Fixpoint nodupb (l : list str) : bool := match l with [] => true | x :: r => negb (existsb (str_eqb x) r) && nodupb r end.
Lemma nodupb_ok l : nodupb l = true -> NoDup l.
Proof.
  induction l as [|x l IH]; intros H; constructor; cbn in H; apply andb_prop in H; destruct H as [H1 H2]; [|auto].
  intros X. apply negb_true_iff in H1. rewrite <- not_true_iff_false in H1. apply H1. apply existsb_exists. exists x. split; [exact X|apply str_eqb_refl].
Qed.
(** Everything that [lists] asks for, decided on the names in use. *)
Lemma lists_dec (l : list (op (obj Z Z unit))) (u fs : list str) :
  nodupb fs && forallb (fun o => forallb (fun p => existsb (str_eqb p) (map (at_ dir) u)) (op_names o)) l
  && forallb (fun f => negb (existsb (Ascii.eqb slash) f)) u && forallb (fun f => existsb (str_eqb f) u) fs
  && forallb (fun f => Bool.eqb (existsb (str_eqb f) fs) (match run_ops d0 l (at_ dir f) with None => false | _ => true end)) u = true ->
  lists dir (run_ops d0 l) fs.
Proof.
  intros H. repeat (apply andb_prop in H; destruct H as [H ?]). apply (@lists_by _ u).
  - apply nodupb_ok. exact H.
  - intros f Hf. rewrite (unused_by _ H3 Hf). reflexivity.
  - rewrite forallb_forall in H2. intros f Hf X. specialize (H2 f Hf). apply negb_true_iff in H2.
    rewrite <- not_true_iff_false in H2. apply H2. apply existsb_exists. exists slash. split; [exact X|apply Ascii.eqb_refl].
  - intros f Hf. rewrite forallb_forall in H1. specialize (H1 f Hf). apply existsb_exists in H1. destruct H1 as (g & Hg & E).
    apply str_eqb_eq in E. subst. exact Hg.
  - intros f Hf. rewrite forallb_forall in H0. specialize (H0 f Hf). apply eqb_prop in H0. exact H0.
Qed.
Definition all_used := used s1 ++ used s2 ++ used s3.
Notation trained := (trained dir names 1 1 100 None (fun _ => true)).
Lemma il s : interleave (map (sidecar_ops dir s) (seq 0 1)) (rt s).
Proof.
  cbn [seq map]. unfold rt. generalize (sidecar_ops dir s 0). intros l. induction l as [|x l IH].
  - constructor. repeat constructor.
  - apply il_step with (r := 0%nat) (l := l); [reflexivity|exact IH].
Qed.
Lemma fresh (d : disk (obj Z Z unit)) it c : token_text (tok c) = true ->
  d (at_ dir (runtime_basename it (tok c) 0)) = None -> d (at_ dir (runtime_temp it (tok c) 0 77 (tok c))) = None ->
  (forall r, d (at_ dir (runtime_basename it (tok c) (S r))) = None /\ d (at_ dir (runtime_temp it (tok c) (S r) 77 (tok c))) = None) ->
  tokens_fresh dir d (mk it c).
Proof.
  intros Ht H1 H2 H3. split; [exact Ht|]. intros r. cbn [sv_pid sv_nonce sv_it sv_generation mk]. split; [lia|]. split; [exact Ht|].
  destruct r; [auto|]. apply H3.
Qed.
Lemma fresh_dec l c it : token_text (tok c) = true ->
  forallb (fun o => forallb (fun p => existsb (str_eqb p) (map (at_ dir) all_used)) (op_names o)) l = true ->
  forallb (fun f => negb (startswith (lit "runtime_" ++ padded it ++ lit "_" ++ tok c) f || startswith (lit ".runtime-tmp_" ++ padded it ++ lit "_" ++ tok c) f)
                    || match run_ops d0 l (at_ dir f) with None => true | _ => false end) all_used = true ->
  tokens_fresh dir (run_ops d0 l) (mk it c).
Proof.
  intros Ht Hl H. rewrite forallb_forall in H.
  assert (G : forall f, startswith (lit "runtime_" ++ padded it ++ lit "_" ++ tok c) f = true \/ startswith (lit ".runtime-tmp_" ++ padded it ++ lit "_" ++ tok c) f = true ->
    run_ops d0 l (at_ dir f) = None).
  { intros f Hf. destruct (in_dec str_eq_dec f all_used) as [Hin|Hin]; [|apply (unused_by d0 Hl Hin)].
    specialize (H f Hin). destruct Hf as [Hf|Hf]; rewrite Hf in H; rewrite ?orb_true_r in H; cbn [orb negb] in H; destruct (run_ops d0 l (at_ dir f)); congruence. }
  split; [exact Ht|]. intros r. cbn [sv_pid sv_nonce sv_it sv_generation mk]. split; [lia|]. split; [exact Ht|].
  split; apply G; [left|right]; apply startswith_spec; unfold runtime_basename, runtime_temp.
  - exists (lit "_rank_" ++ decimal (Z.of_nat r) ++ lit ".pt"). rewrite <- !app_assoc. reflexivity.
  - exists (lit "_rank_" ++ decimal (Z.of_nat r) ++ lit "_" ++ decimal 77 ++ lit "_" ++ tok c ++ lit ".pt"). rewrite <- !app_assoc. reflexivity.
Qed.
Lemma d1_ops : d1 = run_ops d0 (wr s1). Proof. reflexivity. Qed.
Lemma d1'_ops : d1' = run_ops d0 (wr s1 ++ ops1). Proof. unfold run_ops at 1. rewrite fold_left_app. reflexivity. Qed.
Lemma d2_ops : d2 = run_ops d0 ((wr s1 ++ ops1) ++ wr s2). Proof. unfold d2. rewrite d1'_ops. unfold run_ops at 2. rewrite fold_left_app. reflexivity. Qed.
Lemma d2'_ops : d2' = run_ops d0 (((wr s1 ++ ops1) ++ wr s2) ++ ops2). Proof. unfold d2'. rewrite d2_ops. unfold run_ops at 2. rewrite fold_left_app. reflexivity. Qed.
Lemma d3_ops : d3 = run_ops d0 ((((wr s1 ++ ops1) ++ wr s2) ++ ops2) ++ firstn 12 (wr s3)).
Proof. unfold d3. rewrite d2'_ops. unfold run_ops at 2. rewrite fold_left_app. reflexivity. Qed.

Example history_with_a_crash : trained d0 [(s1, Completed); (s2, Completed); (s3, Interrupted)] d3 None.
Proof.
  assert (T1 : trained d0 [] d0 (Some {| ss_iteration := 0; ss_temp := []; ss_last_state := None |})).
  { eapply tr_fresh with (fs := []); [constructor|apply (@lists_dec [] []); vm_compute; reflexivity|reflexivity]. }
  assert (T2 : trained d0 [(s1, Completed)] d1' (Some {| ss_iteration := 5; ss_temp := [5]; ss_last_state := Some 5 |})).
  { eapply (tr_save (s := s1) (rt := rt s1) (fs := files s1) (order := [5]) (ops := ops1) (temp := [5]) T1).
    - split; [vm_compute; discriminate|left; vm_compute; reflexivity].
    - intros [_ X]. apply X. reflexivity.
    - apply (@fresh_dec []); vm_compute; reflexivity.
    - apply il.
    - fold (wr s1). apply (@lists_dec _ all_used). vm_compute. reflexivity.
    - intros i. reflexivity.
    - vm_compute. reflexivity. }
  assert (T3 : trained d0 [(s1, Completed); (s2, Completed)] d2' (Some {| ss_iteration := 8; ss_temp := [8]; ss_last_state := Some 8 |})).
  { eapply (tr_save (s := s2) (rt := rt s2) (fs := files s1 ++ files s2) (order := [8; 5]) (ops := ops2) (temp := [8]) T2).
    - split; [vm_compute; discriminate|left; vm_compute; reflexivity].
    - intros [_ X]. apply X. vm_compute. reflexivity.
    - rewrite d1'_ops. apply fresh_dec; vm_compute; reflexivity.
    - apply il.
    - fold (wr s2). fold d2. rewrite d2_ops. apply (@lists_dec _ all_used). vm_compute. reflexivity.
    - intros i. reflexivity.
    - vm_compute. reflexivity. }
  eapply (tr_crash_writing (s := s3) (rt := rt s3) 12 T3).
  - split; [vm_compute; discriminate|left; vm_compute; reflexivity].
  - intros [_ X]. apply X. vm_compute. reflexivity.
  - rewrite d2'_ops. apply fresh_dec; vm_compute; reflexivity.
  - apply il.
Qed.
(** The crash left the models of iteration 10 incomplete; the state of iteration 5 was
    pruned; resuming continues at iteration 8. *)
Definition left_over : list str :=
  [state_name 8; model_ckpt_name (lit "a") 8; model_ckpt_name (lit "b") 8; runtime_basename 8 (tok "b") 0;
   runtime_basename 10 (tok "c") 0; model_ckpt_name (lit "a") 10; model_ckpt_name (lit "b") 10 ++ lit ".tmp"].
Example what_is_left : lists dir d3 left_over.
Proof. rewrite d3_ops. apply (@lists_dec _ all_used). vm_compute. reflexivity. Qed.
Example resumes_at_8 : resume dir names d3 left_over = Ok (Some (8, 8000, [81; 81])).
Proof. vm_compute. reflexivity. Qed.
(** Pruning after the second save removed the models of iteration 5 and kept those of 8. *)
Example models_pruned : d2 (at_ dir (model_ckpt_name (lit "a") 5)) <> None /\ d2' (at_ dir (model_ckpt_name (lit "a") 5)) = None /\ d2' (at_ dir (model_ckpt_name (lit "a") 8)) <> None.
Proof. split; [vm_compute; discriminate|]. split; [vm_compute; reflexivity|vm_compute; discriminate]. Qed.
Example directory_unused : unused_directory dir d0.
Proof. intros f t _. reflexivity. Qed.
End Ex.
