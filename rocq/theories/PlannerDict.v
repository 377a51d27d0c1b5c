(** Association lists as Python dicts: facts used by the planner proofs. *)
From Verif Require Import Base BaseFacts Rng CompositeSim Sequential SequentialShard SequentialFacts Planner.
Set Implicit Arguments.
Unset Strict Implicit.

Section Dict.
  Variable V : Type.
  Implicit Types d : list (Z * V).

  Lemma dict_get_set d k v k' : dict_get (dict_set d k v) k' = if k' =? k then Some v else dict_get d k'.
  Proof.
    induction d as [|[k0 w] t IH]; cbn; [destruct (k' =? k); reflexivity|].
    destruct (Z.eqb_spec k k0) as [<-|N]; cbn.
    - destruct (k' =? k); reflexivity.
    - rewrite IH. destruct (Z.eqb_spec k' k0) as [->|]; auto. destruct (Z.eqb_spec k0 k); congruence.
  Qed.

  Lemma dict_get_None d k : dict_get d k = None <-> ~ In k (map fst d).
  Proof.
    induction d as [|[k0 w] t IH]; cbn; [tauto|]. destruct (Z.eqb_spec k k0) as [->|N].
    - split; [discriminate|tauto].
    - rewrite IH. split; intros H; [intros [E|E]; auto|tauto].
  Qed.

  Lemma dict_get_In d k v : dict_get d k = Some v -> In (k, v) d.
  Proof.
    induction d as [|[k0 w] t IH]; cbn; [discriminate|]. destruct (Z.eqb_spec k k0) as [->|N].
    - intros H. injection H as ->. auto.
    - auto.
  Qed.

  Lemma dict_In_get d k v : NoDup (map fst d) -> In (k, v) d -> dict_get d k = Some v.
  Proof.
    induction d as [|[k0 w] t IH]; cbn; [tauto|]. intros H [E|E]; inversion H as [|? ? H1 H2]; subst.
    - injection E as -> ->. rewrite Z.eqb_refl. reflexivity.
    - destruct (Z.eqb_spec k k0) as [->|N]; auto. exfalso. apply H1. apply in_map with (f := fst) in E. exact E.
  Qed.

  Lemma dict_set_keys d k v :
    map fst (dict_set d k v) = if existsb (Z.eqb k) (map fst d) then map fst d else map fst d ++ [k].
  Proof.
    induction d as [|[k0 w] t IH]; cbn; [reflexivity|]. destruct (Z.eqb_spec k k0) as [->|N]; cbn; [reflexivity|].
    rewrite IH. destruct (existsb (Z.eqb k) (map fst t)); reflexivity.
  Qed.

  Lemma existsb_key k l : existsb (Z.eqb k) l = true <-> In k l.
  Proof. rewrite existsb_exists. split; [intros (x & H & E); apply Z.eqb_eq in E; congruence|intros H; exists k; split; auto; apply Z.eqb_refl]. Qed.

  Lemma NoDup_snoc (l : list Z) k : NoDup l -> ~ In k l -> NoDup (l ++ [k]).
  Proof.
    intros H Hk. apply Permutation_NoDup with (l := k :: l); [|constructor; auto].
    change (k :: l) with ([k] ++ l). apply Permutation_app_comm.
  Qed.

  Lemma dict_set_NoDup d k v : NoDup (map fst d) -> NoDup (map fst (dict_set d k v)).
  Proof.
    intros H. rewrite dict_set_keys. destruct (existsb (Z.eqb k) (map fst d)) eqn:E; auto.
    apply NoDup_snoc; auto. intros Hin. apply existsb_key in Hin. congruence.
  Qed.

  Lemma dict_get_del d k k' : NoDup (map fst d) ->
    dict_get (dict_del d k) k' = if k' =? k then None else dict_get d k'.
  Proof.
    induction d as [|[k0 w] t IH]; cbn; [destruct (k' =? k); reflexivity|]. intros H.
    inversion H as [|? ? H1 H2]; subst. destruct (Z.eqb_spec k k0) as [->|N].
    - destruct (Z.eqb_spec k' k0) as [E|E]; [subst k'; apply dict_get_None; exact H1|reflexivity].
    - cbn. rewrite (IH H2). destruct (Z.eqb_spec k' k0) as [E|E]; [|reflexivity]. subst k'.
      destruct (Z.eqb_spec k0 k); congruence.
  Qed.

  Lemma dict_del_incl d k x : In x (dict_del d k) -> In x d.
  Proof.
    induction d as [|[k0 w] t IH]; cbn; [tauto|]. destruct (k =? k0); cbn; [tauto|]. intros [E|E]; auto.
  Qed.

  Lemma dict_del_NoDup d k : NoDup (map fst d) -> NoDup (map fst (dict_del d k)).
  Proof.
    induction d as [|[k0 w] t IH]; cbn; [auto|]. intros H. inversion H as [|? ? H1 H2]; subst.
    destruct (k =? k0); auto. cbn. constructor; auto. intros Hin. apply H1.
    apply in_map_iff in Hin as ([a b] & E & Hin). cbn in E. subst a. apply dict_del_incl in Hin.
    apply in_map with (f := fst) in Hin. exact Hin.
  Qed.

  Lemma dict_del_length d k v : dict_get d k = Some v -> List.length d = S (List.length (dict_del d k)).
  Proof.
    induction d as [|[k0 w] t IH]; cbn; [discriminate|]. destruct (k =? k0); intros H; cbn; auto.
  Qed.

  Lemma dict_set_length d k v : dict_get d k <> None -> List.length (dict_set d k v) = List.length d.
  Proof.
    induction d as [|[k0 w] t IH]; cbn; [congruence|]. destruct (k =? k0); intros H; cbn; auto.
  Qed.

  Lemma dict_set_length_new d k v : dict_get d k = None -> List.length (dict_set d k v) = S (List.length d).
  Proof.
    induction d as [|[k0 w] t IH]; cbn; [reflexivity|]. destruct (k =? k0); [discriminate|]; intros H; cbn; auto.
  Qed.
End Dict.

Section Queues.
  Variable A : Type.
  Variable shape : A -> Z.
  Variable cf : pconfig.

  (** A queue's contents, [] when absent. *)
  Definition queue (q : list (Z * list A)) (k : Z) : list A :=
    match dict_get q k with Some l => l | None => [] end.

  (** Shape queues between batches. *)
  Definition qok (q : list (Z * list A)) : Prop :=
    NoDup (map fst q)
    /\ forall k l, dict_get q k = Some l -> (List.length l < pc_batch cf)%nat /\ Forall (fun e => shape e = k) l.

  Lemma qok_nil : (0 < pc_batch cf)%nat -> qok [].
  Proof. intros H. split; [constructor|]. cbn. discriminate. Qed.

  Lemma queue_set q k v k' : queue (dict_set q k v) k' = if k' =? k then v else queue q k'.
  Proof. unfold queue. rewrite dict_get_set. destruct (k' =? k); reflexivity. Qed.

  Lemma queue_del q k k' : NoDup (map fst q) -> queue (dict_del q k) k' = if k' =? k then [] else queue q k'.
  Proof. intros H. unfold queue. rewrite dict_get_del by auto. destruct (k' =? k); reflexivity. Qed.

  Lemma append_shape_spec q e q1 l : append_shape shape cf q e = Ok (q1, l) ->
    l = queue q (shape e) ++ [e] /\ q1 = dict_set q (shape e) l
    /\ (dict_get q (shape e) = None -> zlen q < pc_max_queues cf).
  Proof.
    unfold append_shape, queue. destruct (dict_get q (shape e)) as [l0|].
    - intros H. injection H as <- <-. conj; auto. discriminate.
    - intros H. apply guard_Ok in H as [H1 H]. injection H as <- <-. conj; auto. lia.
  Qed.

  Lemma qok_set q k l : qok q -> (List.length l < pc_batch cf)%nat -> Forall (fun e => shape e = k) l ->
    qok (dict_set q k l).
  Proof.
    intros [H1 H2] Hl Hf. split; [apply dict_set_NoDup; auto|]. intros k' l' E. rewrite dict_get_set in E.
    destruct (Z.eqb_spec k' k) as [->|]; [injection E as <-; auto|eauto].
  Qed.

  Lemma qok_del q k : qok q -> qok (dict_del q k).
  Proof.
    intros [H1 H2]. split; [apply dict_del_NoDup; auto|]. intros k' l' E. rewrite dict_get_del in E by auto.
    destruct (k' =? k); [discriminate|eauto].
  Qed.

  Lemma queue_ok q k : qok q -> (0 < pc_batch cf)%nat ->
    (List.length (queue q k) < pc_batch cf)%nat /\ Forall (fun e => shape e = k) (queue q k).
  Proof.
    intros [H1 H2] Hb. unfold queue. destruct (dict_get q k) as [l|] eqn:E; [eauto|]. split; [cbn; lia|constructor].
  Qed.

  Lemma append_shape_qok q e q1 l : qok q -> (0 < pc_batch cf)%nat -> append_shape shape cf q e = Ok (q1, l) ->
    (List.length l <= pc_batch cf)%nat /\ Forall (fun x => shape x = shape e) l
    /\ (List.length l <> pc_batch cf -> qok q1)
    /\ qok (dict_set q1 (shape e) []).
  Proof.
    intros Hq Hb H. apply append_shape_spec in H as (E1 & E2 & _).
    destruct (queue_ok (shape e) Hq Hb) as [L1 L2].
    assert (Hl : List.length l = S (List.length (queue q (shape e)))) by (rewrite E1, app_length; cbn; lia).
    assert (Hf : Forall (fun x => shape x = shape e) l).
    { rewrite E1. apply Forall_app. split; auto. }
    conj; auto; try lia.
    - intros Hne. rewrite E2. apply qok_set; auto. lia.
    - rewrite E2. destruct Hq as [N1 N2]. split; [apply dict_set_NoDup, dict_set_NoDup; auto|].
      intros k' l' E. rewrite !dict_get_set in E. destruct (Z.eqb_spec k' (shape e)) as [->|].
      + injection E as <-. split; [cbn; lia|constructor].
      + eauto.
  Qed.

  Lemma sort_by_In {B} (lt : B -> B -> bool) l x : In x (sort_by lt l) <-> In x l.
  Proof. split; apply Permutation_in; [symmetry|]; apply sort_by_perm. Qed.

  Lemma nonempty_shapes_In q k : NoDup (map fst q) -> (In k (nonempty_shapes q) <-> queue q k <> []).
  Proof.
    intros HN. unfold nonempty_shapes. rewrite sort_by_In, in_map_iff. split.
    - intros ([k0 l] & E & H). cbn in E. subst k0. apply filter_In in H as [H1 H2]. cbn in H2.
      unfold queue. rewrite (dict_In_get HN H1). destruct l; [discriminate|congruence].
    - unfold queue. destruct (dict_get q k) as [l|] eqn:E; [|congruence]. intros H. exists (k, l). split; auto.
      apply filter_In. split; [apply dict_get_In; auto|]. cbn. destruct l; [congruence|reflexivity].
  Qed.

  Lemma existsb_nonempty q : NoDup (map fst q) ->
    (existsb (fun kv => nonempty (snd kv)) q = false <-> forall k, queue q k = []).
  Proof.
    intros HN. split.
    - intros H k. unfold queue. destruct (dict_get q k) as [l|] eqn:E; auto. destruct l as [|x t]; auto.
      exfalso. apply dict_get_In in E. assert (existsb (fun kv => nonempty (snd kv)) q = true); [|congruence].
      apply existsb_exists. exists (k, x :: t). auto.
    - intros H. destruct (existsb (fun kv => nonempty (snd kv)) q) eqn:E; auto.
      apply existsb_exists in E as ([k l] & E1 & E2). specialize (H k). unfold queue in H.
      rewrite (dict_In_get HN E1) in H. subst l. discriminate.
  Qed.
End Queues.
