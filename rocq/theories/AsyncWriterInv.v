(** The invariant of the asynchronous checkpoint writer and the form of its log. *)
From Verif Require Import Base BaseFacts AsyncWriter AsyncWriterSpec AsyncWriterFacts.
Set Implicit Arguments.
Unset Strict Implicit.

Ltac ex He := cbn in He; try (match type of He with context [existsb ?f ?l] => destruct (existsb f l) eqn:?X; [|discriminate He] end);
  inversion He as [[Y1 Y2 Y3]].
Section Inv.
Variables V K O : Type.
Notation tree := (tree K O).
Notation state := (state V K O).
Notation event := (event V K O).
Notation store := (store V).
Notation dop := (dop V).
Variables s0 s1 : store.

(** ** The form of the log *)
Inductive phase := PQuiet (n : nat) | PWrite (j : nat) (cs : list (tree V)) (hook : bool) (i : nat) | PHooked (j : nat) | PFailed (j : nat).
Inductive next (env : store) : phase -> event -> phase -> Prop :=
| n_kernel ph n f : next env ph (EKernel K O n f) ph
| n_host ph n v : next env ph (EHost K O n v) ph
| n_submit n ps h : next env (PQuiet n) (ESubmit V n ps h) (PWrite n (map (content env) ps) h 0)
| n_commit j cs h i c : nth_error cs i = Some c -> next env (PWrite j cs h i) (ECommit j i c) (PWrite j cs h (S i))
| n_fail j cs h i : (i < List.length cs)%nat \/ h = true -> next env (PWrite j cs h i) (EFail _ _ _ j) (PFailed j)
| n_hook j cs i : i = List.length cs -> next env (PWrite j cs true i) (EHook _ _ _ j) (PHooked j)
| n_done_hook j : next env (PHooked j) (EDone _ _ _ j) (PQuiet (S j))
| n_done j cs i : i = List.length cs -> next env (PWrite j cs false i) (EDone _ _ _ j) (PQuiet (S j))
| n_raise j : next env (PFailed j) (ERaise _ _ _) (PQuiet (S j))
| n_flushed n : next env (PQuiet n) (EFlushed _ _ _) (PQuiet n).
Inductive told : list event -> phase -> Prop :=
| t_nil : told [] (PQuiet 0)
| t_snoc l ph e ph' : told l ph -> next (values s0 l) ph e ph' -> told (l ++ [e]) ph'.

Lemma values_app (l m : list event) : values s0 (l ++ m) = values (values s0 l) m.
Proof. apply fold_left_app. Qed.

(** ** The device *)
Fixpoint kernels (q : list dop) (g : nat -> V) : nat -> V :=
  match q with
  | [] => g
  | Kernel n f :: r => kernels r (put g n (f g))
  | _ :: r => kernels r g
  end.
Lemma kernels_app q r g : kernels (q ++ r) g = kernels r (kernels q g).
Proof. revert g. induction q as [|[] q IH]; intros g; cbn; auto. Qed.
Lemma gpu_copies_In m a b : In (Copy V a b) (gpu_copies V m) <-> In (Gpu a, b) m.
Proof.
  unfold gpu_copies. rewrite in_flat_map. split.
  - intros ([l n] & Hin & H). apply in_rev in Hin. destruct l as [x|x]; cbn in H; [|destruct H].
    destruct H as [H|[]]. inversion H; subst. exact Hin.
  - intros H. exists (Gpu a, b). split; [apply in_rev in H; exact H|left; reflexivity].
Qed.
Lemma gpu_copies_copies m o : In o (gpu_copies V m) -> exists a b, o = Copy V a b.
Proof.
  unfold gpu_copies. rewrite in_flat_map. intros ([l n] & _ & H). destruct l; cbn in H; [|destruct H]. destruct H as [<-|[]]. eauto.
Qed.
Lemma cpu_copies_other m (lv sg : nat -> V) n : ~ In n (map snd m) -> cpu_copies m lv sg n = sg n.
Proof.
  unfold cpu_copies. intros H. assert (H' : ~ In n (map snd (rev m))) by (rewrite map_rev; intros X; apply in_rev in X; contradiction).
  clear H. revert sg. induction (rev m) as [|[l k] r IH]; intros sg; cbn; [reflexivity|].
  rewrite IH by (intros X; apply H'; right; exact X). destruct l; cbn; [reflexivity|]. unfold put.
  destruct (n =? k)%nat eqn:E; [|reflexivity]. apply Nat.eqb_eq in E. elim H'. left. cbn. congruence.
Qed.
Lemma cpu_copies_In m (lv sg : nat -> V) a n : NoDup (map snd m) -> In (Cpu a, n) m -> cpu_copies m lv sg n = lv a.
Proof.
  unfold cpu_copies. intros Hn Hin. apply in_rev in Hin. assert (Hn' : NoDup (map snd (rev m))) by (rewrite map_rev; apply NoDup_rev; exact Hn).
  clear Hn. revert sg. induction (rev m) as [|[l k] r IH]; intros sg; [destruct Hin|]. cbn in Hn'. inversion Hn' as [|? ? Hni Hn2]; subst. cbn [fold_left].
  destruct Hin as [Hin|Hin].
  - inversion Hin; subst. cbn.
    assert (E : forall sg, fold_left (fun (s : nat -> V) (e : loc * nat) => match fst e with Cpu a => put s (snd e) (lv a) | Gpu _ => s end) r sg n = sg n).
    { clear - Hni. induction r as [|[l k] r IH]; intros sg; cbn; [reflexivity|]. rewrite IH by (intros X; apply Hni; right; exact X).
      destruct l; cbn; [reflexivity|]. unfold put. destruct (n =? k)%nat eqn:E; [|reflexivity]. apply Nat.eqb_eq in E. elim Hni. left. cbn. congruence. }
    rewrite E. unfold put. rewrite Nat.eqb_refl. reflexivity.
  - apply IH; assumption.
Qed.
Lemma snd_inj (m : memo) l l' n : NoDup (map snd m) -> In (l, n) m -> In (l', n) m -> l = l'.
Proof.
  induction m as [|[x k] m IH]; intros Hn H1 H2; [destruct H1|]. cbn in Hn. inversion Hn as [|? ? Hni Hn2]; subst.
  destruct H1 as [H1|H1], H2 as [H2|H2].
  - congruence.
  - inversion H1; subst. elim Hni. apply in_map_iff. exists (l', n). auto.
  - inversion H2; subst. elim Hni. apply in_map_iff. exists (l, n). auto.
  - apply IH; assumption.
Qed.

(** How far the copies of the running job have come. *)
Inductive copying (st : state) (e : nat) (snap : store) (m : memo) : Prop :=
| cp_before pre post e0 : compute st = pre ++ Record_ V e0 :: Wait V e :: post ->
    copyq st = Wait V e0 :: gpu_copies V m ++ [Record_ V e] -> ~ In e0 (fired st) -> ~ In e (fired st) -> e0 <> e ->
    ~ In (Record_ V e0) pre -> ~ In (Record_ V e) pre -> kernels pre (gpu (live st)) = gpu snap ->
    (forall w, In (Wait V w) pre -> In w (fired st)) -> copying st e snap m
| cp_during post w don todo : compute st = Wait V e :: post -> ~ In e (fired st) -> gpu (live st) = gpu snap ->
    copyq st = w ++ todo ++ [Record_ V e] -> gpu_copies V m = don ++ todo ->
    (w = [] \/ exists e0, w = [Wait V e0] /\ In e0 (fired st) /\ don = []) ->
    (forall a b, In (Copy V a b) don -> gpu (staged st) b = gpu snap a) -> copying st e snap m
| cp_after : In e (fired st) -> copyq st = [] -> (forall a b, In (Copy V a b) (gpu_copies V m) -> gpu (staged st) b = gpu snap a) ->
    copying st e snap m.

Definition running (t : option (writer K O)) : bool := match t with Some (Running _ _ _ _ _) => true | _ => false end.
Definition draining (t : mainth K O) : bool := match t with Draining _ _ _ => true | _ => false end.
Definition waits (t : mainth K O) : bool := match t with Idle _ _ | Joining _ => true | _ => false end.

Record in_flight (st : state) (e j i : nat) (rest : list (tree loc)) (hook : bool) (snap : store) (m : memo) (ps : list (tree loc)) : Prop := {
  f_memo : exists low, memo_ok m low (next_staged st);
  f_leaves : forall p l, In p ps -> In l (leaves p) -> memo_get m l <> None;
  f_rest : rest = skipn i (map (tree_map (rho m)) ps);
  f_told : told (log st) (PWrite j (map (content snap) ps) hook i);
  f_cpu : forall a n, In (Cpu a, n) m -> cpu (staged st) n = cpu snap a;
  f_copying : copying st e snap m;
  f_event : (e < next_event st)%nat
}.

Record inv (st : state) : Prop := {
  v_gpu : kernels (compute st) (gpu (live st)) = gpu (values s0 (log st));
  v_cpu : cpu (live st) = cpu (values s0 (log st));
  v_fired : forall e, In e (fired st) -> (e < next_event st)%nat;
  v_records : forall e, In (Record_ V e) (compute st) -> (e < next_event st)%nat;
  v_waits : forall w, In (Wait V w) (compute st) -> In w (fired st) \/ exists j i rest hook, thread st = Some (Running w j i rest hook);
  v_nocopy : forall a b, ~ In (Copy V a b) (compute st);
  v_copyq : running (thread st) = false -> draining (main st) = false -> copyq st = [];
  v_drain : draining (main st) = true -> forall o, In o (copyq st) ->
    (exists a b, o = Copy V a b) \/ exists w, o = Wait V w /\ (In w (fired st) \/ In (Record_ V w) (compute st));
  v_state : match thread st with
    | Some (Running e j i rest hook) =>
        waits (main st) = true /\ error st = false /\ S j = jobs st
        /\ exists snap m ps, in_flight st e j i rest hook snap m ps
    | _ =>
        match main st with
        | Draining j ps hook => error st = false /\ S j = jobs st /\ told (log st) (PWrite j (map (content (values s0 (log st))) ps) hook 0)
        | Sync j i rest hook => error st = false /\ S j = jobs st /\ exists cs, told (log st) (PWrite j cs hook i)
             /\ skipn i cs = map (content (values s0 (log st))) rest
        | _ => if error st then exists j, told (log st) (PFailed j) /\ S j = jobs st else told (log st) (PQuiet (jobs st))
        end
    end
}.

Lemma init_inv : inv (init K O s0 s1).
Proof.
  constructor; cbn; try reflexivity; try tauto; try discriminate. constructor.
Qed.

(** Events that do not concern the writer do not change its part. *)
Lemma existsb_In e l : existsb (Nat.eqb e) l = true <-> In e l.
Proof. rewrite existsb_exists. split; [intros (x & H & E); apply Nat.eqb_eq in E; subst; exact H|intros H; exists e; split; [exact H|apply Nat.eqb_refl]]. Qed.

(** Rebuilding a state with other fields does not touch what [copying] looks at. *)
Lemma copying_ext (st st' : state) e snap m : compute st' = compute st -> copyq st' = copyq st -> fired st' = fired st ->
  gpu (live st') = gpu (live st) -> gpu (staged st') = gpu (staged st) -> copying st e snap m -> copying st' e snap m.
Proof.
  intros E1 E2 E3 E4 E5 [pre post e0|post w don todo|].
  - eapply cp_before with (e0 := e0); rewrite ?E1, ?E2, ?E3, ?E4; eassumption.
  - eapply cp_during with (w := w); rewrite ?E1, ?E2, ?E3, ?E4, ?E5; eassumption.
  - apply cp_after; rewrite ?E1, ?E2, ?E3, ?E4, ?E5; assumption.
Qed.
Lemma copying_kernel (st st' : state) e snap m n f : compute st' = compute st ++ [Kernel n f] -> copyq st' = copyq st -> fired st' = fired st ->
  gpu (live st') = gpu (live st) -> gpu (staged st') = gpu (staged st) -> copying st e snap m -> copying st' e snap m.
Proof.
  intros E1 E2 E3 E4 E5 [pre post e0 H1|post w don todo H1|].
  - eapply cp_before with (e0 := e0) (pre := pre) (post := post ++ [Kernel n f]); rewrite ?E1, ?E2, ?E3, ?E4; try eassumption.
    rewrite H1, <- app_assoc. reflexivity.
  - eapply cp_during with (w := w) (post := post ++ [Kernel n f]); rewrite ?E1, ?E2, ?E3, ?E4, ?E5; try eassumption. rewrite H1. reflexivity.
  - apply cp_after; rewrite ?E1, ?E2, ?E3, ?E4, ?E5; assumption.
Qed.
Lemma copying_compute (st st' : state) e snap m o rest : compute st = o :: rest -> exec st o = Some (live st', staged st', fired st') ->
  compute st' = rest -> copyq st' = copyq st ->
  (forall a b, o <> Copy V a b) -> copying st e snap m -> copying st' e snap m.
Proof.
  intros Hc He E1 E2 Hcopy [pre post e0 H1 H2 H3 H4 H4' H5 H6 H7 H8|post w don todo H1 H2 H3 H4 H5 H6 H7|H1 H2 H3].
  - destruct pre as [|o1 pre].
    + cbn in H1. rewrite Hc in H1. injection H1 as -> H1. ex He.
      eapply cp_during with (post := post) (w := [Wait V e0]) (don := []) (todo := gpu_copies V m); rewrite <- ?Y1, <- ?Y2, <- ?Y3, ?E1, ?E2; auto.
      * intros [X|X]; [congruence|contradiction].
      * right. exists e0. split; [reflexivity|]. split; [left; reflexivity|reflexivity].
      * intros a b [].
    + cbn in H1. rewrite Hc in H1. injection H1 as <- H1.
      eapply cp_before with (e0 := e0) (pre := pre) (post := post); rewrite ?E1, ?E2; auto.
      * destruct o; ex He; try exact H3. intros [X|X]; [subst; apply H5; left; reflexivity|contradiction].
      * destruct o; ex He; try exact H4. intros [X|X]; [subst; apply H6; left; reflexivity|contradiction].
      * intros X. apply H5. right. exact X.
      * intros X. apply H6. right. exact X.
      * destruct o; ex He; exact H7.
      * intros w Hw. assert (Hw' : In w (fired st)) by (apply H8; right; exact Hw).
        destruct o; ex He; try exact Hw'. right. exact Hw'.
  - rewrite Hc in H1. injection H1 as -> ->. cbn in He. destruct (existsb (Nat.eqb e) (fired st)) eqn:X; [|discriminate].
    apply existsb_In in X. contradiction.
  - apply cp_after; rewrite ?E2; auto.
    + destruct o; ex He; try exact H1. right. exact H1.
    + intros a b Hab. destruct o; ex He; try (apply H3; exact Hab). exfalso; eapply Hcopy; reflexivity.
Qed.
Lemma copying_copy (st st' : state) e snap m o rest : NoDup (map snd m) -> copyq st = o :: rest -> exec st o = Some (live st', staged st', fired st') ->
  compute st' = compute st -> copyq st' = rest -> copying st e snap m -> copying st' e snap m.
Proof.
  intros Hn Hc He E1 E2 [pre post e0 H1 H2 H3 H4 H4' H5 H6 H7 H8|post w don todo H1 H2 H3 H4 H5 H6 H7|H1 H2 H3].
  - rewrite Hc in H2. injection H2 as -> ->. cbn in He. destruct (existsb (Nat.eqb e0) (fired st)) eqn:X; [|discriminate].
    apply existsb_In in X. contradiction.
  - destruct H6 as [->|(e0 & -> & H6 & ->)].
    + cbn [app] in H4. destruct todo as [|x todo].
      * cbn in H4. rewrite Hc in H4. injection H4 as -> ->. ex He.
        apply cp_after; rewrite ?E2, <- ?Y1, <- ?Y2, <- ?Y3; [left; reflexivity|reflexivity|].
        intros a b Hab. apply H7. rewrite H5, app_nil_r in Hab. exact Hab.
      * cbn in H4. rewrite Hc in H4. injection H4 as <- ->.
        destruct (@gpu_copies_copies m o) as (a & b & ->); [rewrite H5; apply in_or_app; right; left; reflexivity|]. ex He.
        eapply cp_during with (post := post) (w := []) (don := don ++ [Copy V a b]) (todo := todo); rewrite ?E1, ?E2, <- ?Y1, <- ?Y2, <- ?Y3; auto.
        -- rewrite H5, <- app_assoc. reflexivity.
        -- assert (Hab : In (Gpu a, b) m) by (apply gpu_copies_In; rewrite H5; apply in_or_app; right; left; reflexivity).
           intros a' b' Hin. cbn. unfold put. destruct (b' =? b)%nat eqn:X.
           ++ apply Nat.eqb_eq in X. subst b'. rewrite H3. apply in_app_or in Hin. destruct Hin as [Hin|[Hin|[]]]; [|congruence].
              assert (Hab' : In (Gpu a', b) m) by (apply gpu_copies_In; rewrite H5; apply in_or_app; left; exact Hin).
              pose proof (snd_inj Hn Hab Hab') as Y. congruence.
           ++ apply in_app_or in Hin. destruct Hin as [Hin|[Hin|[]]]; [apply H7; exact Hin|]. inversion Hin; subst. rewrite Nat.eqb_refl in X. discriminate.
    + cbn in H4. rewrite Hc in H4. injection H4 as -> ->. ex He.
      eapply cp_during with (post := post) (w := []) (don := []) (todo := todo); rewrite ?E1, ?E2, <- ?Y1, <- ?Y2, <- ?Y3; auto.
  - rewrite H2 in Hc. discriminate.
Qed.
End Inv.
