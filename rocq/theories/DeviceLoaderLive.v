(** The prefetching loader: the device always finishes, and so does a request for a batch. *)
From Verif Require Import Base BaseFacts DeviceLoader DeviceLoaderFacts DeviceLoaderInv.
Set Implicit Arguments.
Unset Strict Implicit.

(** A number of steps. *)
Inductive steps (A : Type) (R : A -> A -> Prop) (a : A) : A -> Prop :=
| steps_refl : steps R a a
| steps_more b c : steps R a b -> R b c -> steps R a c.
Lemma steps_trans (A : Type) (R : A -> A -> Prop) a b c : steps R a b -> steps R b c -> steps R a c.
Proof. intros H1 H2. induction H2; auto. eapply steps_more; eauto. Qed.
Lemma steps_one (A : Type) (R : A -> A -> Prop) a b : R a b -> steps R a b.
Proof. intros H. eapply steps_more; [apply steps_refl|exact H]. Qed.

(** What the source delivers before it is no longer asked. *)
Fixpoint until_terminal (V : Type) (source : list (hbatch V)) : list (hbatch V) :=
  match source with
  | [] => []
  | b :: rest => if hb_terminal b then [b] else b :: until_terminal rest
  end.
Lemma until_terminal_prefix (V : Type) (a r : list (hbatch V)) :
  (forall x b c, a = x ++ b :: c -> c <> [] -> hb_terminal b = false) -> exists q, until_terminal (a ++ r) = a ++ q.
Proof.
  induction a as [|b a IH]; intros H; [eexists; reflexivity|]. cbn [app until_terminal].
  destruct (hb_terminal b) eqn:Eb.
  - destruct a as [|b' a]; [exists []; reflexivity|]. rewrite (H [] b (b' :: a) eq_refl) in Eb; [discriminate|discriminate].
  - destruct IH as (q & Eq).
    + intros x b2 c Ex Nc. apply (H (b :: x) b2 c); [rewrite Ex; reflexivity|exact Nc].
    + exists q. rewrite Eq. reflexivity.
Qed.
Lemma until_terminal_all (V : Type) (a r : list (hbatch V)) :
  (forall x b c, a = x ++ b :: c -> c <> [] -> hb_terminal b = false) ->
  r = [] \/ (exists x b, a = x ++ [b] /\ hb_terminal b = true) -> until_terminal (a ++ r) = a.
Proof.
  induction a as [|b a IH]; intros H E.
  - destruct E as [->|(x & b & E & _)]; [reflexivity|destruct x; discriminate].
  - cbn [app until_terminal]. destruct (hb_terminal b) eqn:Eb.
    + destruct a as [|b' a]; [reflexivity|]. rewrite (H [] b (b' :: a) eq_refl) in Eb; discriminate.
    + f_equal. apply IH.
      * intros x b2 c Ex Nc. apply (H (b :: x) b2 c); [rewrite Ex; reflexivity|exact Nc].
      * destruct E as [->|(x & b2 & E & T)]; [auto|]. right. destruct x as [|? x]; cbn in E; injection E as -> E2; [congruence|].
        exists x, b2. auto.
Qed.

Lemma dstep_size (V Ev : Type) (d d' : dev V Ev) : dstep d d' ->
  (List.length (copyq d) + List.length (compq d) = S (List.length (copyq d') + List.length (compq d')))%nat.
Proof. intros H. destruct H as [o rest E _|o rest E _]; cbn; rewrite E; cbn; lia. Qed.
Section Live.
Variable V : Type.
Variable P : nat.
Variable source : list (hbatch V).
Hypothesis HP : (1 <= P)%nat.
Notation inv := (inv P source).
Notation psteps := (steps (pstep P)).

Lemma inv_steps (st st' : pstate V) : inv st -> psteps st st' -> inv st'.
Proof. intros I H. induction H; auto. eapply inv_step; eauto. Qed.

Lemma pdev_progress st : inv st -> (copyq (pd st) <> [] \/ compq (pd st) <> []) -> exists d, dstep (pd st) d.
Proof.
  intros (S & Q & M) H. destruct (copyq (pd st)) as [|o rest] eqn:E1.
  - destruct (compq (pd st)) as [|o rest] eqn:E2; [destruct H; congruence|].
    eexists. eapply d_comp; [exact E2|]. destruct o as [| | |e]; cbn; auto.
    pose proof (S_comp S (o:=WaitE e)) as X. rewrite E2 in X. specialize (X ltac:(apply in_or_app; right; left; reflexivity)).
    destruct e as [k|k]; [|contradiction]. pose proof (S_rec S X) as R. rewrite E1, app_nil_r in R. left. exact R.
  - eexists. eapply d_copy; [exact E1|]. destruct o as [| | |e]; cbn; auto.
    destruct (S_ops S (o:=WaitE e)) as [(? & ? & X & _)|(? & X & _)]; try discriminate.
    rewrite E1. apply in_or_app. right. left. reflexivity.
Qed.
Lemma drain st : inv st -> exists d, steps (@dstep V pevent) (pd st) d /\ copyq d = [] /\ compq d = [] /\ psteps st (with_dev st d).
Proof.
  remember (List.length (copyq (pd st)) + List.length (compq (pd st)))%nat as n eqn:En.
  revert st En. induction n as [|n IH]; intros st En I.
  - exists (pd st). destruct (copyq (pd st)) eqn:E1, (compq (pd st)) eqn:E2; cbn in En; try lia.
    split; [apply steps_refl|]. split; [reflexivity|]. split; [reflexivity|].
    replace (with_dev st (pd st)) with st by (destruct st; reflexivity). apply steps_refl.
  - destruct (pdev_progress I) as (d & Hd).
    { destruct (copyq (pd st)), (compq (pd st)); cbn in En; try lia; [right|left..]; discriminate. }
    pose proof (dstep_size Hd) as Sz.
    destruct (IH (with_dev st d)) as (d' & H1 & H2 & H3 & H4).
    + cbn [with_dev pd]. lia.
    + apply inv_device; auto.
    + exists d'. cbn [with_dev pd] in H1. split; [|split; [exact H2|split; [exact H3|]]].
      * eapply steps_trans; [apply steps_one; exact Hd|exact H1].
      * eapply steps_trans; [apply steps_one; apply p_device; exact Hd|]. exact H4.
Qed.
Lemma drained_fired st k : inv st -> copyq (pd st) = [] -> (k < List.length (taken st))%nat -> fired (pd st) (CopyEnd k).
Proof. intros (S & _ & _) E H. pose proof (S_rec S H) as R. rewrite E, app_nil_r in R. left. exact R. Qed.

(** Device memory that nobody has used. *)
Definition used_blocks (st : pstate V) : list nat :=
  flat_map (fun k => map (fun i => blk st (k, i)) (seq 0 (width st k))) (seq 0 (List.length (taken st))).
Lemma used_block_le st k i : (k < List.length (taken st))%nat -> (i < width st k)%nat -> (blk st (k, i) <= list_max (used_blocks st))%nat.
Proof.
  intros Hk Hi. pose proof (proj1 (list_max_le (used_blocks st) _) (Nat.le_refl _)) as F. rewrite Forall_forall in F. apply F.
  unfold used_blocks. apply in_flat_map. exists k. split; [apply in_seq; lia|]. apply in_map_iff. exists i. split; [reflexivity|apply in_seq; lia].
Qed.

Lemma fill st what : inv st -> phase st = PFill what -> exists st', psteps st st' /\ phase st' = PFill what /\ more P st' = false
  /\ delivered st' = delivered st /\ asked st' = asked st.
Proof.
  remember (P - List.length (pending st))%nat as n eqn:En. revert st En. induction n as [|n IH]; intros st En I Ep.
  - exists st. repeat (split; [first [apply steps_refl|auto]|]); auto.
    unfold more. replace (_ <? _)%nat with false by (symmetry; apply Nat.ltb_ge; lia). reflexivity.
  - destruct (more P st) eqn:Em.
    2:{ exists st. repeat (split; [first [apply steps_refl|auto]|]); auto. }
    destruct (src st) as [|b rest] eqn:Es.
    + eexists. split; [apply steps_one; eapply p_exhaust; eauto|]. cbn [phase more exhausted pending delivered asked].
      split; [reflexivity|]. split; [unfold more; cbn; apply andb_false_r|auto].
    + set (k := List.length (taken st)). set (n' := List.length (hb_tensors b)). set (base := S (list_max (used_blocks st))).
      set (bl := fun g : buffer => if (fst g =? k)%nat then (base + snd g)%nat else blk st g).
      assert (St : pstep P st {| pd := enq_copy (with_host (pd st) (host_of (host (pd st)) k (hb_tensors b))) (copies k n' bl ++ [Rec (CopyEnd k)]);
         src := rest; taken := taken st ++ [b]; exhausted := hb_terminal b; pending := pending st ++ [k]; retired := retired st;
         used := used st; held := held st; dropped := dropped st; blk := bl; phase := PFill what; asked := asked st; nexts := S (nexts st); delivered := delivered st |}).
      { apply p_enqueue with (rest := rest); auto.
        - intros g Hg. unfold bl. destruct (Nat.eqb_spec (fst g) k); [contradiction|reflexivity].
        - unfold buffers. rewrite map_map. apply FinFun.Injective_map_NoDup; [|apply seq_NoDup].
          intros x y. unfold bl. fold k. cbn [fst snd]. rewrite Nat.eqb_refl. lia.
        - intros i Hi j i' Hj Hi' E. exfalso. unfold bl in E. fold k in E. cbn [fst snd] in E. rewrite Nat.eqb_refl in E.
          pose proof (used_block_le Hj Hi'). unfold base in E. lia. }
      set (st1 := Build_pstate _ _ _ _ _ _ _ _ _ _ _ _ _ _) in St.
      pose proof (inv_step HP I St) as I1.
      destruct (IH st1) as (st' & H1 & H2); auto.
      { subst st1. cbn [pending]. rewrite app_length. cbn. lia. }
      exists st'. split; [|exact H2]. eapply steps_trans; [apply steps_one; exact St|exact H1].
Qed.

Lemma answer_fill st k : inv st -> phase st = PFill (Some k) -> exists st', psteps st st' /\ phase st' = PUser
  /\ delivered st' = delivered st ++ [List.length (delivered st)] /\ asked st' = asked st.
Proof.
  intros I Ep. destruct (fill I Ep) as (st1 & H1 & P1 & M1 & D1 & A1).
  pose proof (inv_steps I H1) as (_ & Q1 & _). pose proof (Q_phase Q1) as QP. rewrite P1 in QP. destruct QP as [Ek _].
  eexists. split; [eapply steps_more; [exact H1|eapply p_yield; eauto]|]. cbn [phase delivered asked].
  split; [reflexivity|]. split; [rewrite Ek, D1; reflexivity|exact A1].
Qed.
Lemma answer_pop st : inv st -> phase st = PPop -> exists st', psteps st st' /\ phase st' = PUser
  /\ delivered st' = delivered st ++ [List.length (delivered st)] /\ asked st' = asked st.
Proof.
  intros I Ep. pose proof I as (_ & Q & _). destruct (pending st) as [|k r] eqn:E; [exfalso; apply (Q_some Q Ep); exact E|].
  pose proof (p_pop P Ep E) as St. pose proof (inv_step HP I St) as I1.
  destruct (answer_fill I1 (k:=k) eq_refl) as (st' & H1 & H2). exists st'. split; [|exact H2].
  eapply steps_trans; [apply steps_one; exact St|exact H1].
Qed.
Lemma retired_taken st k : inv st -> In k (retired st) -> (k < List.length (taken st))%nat.
Proof.
  intros (_ & Q & _) H. destruct (Q_retired Q) as (r & R1 & R2 & _). rewrite R2 in H. apply in_seq in H. pose proof (Q_popped Q). lia.
Qed.
Lemma answer_sync st : inv st -> copyq (pd st) = [] -> phase st = PSync -> exists st', psteps st st' /\ phase st' = PUser
  /\ delivered st' = delivered st ++ [List.length (delivered st)] /\ asked st' = asked st.
Proof.
  intros I Ec Ep. destruct (Nat.le_gt_cases (P + 1) (List.length (retired st))) as [L|L].
  - destruct (retired st) as [|k r] eqn:Er; [cbn in L; lia|].
    assert (F : fired (pd st) (CopyEnd k)) by (apply drained_fired; auto; apply retired_taken; auto; rewrite Er; left; reflexivity).
    assert (L' : (P + 1 <= List.length (retired st))%nat) by (rewrite Er; exact L).
    pose proof (p_sync Ep L' Er F) as St. pose proof (inv_step HP I St) as I1.
    destruct (answer_pop I1 eq_refl) as (st' & H1 & H2). exists st'. split; [|exact H2].
    eapply steps_trans; [apply steps_one; exact St|exact H1].
  - pose proof (p_nosync Ep L) as St. pose proof (inv_step HP I St) as I1.
    destruct (answer_pop I1 eq_refl) as (st' & H1 & H2). exists st'. split; [|exact H2].
    eapply steps_trans; [apply steps_one; exact St|exact H1].
Qed.
Lemma answer_release st : inv st -> copyq (pd st) = [] -> phase st = PRelease -> exists st', psteps st st' /\ phase st' = PUser
  /\ delivered st' = delivered st ++ [List.length (delivered st)] /\ asked st' = asked st.
Proof.
  remember (retired st) as l eqn:El. revert st El. induction l as [|k r IH]; intros st El I Ec Ep.
  - assert (Hk : match retired st with [] => True | k :: _ => ~ fired (pd st) (CopyEnd k) end) by (rewrite <- El; exact Logic.I).
    pose proof (p_keep P Ep Hk) as St. pose proof (inv_step HP I St) as I1.
    destruct (answer_sync I1 Ec eq_refl) as (st' & H1 & H2). exists st'. split; [|exact H2].
    eapply steps_trans; [apply steps_one; exact St|exact H1].
  - assert (F : fired (pd st) (CopyEnd k)) by (apply drained_fired; auto; apply retired_taken; auto; rewrite <- El; left; reflexivity).
    pose proof (p_release P Ep (eq_sym El) F) as St. pose proof (inv_step HP I St) as I1.
    match type of I1 with DeviceLoaderFacts.inv _ _ ?x => destruct (IH x eq_refl I1 Ec eq_refl) as (st' & H1 & H2) end. exists st'. split; [|exact H2].
    eapply steps_trans; [apply steps_one; exact St|exact H1].
Qed.
Lemma close_ends st why : inv st -> phase st = PClosing why -> exists st', psteps st st' /\ phase st' = PEnd why.
Proof.
  intros I Ep. destruct (drain I) as (d & H1 & H2 & H3 & H4).
  eexists. split; [eapply steps_more; [exact H4|eapply p_end; [exact Ep|exact H2]]|reflexivity].
Qed.
Lemma answer_head st : inv st -> phase st = PHead -> exists st', psteps st st' /\
  ((phase st' = PUser /\ delivered st' = delivered st ++ [List.length (delivered st)] /\ asked st' = asked st) \/ phase st' = PEnd (Some true)).
Proof.
  intros I Ep. destruct (drain I) as (d & H1 & H2 & H3 & H4). pose proof (inv_steps I H4) as I1.
  assert (Ep1 : phase (with_dev st d) = PHead) by exact Ep.
  destruct (pending st) as [|k r] eqn:E.
  - assert (E1 : pending (with_dev st d) = []) by exact E.
    pose proof (p_finish P Ep1 E1) as St. pose proof (inv_step HP I1 St) as I2.
    destruct (close_ends I2 (why:=Some true) eq_refl) as (st' & H5 & H6). exists st'. split; [|right; exact H6].
    eapply steps_trans; [eapply steps_more; [exact H4|exact St]|exact H5].
  - assert (E1 : pending (with_dev st d) <> []) by (cbn; rewrite E; discriminate).
    pose proof (p_loop P Ep1 E1) as St. pose proof (inv_step HP I1 St) as I2.
    destruct (answer_release I2 H2 eq_refl) as (st' & H5 & H6). exists st'. split; [|left; exact H6].
    eapply steps_trans; [eapply steps_more; [exact H4|exact St]|exact H5].
Qed.

Lemma answered st : inv st ->
  match phase st with PUser | PClosing _ | PEnd _ => True | _ =>
    exists st', psteps st st' /\
      ((phase st' = PUser /\ delivered st' = delivered st ++ [List.length (delivered st)] /\ asked st' = asked st) \/ phase st' = PEnd (Some true))
  end.
Proof.
  intros I. destruct (phase st) as [[k|]| | | | | |why|why] eqn:Ep; try exact Logic.I.
  - destruct (answer_fill I Ep) as (st' & H1 & H2). exists st'. auto.
  - destruct (fill I Ep) as (st1 & H1 & P1 & M1 & D1 & A1). pose proof (inv_steps I H1) as I1.
    pose proof (p_start P1 M1) as St. pose proof (inv_step HP I1 St) as I2.
    destruct (answer_head I2 eq_refl) as (st' & H5 & H6). exists st'. split.
    + eapply steps_trans; [eapply steps_more; [exact H1|exact St]|exact H5].
    + cbn [set_phase delivered asked] in H6. rewrite D1, A1 in H6. exact H6.
  - apply answer_head; auto.
  - destruct (drain I) as (d & H1 & H2 & H3 & H4). pose proof (inv_steps I H4) as I1.
    destruct (answer_release I1 H2 Ep) as (st' & H5 & H6). exists st'. split; [eapply steps_trans; eauto|left; exact H6].
  - destruct (drain I) as (d & H1 & H2 & H3 & H4). pose proof (inv_steps I H4) as I1.
    destruct (answer_sync I1 H2 Ep) as (st' & H5 & H6). exists st'. split; [eapply steps_trans; eauto|left; exact H6].
  - destruct (answer_pop I Ep) as (st' & H1 & H2). exists st'. auto.
Qed.
End Live.
