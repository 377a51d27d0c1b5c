(** * C44: provenance of results, progress, termination, one read per file *)
From Coq Require Import ZArith List Bool Lia.
From Verif Require Import Base BaseFacts NpzCache NpzCacheSpec NpzCacheFacts NpzCacheInv.
Import ListNotations.
Set Implicit Arguments.
Unset Strict Implicit.
Open Scope Z_scope.

(** ** What one step does to the calls and the cache, in full *)

Inductive step_kind (w : world) : label -> world -> Prop :=
| SkInvoke p0 p w' : w' = set_calls w (w_calls w ++ [mk_call p Called]) -> step_kind w (Invoke p0) w'
| SkSleep i p ph : call_at w i p ph -> ph = Called \/ ph = Woken -> In p (w_loading w) ->
    step_kind w (Enter i) (set_phase w i Asleep)
| SkHit i p ph a : call_at w i p ph -> ph = Called \/ ph = Woken -> ~ In p (w_loading w) ->
    od_get (w_cache w) p = Some a ->
    step_kind w (Enter i)
      (set_phase (set_cache w (od_del (w_cache w) p ++ [(p, a)])) i (Finished (Ok a)))
| SkMiss i p ph : call_at w i p ph -> ph = Called \/ ph = Woken -> ~ In p (w_loading w) ->
    ~ In p (keys (w_cache w)) ->
    step_kind w (Enter i) (set_phase (set_loading w (p :: w_loading w)) i Reading)
| SkRead i p r : call_at w i p Reading ->
    step_kind w (Read i r) (set_phase w i (match r with Ok a => ReadOk a | Err e => ReadErr e end))
| SkPublish i p a d' l' : call_at w i p (ReadOk a) ->
    NoDup l' -> (forall q, In q l' <-> In q (w_loading w) /\ q <> p) ->
    evict (w_mmap_cap w) (w_cap w) (w_bytes_cap w) (w_cache w ++ [(p, a)]) = Ok d' ->
    keeps_some d' (w_cache w ++ [(p, a)]) ->
    longest_end (mapped_fits (w_mmap_cap w)) (mapped d') (mapped (w_cache w ++ [(p, a)])) ->
    longest_end (memory_fits (w_cap w) (w_bytes_cap w)) (in_memory d')
                (in_memory (w_cache w ++ [(p, a)])) ->
    (exists d0, d' = d0 ++ [(p, a)]) ->
    step_kind w (Publish i) (set_phase (notify_all (set_loading (set_cache w d') l')) i (Finished (Ok a)))
| SkFail i p e l' : call_at w i p (ReadErr e) ->
    NoDup l' -> (forall q, In q l' <-> In q (w_loading w) /\ q <> p) ->
    step_kind w (Publish i) (set_phase (notify_all (set_loading w l')) i (Finished (Err e)))
| SkConfigure n b w' : w' = fst (configure w n b) ->
    w_calls w' = w_calls w -> w_loading w' = w_loading w -> keeps_some (w_cache w') (w_cache w) ->
    step_kind w (Configure n b) w'.

Lemma step_cases abspath w l w' : inv w -> exec abspath w l = Some w' -> step_kind w l w'.
Proof.
  intros Hi. destruct l as [p|i|i r|i|n b]; cbn [exec].
  - intros E. injection E as <-. eapply SkInvoke. reflexivity.
  - destruct (nth_error (w_calls w) i) as [c|] eqn:Ec; [|discriminate]. apply nth_call in Ec.
    assert (Hph : forall w1, match c_phase c with Called | Woken => Some (enter_block w i (c_path c))
                             | _ => None end = Some w1 ->
                  (c_phase c = Called \/ c_phase c = Woken) /\ w1 = enter_block w i (c_path c)).
    { intros w1. destruct (c_phase c); try discriminate; intros E; injection E as <-; auto. }
    intros E. apply Hph in E. destruct E as [Hp ->].
    destruct (enter_cases Hi Ec) as [[Hin ->]|[[Hn [a [Hg ->]]]|[Hn [Hk ->]]]].
    + eapply SkSleep; eauto.
    + eapply SkHit; eauto.
    + eapply SkMiss; eauto.
  - destruct (nth_error (w_calls w) i) as [c|] eqn:Ec; [|discriminate]. apply nth_call in Ec.
    destruct (c_phase c) eqn:Ep; try discriminate. intros E; injection E as <-. eapply SkRead; eauto.
  - destruct (nth_error (w_calls w) i) as [c|] eqn:Ec; [|discriminate]. apply nth_call in Ec.
    destruct (c_phase c) eqn:Ep; try discriminate; intros E; injection E as <-.
    + destruct (publish_case Hi Ec) as [l' [d' (H1 & H2 & H3 & H4 & H5 & H6 & H7 & ->)]].
      eapply SkPublish; eauto.
    + destruct (failed_case Hi Ec) as [l' (H1 & H2 & ->)]. eapply SkFail; eauto.
  - intros E. injection E as <-. constructor; [reflexivity| | |]; unfold configure.
    1,2: destruct n as [n|]; [|reflexivity]; destruct (n <=? 0); [reflexivity|];
         destruct b as [b|]; [|reflexivity]; destruct (b <=? 0); [reflexivity|]; cbn;
         destruct (evict _ _ _ _); reflexivity.
    destruct n as [n|]; [|apply keeps_some_refl]. destruct (n <=? 0); [apply keeps_some_refl|].
    destruct b as [b|]; [|apply keeps_some_refl]. destruct (b <=? 0); [apply keeps_some_refl|]. cbn.
    pose proof (inv_caps Hi) as [Hc1 _].
    destruct (@evict_ok (w_mmap_cap w) n b (w_cache w) ltac:(lia) (inv_keys Hi)) as [d2 (E2 & Hk & _)].
    rewrite E2. exact Hk.
Qed.

(** ** Who is where after a step *)

Lemma call_at_invoke w p i q ph :
  call_at (set_calls w (w_calls w ++ [mk_call p Called])) i q ph ->
  call_at w i q ph \/ ph = Called.
Proof.
  intros H. unfold call_at in *. cbn in H.
  destruct (Nat.lt_ge_cases i (List.length (w_calls w))) as [Hlt|Hge].
  - rewrite nth_error_app1 in H by exact Hlt. auto.
  - rewrite nth_error_app2 in H by exact Hge.
    destruct (i - List.length (w_calls w))%nat as [|k]; cbn in H; [injection H; auto|].
    destruct k; discriminate H.
Qed.

Lemma call_at_invoke_old w p i q ph : call_at w i q ph ->
  call_at (set_calls w (w_calls w ++ [mk_call p Called])) i q ph.
Proof.
  unfold call_at. cbn. intros H. rewrite nth_error_app1; [exact H|].
  apply nth_error_Some. rewrite H. discriminate.
Qed.

(** The call that a step advances, with its new phase; every other call keeps
    its path and its phase, except that sleepers may be woken. *)
Lemma call_at_step w l w' : step_kind w l w' -> forall i p ph, call_at w i p ph ->
  exists ph', call_at w' i p ph'.
Proof.
  intros H i p ph Hc. destruct H.
  - subst w'. exists ph. apply call_at_invoke_old. exact Hc.
  - destruct (Nat.eq_dec i i0) as [->|Hne].
    + destruct (call_at_fun H Hc) as [-> ->]. eexists. apply (call_at_set_phase _ _ _ _ Hc). left. auto.
    + eexists. apply (call_at_set_phase _ _ _ _ H). right. eauto.
  - destruct (Nat.eq_dec i i0) as [->|Hne].
    + destruct (call_at_fun H Hc) as [-> ->]. eexists.
      apply (call_at_set_phase (w := set_cache w _) _ _ _ _ H). left. auto.
    + eexists. apply (call_at_set_phase (w := set_cache w _) _ _ _ _ H). right. eauto.
  - destruct (Nat.eq_dec i i0) as [->|Hne].
    + destruct (call_at_fun H Hc) as [-> ->]. eexists.
      apply (call_at_set_phase (w := set_loading w _) _ _ _ _ H). left. auto.
    + eexists. apply (call_at_set_phase (w := set_loading w _) _ _ _ _ H). right. eauto.
  - destruct (Nat.eq_dec i i0) as [->|Hne].
    + destruct (call_at_fun H Hc) as [-> ->]. eexists. apply (call_at_set_phase _ _ _ _ H). left. auto.
    + eexists. apply (call_at_set_phase _ _ _ _ H). right. eauto.
  - assert (H' : call_at (notify_all (set_loading (set_cache w d') l')) i0 p0 (woken (ReadOk a)))
      by (apply call_at_notify; eauto).
    destruct (Nat.eq_dec i i0) as [->|Hne].
    + destruct (call_at_fun H Hc) as [-> ->]. eexists. apply (call_at_set_phase _ _ _ _ H'). left. auto.
    + exists (woken ph). apply (call_at_set_phase _ _ _ _ H'). right. split; [exact Hne|].
      apply call_at_notify. eauto.
  - assert (H' : call_at (notify_all (set_loading w l')) i0 p0 (woken (ReadErr e)))
      by (apply call_at_notify; eauto).
    destruct (Nat.eq_dec i i0) as [->|Hne].
    + destruct (call_at_fun H Hc) as [-> ->]. eexists. apply (call_at_set_phase _ _ _ _ H'). left. auto.
    + exists (woken ph). apply (call_at_set_phase _ _ _ _ H'). right. split; [exact Hne|].
      apply call_at_notify. eauto.
  - exists ph. unfold call_at. rewrite H0. exact Hc.
Qed.

Lemma path_of_call w i p : path_of w i p <-> exists ph, call_at w i p ph.
Proof.
  unfold path_of, call_at. split.
  - intros [c [H <-]]. exists (c_phase c). rewrite H. destruct c; reflexivity.
  - intros [ph H]. exists (mk_call p ph). auto.
Qed.

Lemma result_of_call w i r : result_of w i r <-> exists p, call_at w i p (Finished r).
Proof.
  unfold result_of, call_at. split.
  - intros [c [H E]]. exists (c_path c). rewrite H, <- E. destruct c; reflexivity.
  - intros [p H]. exists (mk_call p (Finished r)). auto.
Qed.

Lemma path_of_step w l w' i p : step_kind w l w' -> path_of w i p -> path_of w' i p.
Proof.
  intros H Hp. apply path_of_call in Hp. destruct Hp as [ph Hp].
  destruct (call_at_step H Hp) as [ph' H']. apply path_of_call. eauto.
Qed.

Lemma path_of_run abspath w ls w' i p : inv w -> exec_all abspath w ls = Some w' ->
  path_of w i p -> path_of w' i p.
Proof.
  revert w. induction ls as [|l ls IH]; intros w Hi; cbn; [intros E; injection E as <-; auto|].
  destruct (exec abspath w l) as [w1|] eqn:E; [|discriminate]. intros H Hp.
  eapply IH; [eapply inv_step; eauto|exact H|]. eapply path_of_step; [eapply step_cases; eauto|exact Hp].
Qed.

Lemma path_of_fun w i p q : path_of w i p -> path_of w i q -> p = q.
Proof. intros [c [H <-]] [c' [H' <-]]. rewrite H in H'. injection H' as <-. reflexivity. Qed.

(** A complete description of the calls after a step. *)
Lemma call_after w l w' : step_kind w l w' -> forall j q ph, call_at w' j q ph ->
  (exists ph0, call_at w j q ph0 /\ (ph = ph0 \/ ph = woken ph0)) \/
  match l, ph with
  | Invoke _, Called => True
  | Enter i, Asleep => i = j
  | Enter i, Reading => i = j /\ ~ In q (w_loading w) /\ ~ In q (keys (w_cache w)) /\
                        (call_at w j q Called \/ call_at w j q Woken)
  | Enter i, Finished (Ok a) => i = j /\ ~ In q (w_loading w) /\ od_get (w_cache w) q = Some a
  | Read i (Ok a), ReadOk a' => i = j /\ a = a' /\ call_at w j q Reading
  | Read i (Err e), ReadErr e' => i = j /\ e = e' /\ call_at w j q Reading
  | Publish i, Finished (Ok a) => i = j /\ call_at w j q (ReadOk a)
  | Publish i, Finished (Err e) => i = j /\ call_at w j q (ReadErr e)
  | _, _ => False
  end.
Proof.
  intros H j q ph Hc. destruct H.
  - subst w'. apply call_at_invoke in Hc. destruct Hc as [Hc| ->]; [left; eauto|right; exact I].
  - apply (call_at_set_phase _ _ _ _ H) in Hc. destruct Hc as [(-> & -> & ->)|[_ Hc]]; [right; reflexivity|left; eauto].
  - apply (call_at_set_phase (w := set_cache w _) _ _ _ _ H) in Hc.
    destruct Hc as [(-> & -> & ->)|[_ Hc]]; [right; auto|left; eauto].
  - apply (call_at_set_phase (w := set_loading w _) _ _ _ _ H) in Hc.
    destruct Hc as [(-> & -> & ->)|[_ Hc]]; [right|left; eauto].
    split; [reflexivity|]. split; [assumption|]. split; [assumption|].
    destruct H0 as [->| ->]; auto.
  - apply (call_at_set_phase _ _ _ _ H) in Hc. destruct Hc as [(-> & -> & ->)|[_ Hc]]; [right|left; eauto].
    destruct r; auto.
  - assert (H' : call_at (notify_all (set_loading (set_cache w d') l')) i p (woken (ReadOk a)))
      by (apply call_at_notify; eauto).
    apply (call_at_set_phase _ _ _ _ H') in Hc.
    destruct Hc as [(-> & -> & ->)|[_ Hc]]; [right; auto|left].
    apply call_at_notify in Hc. destruct Hc as [ph0 [Hc ->]]. exists ph0. auto.
  - assert (H' : call_at (notify_all (set_loading w l')) i p (woken (ReadErr e)))
      by (apply call_at_notify; eauto).
    apply (call_at_set_phase _ _ _ _ H') in Hc.
    destruct Hc as [(-> & -> & ->)|[_ Hc]]; [right; auto|left].
    apply call_at_notify in Hc. destruct Hc as [ph0 [Hc ->]]. exists ph0. auto.
  - left. exists ph. split; [|auto]. unfold call_at in *. rewrite <- H0. exact Hc.
Qed.

(** Items of the cache after a step: old ones, or the one just published. *)
Lemma cache_after w l w' : step_kind w l w' -> forall kv, In kv (w_cache w') ->
  In kv (w_cache w) \/
  match l with Publish i => call_at w i (fst kv) (ReadOk (snd kv)) | _ => False end.
Proof.
  intros H [k v] Hin. destruct H; cbn in Hin; auto.
  - subst w'. auto.
  - left. apply in_app_or in Hin. destruct Hin as [Hin|[E|[]]].
    + clear -Hin. induction (w_cache w) as [|[k' v'] d IH]; cbn in *; [contradiction|].
      destruct (k' =? p); [auto|]. destruct Hin as [|Hin]; auto.
    + injection E as <- <-. apply od_get_In. assumption.
  - apply (keeps_some_In H3) in Hin. apply in_app_or in Hin. destruct Hin as [|[E|[]]]; [auto|].
    injection E as <- <-. right. exact H.
  - left. exact (keeps_some_In H2 Hin).
Qed.

(** ** Provenance *)

Record prov (ls : list label) (w : world) : Prop := mk_prov {
  pv_read : forall i p a, call_at w i p (ReadOk a) -> In (Read i (Ok a)) ls;
  pv_fail : forall i p e, call_at w i p (ReadErr e) -> In (Read i (Err e)) ls;
  pv_cache : forall p a, In (p, a) (w_cache w) -> exists j, path_of w j p /\ In (Read j (Ok a)) ls;
  pv_ok : forall i p a, call_at w i p (Finished (Ok a)) ->
    exists j, path_of w j p /\ In (Read j (Ok a)) ls;
  pv_err : forall i p e, call_at w i p (Finished (Err e)) -> In (Read i (Err e)) ls
}.

Lemma woken_cases ph ph0 : ph = woken ph0 -> ph = ph0 \/ (ph = Woken /\ ph0 = Asleep).
Proof. destruct ph0; cbn; auto. Qed.

Lemma prov_step abspath ls w l w' : inv w -> prov ls w -> exec abspath w l = Some w' ->
  prov (ls ++ [l]) w'.
Proof.
  intros Hi Hp E. pose proof (step_cases Hi E) as Hk.
  assert (Hinl : forall x, In x ls -> In x (ls ++ [l])) by (intros; apply in_or_app; auto).
  assert (Hnew : In l (ls ++ [l])) by (apply in_or_app; cbn; auto).
  assert (Hpath : forall j p, path_of w j p -> path_of w' j p) by (intros; eapply path_of_step; eauto).
  assert (Hsrc : forall p a, (exists j, path_of w j p /\ In (Read j (Ok a)) ls) ->
                 exists j, path_of w' j p /\ In (Read j (Ok a)) (ls ++ [l])).
  { intros p a [j [H1 H2]]. exists j. auto. }
  assert (Hold : forall j q ph ph0, call_at w j q ph0 -> (ph = ph0 \/ ph = woken ph0) ->
                 ph <> Woken -> call_at w j q ph).
  { intros j q ph ph0 H [->|Hw] Hn; [exact H|]. apply woken_cases in Hw.
    destruct Hw as [->|[-> _]]; [exact H|congruence]. }
  constructor.
  - intros i p a Hc. destruct (call_after Hk Hc) as [[ph0 [H0 Hph]]|Hx].
    + apply Hinl. eapply (pv_read Hp). eapply Hold; eauto. discriminate.
    + destruct l as [| |i' [a'|e']| |]; try contradiction. destruct Hx as (-> & -> & _). exact Hnew.
  - intros i p e Hc. destruct (call_after Hk Hc) as [[ph0 [H0 Hph]]|Hx].
    + apply Hinl. eapply (pv_fail Hp). eapply Hold; eauto. discriminate.
    + destruct l as [| |i' [a'|e']| |]; try contradiction. destruct Hx as (-> & -> & _). exact Hnew.
  - intros p a Hin. destruct (cache_after Hk Hin) as [Hin'|Hx].
    + apply Hsrc. exact (pv_cache Hp Hin').
    + destruct l; try contradiction. cbn in Hx. apply Hsrc. exists i. split.
      * apply path_of_call. eauto.
      * exact (pv_read Hp Hx).
  - intros i p a Hc. destruct (call_after Hk Hc) as [[ph0 [H0 Hph]]|Hx].
    + apply Hsrc. eapply (pv_ok Hp). eapply Hold; eauto. discriminate.
    + destruct l as [|i'|i' [a'|e']|i'|]; try contradiction.
      * destruct Hx as (_ & _ & Hg). apply Hsrc. exact (pv_cache Hp (od_get_In Hg)).
      * destruct Hx as (_ & Hr). apply Hsrc. exists i. split; [apply path_of_call; eauto|exact (pv_read Hp Hr)].
  - intros i p e Hc. destruct (call_after Hk Hc) as [[ph0 [H0 Hph]]|Hx].
    + apply Hinl. eapply (pv_err Hp). eapply Hold; eauto. discriminate.
    + destruct l as [|i'|i' [a'|e']|i'|]; try contradiction.
      destruct Hx as (_ & Hr). apply Hinl. exact (pv_fail Hp Hr).
Qed.

Lemma prov_run abspath w0 ls0 ls w : inv w0 -> prov ls0 w0 -> exec_all abspath w0 ls = Some w ->
  prov (ls0 ++ ls) w.
Proof.
  revert w0 ls0. induction ls as [|l ls IH]; intros w0 ls0 Hi Hp; cbn.
  - intros E. injection E as <-. rewrite app_nil_r. exact Hp.
  - destruct (exec abspath w0 l) as [w1|] eqn:E; [|discriminate]. intros H.
    replace (ls0 ++ l :: ls) with ((ls0 ++ [l]) ++ ls) by (rewrite <- app_assoc; reflexivity).
    eapply IH; [eapply inv_step; eauto|eapply prov_step; eauto|exact H].
Qed.

Lemma prov_initial : prov [] initial.
Proof.
  constructor; unfold call_at; cbn; try tauto; intros [|i]; discriminate.
Qed.

(** ** Progress *)

Lemma nth_error_In_ex {A} (l : list A) x : In x l -> exists i, nth_error l i = Some x.
Proof. apply In_nth_error. Qed.

(** Some unfinished call can move, whatever its next read gives. *)
Lemma progress abspath w (outcome : res entry) : inv w ->
  (exists i p ph, call_at w i p ph /\ is_finished ph = false) ->
  exists l w', internal l = true /\ exec abspath w l = Some w' /\
    (forall i r, l = Read i r -> r = outcome).
Proof.
  intros Hi [i [p [ph [Hc Hf]]]].
  assert (Hgo : forall i p ph, call_at w i p ph -> is_finished ph = false -> ph <> Asleep ->
     exists l w', internal l = true /\ exec abspath w l = Some w' /\
       (forall i r, l = Read i r -> r = outcome)).
  { clear. intros i p ph Hc Hf Hs. unfold call_at in Hc.
    destruct ph; try discriminate; try congruence.
    - exists (Enter i). cbn. rewrite Hc. cbn. eexists. split; [reflexivity|]. split; [reflexivity|discriminate].
    - exists (Enter i). cbn. rewrite Hc. cbn. eexists. split; [reflexivity|]. split; [reflexivity|discriminate].
    - exists (Read i outcome). cbn. rewrite Hc. cbn. eexists. split; [reflexivity|].
      split; [reflexivity|]. intros ? ? E. injection E; auto.
    - exists (Publish i). cbn. rewrite Hc. cbn. eexists. split; [reflexivity|]. split; [reflexivity|discriminate].
    - exists (Publish i). cbn. rewrite Hc. cbn. eexists. split; [reflexivity|]. split; [reflexivity|discriminate]. }
  destruct (match ph with Asleep => true | _ => false end) eqn:Ea.
  - destruct ph; try discriminate. pose proof (inv_asleep Hi Hc) as Hin.
    destruct (inv_has_reader Hi Hin) as [j [ph' [Hc' Hr']]].
    eapply (Hgo j p ph' Hc'); destruct ph'; try discriminate; reflexivity.
  - eapply (Hgo i p ph Hc Hf). intros ->. discriminate.
Qed.

(** ** Termination *)

Definition weight (ph : phase) : nat :=
  match ph with
  | Called => 5 | Woken => 4 | Asleep => 3 | Reading => 2
  | ReadOk _ => 1 | ReadErr _ => 1 | Finished _ => 0
  end%nat.

Definition unfinished (w : world) : nat :=
  List.length (filter (fun c => negb (is_finished (c_phase c))) (w_calls w)).

Definition weights (cs : list call) : nat := list_sum (map (fun c => weight (c_phase c)) cs).

Definition live (cs : list call) : nat :=
  List.length (filter (fun c => negb (is_finished (c_phase c))) cs).

Definition measure (w : world) : nat :=
  (live (w_calls w) * live (w_calls w) + weights (w_calls w))%nat.

Lemma upd_split {A} (l : list A) i x : nth_error l i = Some x ->
  exists l1 l2, l = l1 ++ x :: l2 /\ forall y, upd l i y = l1 ++ y :: l2.
Proof.
  intros H. destruct (nth_error_split _ _ H) as [l1 [l2 [-> <-]]]. exists l1, l2.
  split; [reflexivity|]. intros y. apply upd_app.
Qed.

Lemma live_app a b : live (a ++ b) = (live a + live b)%nat.
Proof. unfold live. rewrite filter_app, app_length. reflexivity. Qed.
Lemma weights_app a b : weights (a ++ b) = (weights a + weights b)%nat.
Proof. unfold weights. rewrite map_app, list_sum_app. reflexivity. Qed.
Lemma live_one c : live [c] = if is_finished (c_phase c) then 0%nat else 1%nat.
Proof. unfold live. cbn. destruct (is_finished (c_phase c)); reflexivity. Qed.
Lemma weights_one c : weights [c] = weight (c_phase c).
Proof. unfold weights. cbn. lia. Qed.

Lemma live_wake cs : live (map wake cs) = live cs.
Proof.
  unfold live. induction cs as [|c cs IH]; [reflexivity|]. cbn. unfold wake at 1.
  destruct c as [p ph]. destruct ph; cbn; rewrite ?IH; reflexivity.
Qed.

Lemma weights_wake cs : (weights (map wake cs) <= weights cs + live cs)%nat.
Proof.
  induction cs as [|c cs IH]; [cbn; lia|].
  change (map wake (c :: cs)) with ([wake c] ++ map wake cs). change (c :: cs) with ([c] ++ cs).
  rewrite !weights_app, live_app, !weights_one, live_one.
  destruct c as [p ph]; destruct ph; cbn; lia.
Qed.

Lemma set_phase_calls w i p ph ph' : call_at w i p ph ->
  exists l1 l2, w_calls w = l1 ++ mk_call p ph :: l2 /\
    w_calls (set_phase w i ph') = l1 ++ mk_call p ph' :: l2.
Proof.
  intros H. destruct (upd_split H) as [l1 [l2 [E Hu]]]. exists l1, l2. split; [exact E|].
  unfold set_phase, call_at in *. rewrite H. cbn. apply Hu.
Qed.

Lemma measure_phase w i p ph ph' : call_at w i p ph ->
  is_finished ph = false ->
  (weight ph' < weight ph)%nat -> (measure (set_phase w i ph') < measure w)%nat.
Proof.
  intros H Hf Hw. destruct (set_phase_calls ph' H) as [l1 [l2 [E E']]]. unfold measure. rewrite E, E'.
  change (mk_call p ph :: l2) with ([mk_call p ph] ++ l2).
  change (mk_call p ph' :: l2) with ([mk_call p ph'] ++ l2).
  rewrite !live_app, !weights_app, !live_one, !weights_one. cbn. rewrite Hf.
  destruct (is_finished ph'); nia.
Qed.

Lemma measure_finish w i p ph r : call_at w i p ph -> is_reading ph = true ->
  (measure (set_phase (notify_all w) i (Finished r)) < measure w)%nat.
Proof.
  intros H Hr.
  assert (H' : call_at (notify_all w) i p (woken ph)) by (apply call_at_notify; eauto).
  destruct (set_phase_calls (Finished r) H') as [l1 [l2 [E E']]].
  pose proof (weights_wake (w_calls w)) as Hww. pose proof (live_wake (w_calls w)) as Hlw.
  change (map wake (w_calls w)) with (w_calls (notify_all w)) in *.
  unfold measure. rewrite E' . rewrite E in Hww, Hlw.
  change (mk_call p (woken ph) :: l2) with ([mk_call p (woken ph)] ++ l2) in *.
  change (mk_call p (Finished r) :: l2) with ([mk_call p (Finished r)] ++ l2).
  rewrite !live_app, !weights_app, !live_one, !weights_one in *. cbn [c_phase is_finished weight] in *.
  assert (Hf : is_finished (woken ph) = false) by (destruct ph; try discriminate; reflexivity).
  assert (Hwp : (1 <= weight (woken ph))%nat) by (destruct ph; try discriminate; cbn; lia).
  rewrite Hf in *. rewrite <- Hlw. nia.
Qed.

Lemma measure_step abspath w l w' : inv w -> internal l = true -> exec abspath w l = Some w' ->
  (measure w' < measure w)%nat.
Proof.
  intros Hi Hl E. apply (step_cases Hi) in E. destruct E; try discriminate.
  - eapply measure_phase; eauto; destruct H0 as [->| ->]; cbn; try reflexivity; lia.
  - change (measure w) with (measure (set_cache w (od_del (w_cache w) p ++ [(p, a)]))).
    eapply measure_phase; [exact H| |]; destruct H0 as [->| ->]; cbn; try reflexivity; lia.
  - change (measure w) with (measure (set_loading w (p :: w_loading w))).
    eapply measure_phase; [exact H| |]; destruct H0 as [->| ->]; cbn; try reflexivity; lia.
  - eapply measure_phase; eauto; destruct r; cbn; try reflexivity; lia.
  - change (measure w) with (measure (set_loading (set_cache w d') l')).
    eapply measure_finish; [exact H|reflexivity].
  - change (measure w) with (measure (set_loading w l')).
    eapply measure_finish; [exact H|reflexivity].
Qed.

Lemma run_bound abspath ls w w' : inv w -> forallb internal ls = true ->
  exec_all abspath w ls = Some w' -> (List.length ls + measure w' <= measure w)%nat.
Proof.
  revert w. induction ls as [|l ls IH]; intros w Hi; cbn.
  - intros _ E. injection E as <-. lia.
  - intros H. apply andb_true_iff in H. destruct H as [H1 H2].
    destruct (exec abspath w l) as [w1|] eqn:E; [|discriminate]. intros H.
    pose proof (measure_step Hi H1 E). specialize (IH w1 (inv_step Hi E) H2 H). lia.
Qed.

Lemma measure_le w : (measure w <= unfinished w * unfinished w + 5 * unfinished w)%nat.
Proof.
  unfold measure. change (unfinished w) with (live (w_calls w)).
  enough (weights (w_calls w) <= 5 * live (w_calls w))%nat by lia.
  induction (w_calls w) as [|c cs IH]; [cbn; lia|].
  change (c :: cs) with ([c] ++ cs). rewrite weights_app, live_app, weights_one, live_one.
  destruct c as [p ph]; destruct ph; cbn [c_phase is_finished weight]; lia.
Qed.

(** ** One successful read per file when everything fits *)

Lemma longest_end_whole {A} (P : list A -> Prop) s l : longest_end P s l -> P l -> s = l.
Proof.
  intros [[pre ->] [Hs Hmax]] Hl. specialize (Hmax [] (pre ++ s) eq_refl Hl).
  rewrite app_length in Hmax. destruct pre; [reflexivity|cbn in Hmax; lia].
Qed.

Lemma filter_le {A} (f : A -> bool) l : (List.length (filter f l) <= List.length l)%nat.
Proof. induction l as [|x l IH]; cbn; [lia|]. destruct (f x); cbn; lia. Qed.

Lemma filter_all {A} (f : A -> bool) l : List.length (filter f l) = List.length l -> filter f l = l.
Proof.
  induction l as [|x l IH]; cbn; [reflexivity|]. destruct (f x); cbn; intros H.
  - f_equal. apply IH. lia.
  - pose proof (filter_le f l). lia.
Qed.

Lemma evict_nothing mmap_cap cap bytes_cap d : 0 <= mmap_cap -> NoDup (keys d) ->
  mapped_fits mmap_cap (mapped d) -> memory_fits cap bytes_cap (in_memory d) ->
  evict mmap_cap cap bytes_cap d = Ok d.
Proof.
  intros Hc Hd Hm Hb. destruct (@evict_ok mmap_cap cap bytes_cap d Hc Hd) as [d' (E & [keep Hk] & H1 & H2)].
  rewrite E. f_equal. apply (fun H => longest_end_whole H Hm) in H1. apply (fun H => longest_end_whole H Hb) in H2.
  pose proof (cls_length d') as L'. pose proof (cls_length d) as L.
  rewrite (mapped_cls d'), (mapped_cls d) in H1. rewrite (in_memory_cls d'), (in_memory_cls d) in H2.
  rewrite Hk. apply filter_all. rewrite <- Hk. rewrite <- L', <- L, H1, H2. reflexivity.
Qed.

Lemma sub_sum {A} (g : A -> Z) (d l : list A) : NoDup d -> incl d l -> (forall x, In x l -> 0 <= g x) ->
  zsum (map g d) <= zsum (map g l).
Proof.
  revert l. induction d as [|x d IH]; intros l Hd Hi Hp.
  - cbn. apply zsum_nonneg. apply Forall_forall. intros z Hz. apply in_map_iff in Hz.
    destruct Hz as [y [<- Hy]]. auto.
  - inversion Hd as [|? ? Hn Hd']; subst. destruct (in_split x l) as [l1 [l2 ->]]; [apply Hi; cbn; auto|].
    assert (Hi' : incl d (l1 ++ l2)).
    { intros y Hy. assert (Hy2 : In y (l1 ++ x :: l2)) by (apply Hi; cbn; auto).
      apply in_app_or in Hy2. apply in_or_app. cbn in Hy2. destruct Hy2 as [|[->|]]; auto. contradiction. }
    assert (Hp' : forall y, In y (l1 ++ l2) -> 0 <= g y).
    { intros y Hy. apply Hp. apply in_app_or in Hy. apply in_or_app. cbn. tauto. }
    specialize (IH _ Hd' Hi' Hp'). rewrite !map_app, !zsum_app in *. cbn [map]. rewrite !zsum_cons. lia.
Qed.

Lemma NoDup_of_keys d : NoDup (keys d) -> NoDup d.
Proof. apply NoDup_map_inv. Qed.

Lemma sub_fits mmap_cap cap bytes_cap d whole : NoDup (keys d) -> incl d whole ->
  (forall kv, In kv whole -> 0 <= entry_bytes (snd kv)) ->
  mapped_fits mmap_cap (mapped whole) -> memory_fits cap bytes_cap (in_memory whole) ->
  mapped_fits mmap_cap (mapped d) /\ memory_fits cap bytes_cap (in_memory d).
Proof.
  intros Hd Hi Hp Hm Hb. apply NoDup_of_keys in Hd.
  assert (Hf : forall f, NoDup (filter f d) /\ incl (filter f d) (filter f whole)).
  { intros f. split; [apply NoDup_filter; exact Hd|]. intros x Hx. apply filter_In in Hx.
    apply filter_In. split; [apply Hi; tauto|tauto]. }
  split.
  - unfold mapped_fits in *. destruct (Hf (fun kv => is_mmap_entry (snd kv))) as [H1 H2].
    pose proof (NoDup_incl_length H1 H2) as L. unfold zlen, mapped in *. lia.
  - unfold memory_fits in *. destruct (Hf (fun kv => negb (is_mmap_entry (snd kv)))) as [H1 H2].
    pose proof (NoDup_incl_length H1 H2) as L. fold (in_memory d) (in_memory whole) in *.
    assert (S : total_bytes (in_memory d) <= total_bytes (in_memory whole)).
    { apply sub_sum; [exact H1|exact H2|]. intros x Hx. apply Hp. apply filter_In in Hx. tauto. }
    unfold zlen in *. lia.
Qed.

(** A step other than a call leaves the set of calls alone. *)
Lemma call_before w l w' : step_kind w l w' -> forall j q ph, call_at w' j q ph ->
  path_of w j q \/ exists p0, l = Invoke p0.
Proof.
  intros H j q ph Hc. pose proof (fun p => @path_of_step w l w' j p H) as Hst.
  destruct (nth_error (w_calls w) j) as [c|] eqn:Ec.
  - left. assert (Hq : path_of w j (c_path c)) by (exists c; auto).
    assert (Hq2 : path_of w' j q) by (apply path_of_call; eauto).
    rewrite (path_of_fun Hq2 (Hst _ Hq)). exact Hq.
  - destruct l as [p0| | | |]; [right; eauto|exfalso..]; apply nth_error_None in Ec;
    assert (Hlt : (j < List.length (w_calls w'))%nat)
      by (apply nth_error_Some; unfold call_at in Hc; rewrite Hc; discriminate);
    enough (List.length (w_calls w') = List.length (w_calls w)) by lia; clear -H;
    inversion H; subst; try congruence; unfold set_phase; cbn; rewrite ?nth_error_map;
    repeat match goal with |- context [match ?x with _ => _ end] => destruct x end;
    cbn; rewrite ?upd_length, ?map_length; try reflexivity.
Qed.

(** A call that has read its file either still waits to publish it or the file
    is in the cache. *)
Lemma read_moves w l w' i p a : inv w -> step_kind w l w' -> call_at w i p (ReadOk a) ->
  call_at w' i p (ReadOk a) \/ In p (keys (w_cache w')).
Proof.
  intros Hi H Hc.
  assert (Hother : forall j ph', i <> j \/ ph' = ReadOk a -> forall w1 q ph, call_at w1 j q ph ->
     call_at w1 i p (ReadOk a) -> call_at (set_phase w1 j ph') i p (ReadOk a)).
  { intros j ph' Hd w1 q ph Hj Hx. apply (call_at_set_phase _ _ _ _ Hj).
    destruct (Nat.eq_dec i j) as [->|]; [|right; auto]. destruct Hd as [|Hd]; [contradiction|]. left.
    destruct (call_at_fun Hj Hx) as [-> _]. auto. }
  destruct H.
  - left. subst w'. apply call_at_invoke_old. exact Hc.
  - left. eapply Hother; [left|exact H|exact Hc]. intros ->. destruct (call_at_fun H Hc) as [_ <-].
    destruct H0; discriminate.
  - left. eapply Hother; [left|exact H|exact Hc]. intros ->. destruct (call_at_fun H Hc) as [_ <-].
    destruct H0; discriminate.
  - left. eapply Hother; [left|exact H|exact Hc]. intros ->. destruct (call_at_fun H Hc) as [_ <-].
    destruct H0; discriminate.
  - left. eapply Hother; [left|exact H|exact Hc]. intros ->. destruct (call_at_fun H Hc) as [_ Hx].
    discriminate.
  - destruct (Nat.eq_dec i i0) as [->|Hne].
    + right. destruct (call_at_fun H Hc) as [-> Hx]. injection Hx as <-. destruct H6 as [d0 ->]. cbn.
      rewrite keys_app_one. apply in_or_app. cbn. auto.
    + left. eapply Hother; [left; exact Hne| |].
      * apply call_at_notify. exists (ReadOk a0). split; [exact H|reflexivity].
      * apply call_at_notify. exists (ReadOk a). split; [exact Hc|reflexivity].
  - destruct (Nat.eq_dec i i0) as [->|Hne].
    + destruct (call_at_fun H Hc) as [_ Hx]. discriminate.
    + left. eapply Hother; [left; exact Hne| |].
      * apply call_at_notify. exists (ReadErr e). split; [exact H|reflexivity].
      * apply call_at_notify. exists (ReadOk a). split; [exact Hc|reflexivity].
  - left. unfold call_at in *. rewrite H0. exact Hc.
Qed.

Section Once.
Variables (abspath : path -> path) (files : list path) (content : path -> entry) (n b : Z).
Let whole : odict := map (fun p => (p, content p)) files.
Hypothesis nonneg : forall p, In p files -> 0 <= entry_bytes (content p).
Hypothesis fit1 : mapped_fits 16 (mapped whole).
Hypothesis fit2 : memory_fits n b (in_memory whole).

Record once (ls : list label) (w : world) : Prop := mk_once {
  on_inv : inv w;
  on_caps : w_mmap_cap w = 16 /\ w_cap w = n /\ w_bytes_cap w = b;
  on_prov : prov ls w;
  on_exists : forall i r, In (Read i r) ls -> exists p, path_of w i p;
  on_files : forall i p, path_of w i p -> In p files;
  on_read : forall i p a, In (Read i (Ok a)) ls -> path_of w i p ->
    call_at w i p (ReadOk a) \/ In p (keys (w_cache w))
}.

(** Labels allowed: no reconfiguration, only these files are asked for. *)
Definition plain (l : label) : Prop :=
  match l with Invoke p => In (abspath p) files | Configure _ _ => False | _ => True end.

Lemma read_has_call w l w' i r : exec abspath w l = Some w' -> l = Read i r -> exists p, call_at w i p Reading.
Proof.
  intros E ->. cbn in E. destruct (nth_error (w_calls w) i) as [c|] eqn:Ec; [|discriminate].
  apply nth_call in Ec. destruct (c_phase c) eqn:Ep; try discriminate. eauto.
Qed.

Lemma cache_in_whole ls w : once ls w ->
  (forall i a p, In (Read i (Ok a)) ls -> path_of w i p -> a = content p) ->
  forall kv, In kv (w_cache w) -> In kv whole.
Proof.
  intros Ho Hfix [p a] Hin. destruct (pv_cache (on_prov Ho) Hin) as [j [H1 H2]].
  rewrite (Hfix j a p H2 H1). apply in_map_iff. exists p. split; [reflexivity|]. exact (on_files Ho H1).
Qed.

Lemma once_step ls w l w' : once ls w -> exec abspath w l = Some w' -> plain l ->
  (forall i a p, In (Read i (Ok a)) ls -> path_of w i p -> a = content p) ->
  once (ls ++ [l]) w' /\
  (forall i a p, l = Read i (Ok a) -> path_of w i p ->
     forall j a', In (Read j (Ok a')) ls -> path_of w j p -> False).
Proof.
  intros Ho E Hpl Hfix. pose proof (on_inv Ho) as Hi. pose proof (step_cases Hi E) as Hk.
  assert (Honly : forall i a p, l = Read i (Ok a) -> path_of w i p ->
     forall j a', In (Read j (Ok a')) ls -> path_of w j p -> False).
  { intros i a p El Hp j a' Hin Hpj.
    destruct (read_has_call E El) as [q Hq].
    assert (q = p) by (eapply path_of_fun; [apply path_of_call; eauto|exact Hp]). subst q.
    destruct (on_read Ho Hin Hpj) as [Hr|Hc].
    - assert (i = j) by exact (inv_one_reader Hi Hq Hr eq_refl eq_refl). subst j.
      destruct (call_at_fun Hq Hr) as [_ Hx]. discriminate.
    - exact (inv_not_cached Hi (inv_reader Hi Hq eq_refl) Hc). }
  split; [|exact Honly].
  assert (Hcap' : w_mmap_cap w' = 16 /\ w_cap w' = n /\ w_bytes_cap w' = b).
  { pose proof (on_caps Ho) as Hc. destruct Hk; try exact Hc; try contradiction.
    subst w'. exact Hc. }
  (* what was read stays *)
  assert (Hkeys : forall p, In p (keys (w_cache w)) -> In p (keys (w_cache w'))).
  { intros p Hin. destruct Hk; try exact Hin; try contradiction; cbn.
    - subst w'. exact Hin.
    - rewrite keys_app_one, in_app_iff, od_del_keys by apply Hi. cbn.
      destruct (Z.eq_dec p p0) as [->|]; auto.
    - assert (Hd : NoDup (keys (w_cache w ++ [(p0, a)]))).
      { rewrite keys_app_one. apply NoDup_snoc; [apply Hi|]. apply (inv_not_cached Hi).
        exact (inv_reader Hi H eq_refl). }
      assert (Hin' : incl (w_cache w ++ [(p0, a)]) whole).
      { intros kv Hkv. apply in_app_or in Hkv. destruct Hkv as [Hkv|[<-|[]]].
        - exact (cache_in_whole Ho Hfix Hkv).
        - assert (Hp0 : path_of w i p0) by (apply path_of_call; eauto).
          rewrite (Hfix i a p0 (pv_read (on_prov Ho) H) Hp0).
          apply in_map_iff. exists p0. split; [reflexivity|]. exact (on_files Ho Hp0). }
      destruct (on_caps Ho) as (C1 & C2 & C3). rewrite C1, C2, C3 in *.
      assert (Hnn : forall kv, In kv whole -> 0 <= entry_bytes (snd kv)).
      { intros kv Hkv. apply in_map_iff in Hkv. destruct Hkv as [p' [<- Hp']]. cbn [snd]. apply nonneg. exact Hp'. }
      destruct (sub_fits Hd Hin' Hnn fit1 fit2) as [F1 F2].
      rewrite (@evict_nothing 16 n b _ ltac:(lia) Hd F1 F2) in H2. injection H2 as <-.
      rewrite keys_app_one. apply in_or_app. auto. }
  constructor.
  - eapply inv_step; eauto.
  - exact Hcap'.
  - eapply prov_step; eauto. apply Ho.
  - intros i r Hin. apply in_app_or in Hin. destruct Hin as [Hin|[El|[]]].
    + destruct (on_exists Ho Hin) as [p Hp]. exists p. exact (path_of_step Hk Hp).
    + destruct (read_has_call E El) as [p Hp]. exists p.
      apply (path_of_step Hk). apply path_of_call. eauto.
  - intros i p Hp. apply path_of_call in Hp. destruct Hp as [ph Hc].
    destruct (call_before Hk Hc) as [Hq|[p0 El]]; [exact (on_files Ho Hq)|].
    subst l. cbn in E. injection E as <-.
    destruct (Nat.lt_ge_cases i (List.length (w_calls w))) as [Hlt|Hge].
    + eapply (on_files Ho). unfold call_at in Hc. cbn in Hc.
      rewrite nth_error_app1 in Hc by exact Hlt. apply path_of_call. eauto.
    + unfold call_at in Hc. cbn in Hc. rewrite nth_error_app2 in Hc by exact Hge.
      destruct (i - List.length (w_calls w))%nat as [|k]; cbn in Hc; [|destruct k; discriminate].
      injection Hc as <- _. exact Hpl.
  - intros i p a Hin Hp. apply in_app_or in Hin. destruct Hin as [Hin|[El|[]]].
    + destruct (on_exists Ho Hin) as [q Hq].
      rewrite (path_of_fun Hp (path_of_step Hk Hq)) in *. clear Hp.
      destruct (on_read Ho Hin Hq) as [Hr|Hc]; [|right; auto].
      destruct (call_at_step Hk Hr) as [ph' H'].
      destruct (read_moves Hi Hk Hr) as [H1|H1]; [left; exact H1|right; exact H1].
    + subst l. destruct (read_has_call E eq_refl) as [q Hq].
      assert (Hpq : path_of w' i q) by (apply (path_of_step Hk), path_of_call; eauto).
      rewrite (path_of_fun Hp Hpq). left. cbn in E. unfold call_at in Hq. rewrite Hq in E. cbn in E.
      injection E as <-. apply (call_at_set_phase _ _ _ _ Hq). left. auto.
Qed.

Lemma once_run ls0 ls w0 w : once ls0 w0 -> exec_all abspath w0 ls = Some w ->
  Forall plain ls ->
  (forall i a p, In (Read i (Ok a)) (ls0 ++ ls) -> path_of w i p -> a = content p) ->
  once (ls0 ++ ls) w /\
  forall l1 i a l2, ls = l1 ++ Read i (Ok a) :: l2 ->
    forall j a' p, In (Read j (Ok a')) (ls0 ++ l1) -> path_of w i p -> path_of w j p -> False.
Proof.
  revert ls0 w0. induction ls as [|l ls IH]; intros ls0 w0 Ho; cbn.
  - intros E _ _. injection E as <-. rewrite app_nil_r. split; [exact Ho|].
    intros [|? l1]; discriminate.
  - destruct (exec abspath w0 l) as [w1|] eqn:E; [|discriminate]. intros H Hpl Hfix.
    inversion Hpl as [|? ? Hl Hls]; subst.
    assert (Hpast : forall i p, path_of w0 i p -> path_of w i p).
    { intros i p Hp. eapply (path_of_run (w := w1)); [eapply inv_step; [apply Ho|exact E]|exact H|].
      eapply path_of_step; [eapply step_cases; [apply Ho|exact E]|exact Hp]. }
    assert (Hfix0 : forall i a p, In (Read i (Ok a)) ls0 -> path_of w0 i p -> a = content p).
    { intros i a p Hin Hp. apply (Hfix i); [apply in_or_app; auto|auto]. }
    destruct (once_step Ho E Hl Hfix0) as [Ho1 Hone].
    assert (Eapp : ls0 ++ l :: ls = (ls0 ++ [l]) ++ ls) by (rewrite <- app_assoc; reflexivity).
    rewrite Eapp in *. destruct (IH (ls0 ++ [l]) w1 Ho1 H Hls Hfix) as [Ho2 Hrest].
    split; [exact Ho2|]. intros l1 i a l2 El j a' p Hin Hpi Hpj. destruct l1 as [|l0 l1]; cbn in El.
    + injection El as -> ->. rewrite app_nil_r in Hin.
      destruct (on_exists Ho Hin) as [q Hq]. pose proof (path_of_fun Hpj (Hpast _ _ Hq)) as Epq. subst q.
      destruct (read_has_call E eq_refl) as [q Hq']. assert (Hq2 : path_of w0 i q) by (apply path_of_call; eauto).
      pose proof (path_of_fun Hpi (Hpast _ _ Hq2)) as Epq. subst q.
      exact (Hone i a p eq_refl Hq2 j a' Hin Hq).
    + injection El as <- ->. eapply Hrest; [reflexivity| |exact Hpi|exact Hpj].
      rewrite <- app_assoc. exact Hin.
Qed.
End Once.
