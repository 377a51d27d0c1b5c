(** C61: what the training log averages over. *)
From Verif Require Import Base BaseFacts TrainLoop TrainLoopSpec TrainLoopFacts Prop_TrainLoop.
Set Implicit Arguments. Unset Strict Implicit.

(** a+1 .. b *)
Definition span (a b : Z) : list Z := map (fun k => a + 1 + Z.of_nat k) (seq 0 (Z.to_nat (b - a))).
(** An entry of the log made at iteration k by a process that started after [start] iterations: it averages the steps since the
    process started or since the last iteration that was logged or shown. *)
Definition faithful (cfg : config) (start : Z) (entry : Z * list Z) : Prop :=
  let '(k, steps) := entry in
  k mod log_interval cfg = 0
  /\ exists a, start <= a < k /\ steps = span a k
       /\ (a = start \/ a mod log_interval cfg = 0 \/ a mod show_interval cfg = 0)
       /\ forall i, a < i < k -> i mod log_interval cfg <> 0 /\ i mod show_interval cfg <> 0.

Lemma span_nil a b : b <= a -> span a b = [].
Proof. intros H. unfold span. replace (Z.to_nat (b - a)) with 0%nat by lia. reflexivity. Qed.
Lemma span_snoc a b : a <= b -> span a (b + 1) = span a b ++ [b + 1].
Proof. intros H. unfold span. replace (Z.to_nat (b + 1 - a)) with (S (Z.to_nat (b - a))) by lia. rewrite seq_S, map_app. cbn. f_equal. f_equal. lia. Qed.

Section Log.
Variables W batch : Type.
Variable batch_at : nat -> batch.
Variable clip : W -> W.
Variable step : Z -> W -> list batch -> W.
Variable observe : Z -> W -> W.
Variables early_finite last_finite : Z -> W -> list batch -> bool.
Notation runs := (runs batch_at clip step observe early_finite last_finite).
Notation "a >> b" := (then_ a b) (at level 61, right associativity).
Notation st := (st W). Notation op := (op W).

(** Operations that leave the books alone, with the number [i] of the iteration. *)
Definition book i m r (s : st) : Prop := iteration s = i /\ sums s = m /\ records s = r.
Definition keeps (a : op) : Prop := forall i m r, triple (book i m r) a (book i m r) (book i m r).
Lemma k_seq a b : keeps a -> keeps b -> keeps (a >> b).
Proof. intros A B i m r. eapply t_seq; [apply A|apply B]. Qed.
Lemma k_do f : (forall s, iteration (f s) = iteration s /\ sums (f s) = sums s /\ records (f s) = records s) -> keeps (do_ f).
Proof. intros H i m r. apply t_do. intros s (A & B & C). destruct (H s) as (H1 & H2 & H3). split; [congruence|]. split; congruence. Qed.
Lemma k_raise b : keeps (@raise_if W b).
Proof. intros i m r s H. unfold raise_if. destruct b; exact H. Qed.
Lemma k_when b a : keeps a -> keeps (when b a).
Proof. intros A i m r s H. unfold when. destruct (b s); [apply A; exact H|exact H]. Qed.
Lemma k_fun (a : op) : (forall s, iteration (fst (a s)) = iteration s /\ sums (fst (a s)) = sums s /\ records (fst (a s)) = records s) -> keeps a.
Proof. intros H i m r s (A & B & C). specialize (H s). destruct (a s) as (s', []); cbn [fst] in H; destruct H as (H1 & H2 & H3); (split; [congruence|]; split; congruence). Qed.
Lemma k_judge n : forall s : st, iteration (fst (judge n s)) = iteration s /\ sums (fst (judge n s)) = sums s /\ records (fst (judge n s)) = records s.
Proof.
  induction n as [|n IH]; intros s; cbn [judge]; [auto|]. destruct (in_flight s) as [|(k, j) q]; [auto|]. destruct (nth k _ _); [|auto]. destruct (IH (set_queue (slots s) (counter s) q s)) as (-> & -> & ->). auto.
Qed.
Lemma k_drain b : keeps (@drain W b).
Proof. apply k_fun. intros s. apply k_judge. Qed.
Lemma k_save cfg f a : keeps (@save_checkpoint W cfg f a).
Proof. apply k_fun. intros s. unfold save_checkpoint. destruct (writer_failed s); [auto|]. destruct (_ && _ && _); [destruct (equal a); auto|]. destruct (outcome a); auto. Qed.
Lemma k_flush : keeps (@flush W).
Proof. apply k_fun. intros s. unfold flush. destruct (writer_failed s); auto. Qed.
Lemma k_fetch b : keeps (@fetch W b).
Proof. apply k_seq; [apply k_raise|apply k_do; auto]. Qed.
Lemma k_more wx : forall todo n, keeps (@more_fetches W wx n todo).
Proof. induction todo as [|todo IH]; intros n; cbn [more_fetches]; [apply k_do; auto|apply k_seq; [apply k_fetch|apply IH]]. Qed.
Lemma k_step cfg wx : keeps (train_step batch_at clip step early_finite last_finite cfg wx).
Proof.
  unfold train_step. apply k_seq; [apply k_do; auto|]. apply k_seq; [apply k_more|]. apply k_seq; [apply k_raise|].
  apply k_seq; [apply k_fun; intros s; destruct (early_finite _ _ _); auto|].
  apply k_seq; [apply k_fun; intros s; destruct (deferred cfg); [cbn; auto|destruct (last_finite _ _ _); auto]|].
  apply k_seq; [apply k_fun; intros s; destruct (commit_fails wx); auto|]. apply k_seq; [apply k_do; auto|].
  apply k_seq; [apply k_fun; intros s; destruct (change_fails wx); auto|]. apply k_seq; [apply k_do; auto|apply k_raise].
Qed.

Variable x : session W.
Notation cfg := (the_cfg x).
Variable start : Z.
(** The books after iteration i. *)
Definition due i : bool := every (log_interval cfg) i || every (show_interval cfg) i.
Definition whole (l : list (Z * list Z)) (m : list Z) (i : Z) : Prop :=
  (forall k, k mod show_interval cfg = 0 -> k mod log_interval cfg = 0) -> List.concat (map snd l) ++ m = span start i.
Definition kept_books (i : Z) (m : list Z) (r : list (Z * list Z)) : Prop :=
  start <= i
  /\ (exists a, start <= a <= i /\ m = span a i /\ (a = start \/ due a = true) /\ forall j, a < j <= i -> due j = false)
  /\ Forall (faithful cfg start) r /\ map fst r = filter (every (log_interval cfg)) (span start i) /\ whole r m i.
Definition entries_ok (s : st) : Prop := Forall (faithful cfg start) (records s).
Definition after_turn (i : Z) (s : st) : Prop := exists m r, book i m r s /\ kept_books i m r.
Lemma every_iff n i : every n i = true <-> i mod n = 0.
Proof. apply Z.eqb_eq. Qed.
Lemma every_not n i : every n i = false <-> i mod n <> 0.
Proof. apply Z.eqb_neq. Qed.
Lemma book_entries i m r s : Forall (faithful cfg start) r -> book i m r s -> entries_ok s.
Proof. intros F (_ & _ & E). unfold entries_ok. rewrite E. exact F. Qed.
Lemma keep_t i m r a : Forall (faithful cfg start) r -> keeps a -> triple (book i m r) a (book i m r) entries_ok.
Proof. intros F K. eapply t_conseq; [apply K|intros s H; exact H|intros s H; exact H|]. intros s H. eapply book_entries; eauto. Qed.
Lemma t_log wx i m r : kept_books i m r -> triple (book (i + 1) m r) (metrics cfg wx) (after_turn (i + 1)) entries_ok.
Proof.
  intros (Hi & (a & Ha & -> & Hs & Hn) & F & Em & Wh). unfold metrics. set (mean := span a (i + 1)).
  eapply t_seq with (Q := book (i + 1) mean r).
  { apply t_do. intros s (A & B & C). split; [exact A|]. split; [|exact C]. cbn. rewrite A, B. symmetry. apply span_snoc. lia. }
  intros s (A & B & C). rewrite A, B. fold (due (i + 1)).
  set (s' := if due (i + 1) then set_metrics [] (records s) s else s).
  set (m' := if due (i + 1) then [] else mean). set (r' := if every (log_interval cfg) (i + 1) then r ++ [(i + 1, mean)] else r).
  assert (H' : book (i + 1) m' r s') by (unfold s', m'; destruct (due (i + 1)); split; auto). clearbody s'. clear A B C s.
  assert (F' : Forall (faithful cfg start) r').
  { unfold r'. destruct (every (log_interval cfg) (i + 1)) eqn:E; [|exact F]. apply Forall_app. split; [exact F|]. constructor; [|constructor]. split; [apply every_iff; exact E|]. exists a. split; [lia|]. split; [reflexivity|].
    split; [destruct Hs as [Hs|Hs]; [left; exact Hs|right; unfold due in Hs; apply orb_true_iff in Hs; rewrite !every_iff in Hs; exact Hs]|].
    intros j Hj. specialize (Hn j ltac:(lia)). unfold due in Hn. apply orb_false_iff in Hn. rewrite !every_not in Hn. exact Hn. }
  assert (K' : kept_books (i + 1) m' r').
  { split; [lia|]. split; [|split; [exact F'|split]].
    - unfold m'. destruct (due (i + 1)) eqn:E.
      + exists (i + 1). split; [lia|]. split; [symmetry; apply span_nil; lia|]. split; [right; exact E|]. intros j Hj. lia.
      + exists a. split; [lia|]. split; [reflexivity|]. split; [exact Hs|]. intros j Hj. destruct (Z.eq_dec j (i + 1)) as [-> |N]; [exact E|apply Hn; lia].
    - rewrite span_snoc by lia. rewrite filter_app, <- Em. unfold r'. cbn [filter]. destruct (every (log_interval cfg) (i + 1)); [rewrite map_app; reflexivity|symmetry; apply app_nil_r].
    - intros M. specialize (Wh M). rewrite span_snoc by lia. rewrite <- Wh. unfold r', m', mean. destruct (every (log_interval cfg) (i + 1)) eqn:E.
      + replace (due (i + 1)) with true by (unfold due; rewrite E; reflexivity). rewrite map_app, concat_app. cbn [map List.concat snd]. rewrite !app_nil_r. rewrite span_snoc by lia. apply app_assoc.
      + replace (due (i + 1)) with false; [rewrite span_snoc by lia; apply app_assoc|]. unfold due. rewrite E. cbn. symmetry. apply every_not. intros X. apply every_not in E. apply E. apply M. exact X. }
  revert s' H'. change (triple (book (i + 1) m' r) (when (fun s => every (log_interval cfg) (iteration s)) (raise_if (log_fails wx) >> do_ (fun s => set_metrics (sums s) (records s ++ [(iteration s, mean)]) s))
         >> when (fun s => every (show_interval cfg) (iteration s)) (raise_if (show_fails wx))) (after_turn (i + 1)) entries_ok).
  eapply t_seq with (Q := book (i + 1) m' r').
  { intros s H. assert (Ei : iteration s = i + 1) by apply H. unfold when. rewrite Ei. unfold r'. destruct (every (log_interval cfg) (i + 1)); [|exact H].
    revert s H Ei. change (forall s, book (i + 1) m' r s -> iteration s = i + 1 -> match (raise_if (log_fails wx) >> do_ (fun s0 => set_metrics (sums s0) (records s0 ++ [(iteration s0, mean)]) s0)) s with (s', true) => book (i + 1) m' (r ++ [(i + 1, mean)]) s' | (s', false) => entries_ok s' end).
    intros s H Ei. unfold then_, raise_if. destruct (log_fails wx); cbn; [exact (book_entries F H)|]. destruct H as (A & B & C). split; [exact A|]. split; [exact B|]. cbn. congruence. }
  eapply t_conseq; [apply keep_t; [exact F'|apply k_when; apply k_raise]|intros s H; exact H| |intros s H; exact H]. intros s H. exists m', r'. auto.
Qed.
Notation turn := (turn batch_at clip step observe early_finite last_finite cfg).
Lemma t_turn wx i m r : kept_books i m r -> triple (book i m r) (turn wx) (after_turn (i + 1)) entries_ok.
Proof.
  intros K. assert (F : Forall (faithful cfg start) r) by apply K. unfold TrainLoop.turn.
  eapply t_seq; [apply keep_t; [exact F|apply k_raise]|]. eapply t_seq; [apply keep_t; [exact F|apply k_do; auto]|]. eapply t_seq; [apply keep_t; [exact F|apply k_fetch]|].
  eapply t_seq with (Q := book (i + 1) m r). { apply t_do. intros s (A & B & C). split; [cbn; congruence|]. split; assumption. }
  eapply t_seq; [apply keep_t; [exact F|apply k_raise]|]. eapply t_seq; [apply keep_t; [exact F|apply k_do; auto]|].
  eapply t_seq with (Q := book (i + 1) m r).
  { intros s H. pose proof (@k_step cfg wx (i + 1) m r s H) as T. destruct (train_step _ _ _ _ _ cfg wx s) as (s', []); [exact T|]. destruct T as (_ & _ & C).
    match goal with |- context [if mutated ?a then _ else _] => destruct (mutated a) end; unfold entries_ok; cbn; rewrite C; exact F. }
  eapply t_seq; [apply t_log; exact K|]. intros s (m' & r' & H & K'). assert (F' : Forall (faithful cfg start) r') by apply K'.
  revert s H. match goal with |- forall s, book ?i' ?m ?r s -> match ?a s with (_, _) => _ end => change (triple (book i' m r) a (after_turn i') entries_ok) end.
  eapply t_conseq with (Q := book (i + 1) m' r') (E := entries_ok); [|intros s H; exact H|intros s H; exists m', r'; auto|auto]. apply keep_t; [exact F'|].
  apply k_seq; [apply k_fun; intros s; apply k_judge|]. apply k_seq; [apply k_when; apply k_raise|]. apply k_seq; [apply k_do; auto|]. apply k_seq; [apply k_raise|]. apply k_seq; [apply k_do; auto|].
  apply k_seq; [apply k_raise|]. apply k_when. apply k_save.
Qed.
Lemma t_turns : forall fuel i, triple (after_turn i) (turns batch_at clip step observe early_finite last_finite cfg (the_sky x) fuel) (fun s => exists i', after_turn i' s) entries_ok.
Proof.
  induction fuel as [|fuel IH]; intros i s H; cbn [turns]; [eauto|]. destruct (iteration s <? iterations cfg); [|eauto].
  destruct H as (m & r & H & K). assert (Ei : iteration s = i) by apply H. rewrite Ei. exact (t_seq (t_turn (the_sky x (i + 1)) K) (IH (i + 1)) H).
Qed.
Lemma run_books s : iteration s = start -> records s = [] ->
  entries_ok (fst (runs x s)) /\ (snd (runs x s) = true -> after_turn (iteration (fst (runs x s))) (fst (runs x s))).
Proof.
  intros Ei Er. unfold TrainLoopSpec.runs, run. set (e := the_ending x). set (s1 := set_queue (slots s) (counter s) [] (set_divergent false (set_safe false s))).
  match goal with |- context [let '(s, ok) := ?a s1 in _] => set (body := a) end.
  assert (F0 : Forall (faithful cfg start) (@nil (Z * list Z))) by constructor.
  assert (K0 : kept_books start [] []).
  { split; [lia|]. split; [|split; [exact F0|split]].
    - exists start. split; [lia|]. split; [symmetry; apply span_nil; lia|]. split; [left; reflexivity|]. intros j Hj. lia.
    - rewrite span_nil by lia. reflexivity.
    - intros _. rewrite span_nil by lia. reflexivity. }
  assert (T : triple (fun t => t = s1) body (fun t => exists i, after_turn i t) entries_ok).
  { unfold body. eapply t_seq with (Q := fun t => t = s1). { apply t_raise'; [|auto]. intros _ t ->. unfold entries_ok. cbn. rewrite Er. exact F0. }
    eapply t_seq with (Q := book start [] []). { apply t_do. intros t ->. split; [exact Ei|]. split; [reflexivity|exact Er]. }
    eapply t_seq; [apply keep_t; [exact F0|apply k_raise]|].
    eapply t_seq with (Q := fun t => exists i, after_turn i t). { intros t H. apply (t_turns _ (i := start)). exists [], []. auto. }
    intros t (i & m & r & H & K). assert (F : Forall (faithful cfg start) r) by apply K. revert t H.
    match goal with |- forall s, book ?i' ?m ?r s -> match ?a s with (_, _) => _ end => change (triple (book i' m r) a (fun t => exists i, after_turn i t) entries_ok) end.
    eapply t_conseq with (Q := book i m r) (E := entries_ok); [|intros t H; exact H|intros t H; exists i, m, r; auto|auto]. apply keep_t; [exact F|].
    apply k_seq; [apply k_raise|]. apply k_seq; [apply k_when; apply k_seq; [apply k_drain|apply k_save]|]. apply k_seq; [apply k_flush|apply k_raise]. }
  specialize (T s1 eq_refl). destruct (body s1) as (t, []).
  - cbn [fst snd]. destruct T as (i & m & r & H & K). assert (i = iteration t) as -> by (symmetry; apply H). split; [eapply book_entries; [apply K|exact H]|]. intros _. exists m, r. auto.
  - assert (X : entries_ok (fst (save_checkpoint cfg true (emergency e) t))).
    { pose proof (@k_save cfg true (emergency e) (iteration t) (sums t) (records t) t (conj eq_refl (conj eq_refl eq_refl))) as Y. destruct (save_checkpoint cfg true (emergency e) t) as (t', []); cbn [fst]; (eapply book_entries; [exact T|exact Y]). }
    destruct (_ && _ && _ && _); cbn [fst snd]; (split; [assumption|discriminate]).
Qed.
End Log.

Section Claims.
Variables W batch : Type.
Variable batch_at : nat -> batch.
Variable clip : W -> W.
Variable step : Z -> W -> list batch -> W.
Variable observe : Z -> W -> W.
Variables early_finite last_finite : Z -> W -> list batch -> bool.
Notation runs := (runs batch_at clip step observe early_finite last_finite).
(** Whatever happens, each entry averages whole consecutive steps up to its own iteration, none of them twice. *)
Theorem C61_log_entries_average_the_steps_just_before : forall (x : session W) s, records s = [] ->
  Forall (faithful (the_cfg x) (iteration s)) (records (fst (runs x s))).
Proof. intros x s E. exact (proj1 (@run_books _ _ batch_at clip step observe early_finite last_finite x (iteration s) s eq_refl E)). Qed.
(** A run that returns has one entry for each iteration that was to be logged, in order. *)
Theorem C61_a_run_that_returns_has_every_entry_once : forall (x : session W) s, records s = [] -> snd (runs x s) = true ->
  map fst (records (fst (runs x s))) = filter (fun k => k mod log_interval (the_cfg x) =? 0) (span (iteration s) (iteration (fst (runs x s)))).
Proof.
  intros x s E R. destruct (proj2 (@run_books _ _ batch_at clip step observe early_finite last_finite x (iteration s) s eq_refl E) R) as (m & r & (_ & _ & ->) & _ & _ & _ & H & _). exact H.
Qed.
(** If what is shown is also logged, no step is left out: the entries together average every step up to the last one. *)
Theorem C61_no_step_is_left_out_if_what_is_shown_is_logged : forall (x : session W) s, records s = [] -> snd (runs x s) = true ->
  (forall k, k mod show_interval (the_cfg x) = 0 -> k mod log_interval (the_cfg x) = 0) ->
  exists rest, List.concat (map snd (records (fst (runs x s)))) ++ rest = span (iteration s) (iteration (fst (runs x s)))
    /\ forall i, List.In i rest -> i mod log_interval (the_cfg x) <> 0.
Proof.
  intros x s E R M. destruct (proj2 (@run_books _ _ batch_at clip step observe early_finite last_finite x (iteration s) s eq_refl E) R) as (m & r & (_ & _ & ->) & _ & (a & Ha & -> & _ & Hn) & _ & _ & H).
  exists (span a (iteration (fst (runs x s)))). split; [apply H; exact M|]. intros i Hi. unfold span in Hi. apply in_map_iff in Hi. destruct Hi as (k & <- & Hk). apply in_seq in Hk.
  assert (D := Hn (a + 1 + Z.of_nat k) ltac:(lia)). unfold due in D. apply orb_false_iff in D. destruct D as (D & _). apply every_not. exact D.
Qed.
End Claims.
(** Otherwise steps are left out: every showing starts a new average (here step 3 is in no entry: log interval 2, show interval 3). *)
Theorem C61_refuted_entries_average_every_step :
  ~ (forall (x : session nat) s, records s = [] -> snd (runs (fun k => k) (fun v => v) add_up (fun _ v => v) (fun _ _ _ => true) (fun _ _ _ => true) x s) = true ->
       forall i, iteration s < i <= 4 -> exists e, List.In e (records (fst (runs (fun k => k) (fun v => v) add_up (fun _ v => v) (fun _ _ _ => true) (fun _ _ _ => true) x s))) /\ List.In i (snd e)).
Proof.
  intros H. destruct (H (job (fun _ => clear_sky)) (fresh 0%nat) eq_refl) with (i := 3) as (e & I & J); [vm_compute; reflexivity|cbn; lia|].
  replace (records (fst (TrainLoopSpec.runs (fun k : nat => k) (fun v => v) add_up (fun _ v => v) (fun _ _ _ => true) (fun _ _ _ => true) (job (fun _ => clear_sky)) (fresh 0%nat)))) with [(2, [1; 2]); (4, [4])] in I by (vm_compute; reflexivity).
  destruct I as [<-|[<-|[]]]; cbn in J; repeat (destruct J as [J|J]; try discriminate); exact J.
Qed.
Example logged : records (fst (go 10 (fun _ => clear_sky) nice_end (fresh 0%nat))) = [(2, [1; 2]); (4, [4])].
Proof. vm_compute. reflexivity. Qed.
