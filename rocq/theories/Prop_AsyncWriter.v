(** C29: the asynchronous checkpoint writer (utils/async_checkpoint.py).  All theorems are
    about the log of an arbitrary reachable state of AsyncWriter.v: any interleaving of the
    training code, the writer thread and the two device streams, with any finaliser or post
    hook failing at any time. *)
From Coq Require Import String.
From Verif Require Import Base BaseFacts AsyncWriter AsyncWriterSpec AsyncWriterFacts AsyncWriterInv AsyncWriterStep.
Set Implicit Arguments.
Unset Strict Implicit.

Section C29.
Variables V K O : Type.
Notation tree := (tree K O).
Notation state := (state V K O).
Notation event := (event V K O).
Notation store := (store V).
Variables s0 s1 : store.
Notation reachable := (@reachable V K O s0 s1).
Notation values := (@values V K O s0).
Implicit Types (l a b c : list event).

(** ** Specification *)
(** Submission j, of payloads ps and with or without a post hook, was carried out. *)
Definition written l (j : nat) (ps : list (tree loc)) (hook : bool) : Prop :=
  (forall i, (i < List.length ps)%nat -> exists x, In (ECommit j i x) l) /\ (hook = true -> In (EHook V K O j) l).
(** A failure of submission j was raised to the caller. *)
Definition reported l (j : nat) : Prop := exists a b c, l = a ++ EFail V K O j :: b ++ ERaise V K O :: c.

(** ** From the form of the log *)
Notation told := (@told V K O s0).
Lemma told_split a x b ph : told (a ++ x :: b) ph -> exists pa px, told a pa /\ next (values a) pa x px.
Proof.
  revert ph. induction b as [|y b IH] using rev_ind; intros ph H.
  - inversion H as [X|l p e p' H1 H2 X]; [destruct a; discriminate|]. apply app_inj_tail in X. destruct X; subst. eauto.
  - inversion H as [X|l p e p' H1 H2 X]; [destruct a; discriminate|].
    change (l ++ [e] = a ++ (x :: b) ++ [y]) in X. rewrite app_assoc in X. apply app_inj_tail in X. destruct X; subst. eapply IH. exact H1.
Qed.
Definition quiet_event (e : event) : Prop := match e with EKernel _ _ _ _ | EHost _ _ _ _ => True | _ => False end.
Definition settled l (n : nat) := forall j ps hook, In (ESubmit V j ps hook) l -> (j < n)%nat /\ (written l j ps hook \/ reported l j).
Definition commits_below l (j i : nat) := forall j0 i0 x, In (ECommit j0 i0 x) l -> (j0 < j \/ (j0 = j /\ i0 < i))%nat.
Definition facts l (ph : phase V K O) : Prop :=
  match ph with
  | PQuiet _ _ _ n => settled l n /\ commits_below l n 0
  | PWrite j cs hook i => commits_below l j i /\ exists a b ps, l = a ++ ESubmit V j ps hook :: b /\ cs = map (content (values a)) ps
      /\ settled a j /\ (forall i0, (i0 < i)%nat -> exists x, In (ECommit j i0 x) b)
      /\ forall j1 ps1 h1, ~ In (ESubmit V j1 ps1 h1) b
  | PHooked _ _ _ j => commits_below l (S j) 0 /\ exists a b ps, l = a ++ ESubmit V j ps true :: b /\ settled a j /\ written b j ps true
      /\ forall j1 ps1 h1, ~ In (ESubmit V j1 ps1 h1) b
  | PFailed _ _ _ j => commits_below l (S j) 0 /\ exists a b c ps hook, l = a ++ ESubmit V j ps hook :: b ++ EFail V K O j :: c /\ settled a j
      /\ Forall quiet_event c /\ forall j1 ps1 h1, ~ In (ESubmit V j1 ps1 h1) b
  end.
Lemma written_mono l l' j ps hook : (forall e, In e l -> In e l') -> written l j ps hook -> written l' j ps hook.
Proof. intros H [H1 H2]. split; [intros i Hi; destruct (H1 i Hi) as [x Hx]; eauto|auto]. Qed.
Lemma reported_mono a l b j : reported l j -> reported (a ++ l ++ b) j.
Proof. intros (x & y & z & ->). exists (a ++ x), y, (z ++ b). rewrite <- !app_assoc. cbn. rewrite <- !app_assoc. reflexivity. Qed.
Lemma settled_app a b n : settled a n -> (forall j1 ps1 h1, ~ In (ESubmit V j1 ps1 h1) b) -> settled (a ++ b) n.
Proof.
  intros H Hb j ps hook Hin. apply in_app_or in Hin. destruct Hin as [Hin|Hin]; [|elim (Hb _ _ _ Hin)].
  destruct (H _ _ _ Hin) as [H1 [H2|H2]]; (split; [exact H1|]).
  - left. eapply written_mono; [|exact H2]. intros e He. apply in_or_app. auto.
  - right. apply (@reported_mono [] a b). exact H2.
Qed.
Lemma below_snoc l j i e : commits_below l j i -> (forall j0 i0 x, e <> ECommit j0 i0 x) -> commits_below (l ++ [e]) j i.
Proof. intros H He j0 i0 x Hin. apply in_app_or in Hin. destruct Hin as [Hin|[Hin|[]]]; [eauto|elim (He _ _ _ Hin)]. Qed.
Lemma below_le l j i j' i' : commits_below l j i -> (j < j' \/ (j = j' /\ i <= i'))%nat -> commits_below l j' i'.
Proof. intros H Hl j0 i0 x Hin. specialize (H _ _ _ Hin). lia. Qed.

Lemma facts_quiet_snoc l ph e : quiet_event e -> facts l ph -> facts (l ++ [e]) ph.
Proof.
  intros He H. assert (Hs : forall j1 ps1 h1, ~ In (ESubmit V j1 ps1 h1) [e]) by (intros j1 ps1 h1 [X|[]]; subst; exact He).
  assert (Hc : forall j0 i0 x, e <> ECommit j0 i0 x) by (intros j0 i0 x ->; exact He).
  destruct ph as [n|j cs hook i|j|j]; cbn in *.
  - destruct H as [H1 H2]. split; [apply settled_app; assumption|apply below_snoc; assumption].
  - destruct H as [H2 (a & b & ps & -> & H3 & H4 & H5 & H6)]. split; [apply below_snoc; assumption|].
    exists a, (b ++ [e]), ps. rewrite <- app_assoc. split; [reflexivity|]. split; [exact H3|]. split; [exact H4|]. split.
    + intros i0 Hi. destruct (H5 i0 Hi) as [x Hx]. exists x. apply in_or_app. auto.
    + intros j1 ps1 h1 X. apply in_app_or in X. destruct X as [X|X]; [eapply H6; eassumption|eapply Hs; eassumption].
  - destruct H as [H2 (a & b & ps & -> & H3 & H4 & H5)]. split; [apply below_snoc; assumption|].
    exists a, (b ++ [e]), ps. rewrite <- app_assoc. split; [reflexivity|]. split; [exact H3|]. split.
    + eapply written_mono; [|exact H4]. intros x Hx. apply in_or_app. auto.
    + intros j1 ps1 h1 X. apply in_app_or in X. destruct X as [X|X]; [eapply H5; eassumption|eapply Hs; eassumption].
  - destruct H as [H2 (a & b & c & ps & hook & -> & H3 & H4 & H5)]. split; [apply below_snoc; assumption|].
    exists a, b, (c ++ [e]), ps, hook. rewrite <- !app_assoc. cbn. rewrite <- !app_assoc. cbn. split; [reflexivity|]. split; [exact H3|].
    split; [apply Forall_app; auto|exact H5].
Qed.
Lemma settled_next a b j ps hook : settled a j -> (forall j1 ps1 h1, ~ In (ESubmit V j1 ps1 h1) b) ->
  written b j ps hook \/ reported b j -> settled (a ++ ESubmit V j ps hook :: b) (S j).
Proof.
  intros H Hb Hn j1 ps1 h1 Hin. apply in_app_or in Hin. destruct Hin as [Hin|[Hin|Hin]]; [| |elim (Hb _ _ _ Hin)].
  - destruct (H _ _ _ Hin) as [H1 [H2|H2]]; (split; [lia|]).
    + left. eapply written_mono; [|exact H2]. intros e He. apply in_or_app. auto.
    + right. apply (@reported_mono [] a (ESubmit V j ps hook :: b)). exact H2.
  - inversion Hin; subst. split; [lia|]. destruct Hn as [Hn|Hn].
    + left. eapply written_mono; [|exact Hn]. intros e He. apply in_or_app. right. right. exact He.
    + right. replace (a ++ ESubmit V j1 ps1 h1 :: b) with ((a ++ [ESubmit V j1 ps1 h1]) ++ b ++ []) by (rewrite app_nil_r, <- app_assoc; reflexivity).
      apply reported_mono. exact Hn.
Qed.
Lemma told_facts l ph : told l ph -> facts l ph.
Proof.
  induction 1 as [|l ph e ph' H IH Hn]; [split; [intros j ps hook []|intros j0 i0 x []]|].
  destruct Hn as [ph n f|ph n v|n ps h|j cs h i x Hx|j cs h i Hi|j cs i Hi|j|j cs i Hi|j|n].
  - apply facts_quiet_snoc; [exact I|exact IH].
  - apply facts_quiet_snoc; [exact I|exact IH].
  - destruct IH as [H1 H2]. split; [apply below_snoc; [exact H2|discriminate]|]. exists l, [], ps. split; [reflexivity|]. split; [reflexivity|].
    split; [exact H1|]. split; [lia|]. intros j1 ps1 h1 [].
  - destruct IH as [H2 (a & b & ps & -> & H3 & H4 & H5 & H6)]. split.
    + intros j0 i0 y Hin. apply in_app_or in Hin. destruct Hin as [Hin|[Hin|[]]]; [specialize (H2 _ _ _ Hin); lia|inversion Hin; subst; lia].
    + exists a, (b ++ [ECommit j i x]), ps. rewrite <- app_assoc. split; [reflexivity|]. split; [exact H3|]. split; [exact H4|]. split.
      * intros i0 Hi0. destruct (Nat.eq_dec i0 i) as [->|Hne]; [exists x; apply in_or_app; right; left; reflexivity|].
        destruct (H5 i0) as [y Hy]; [lia|]. exists y. apply in_or_app. auto.
      * intros j1 ps1 h1 X. apply in_app_or in X. destruct X as [X|[X|[]]]; [eapply H6; eassumption|discriminate].
  - destruct IH as [H2 (a & b & ps & -> & H3 & H4 & H5 & H6)]. split; [apply below_snoc; [eapply below_le; [exact H2|lia]|discriminate]|].
    exists a, b, [], ps, h. rewrite <- app_assoc. split; [reflexivity|]. split; [exact H4|]. split; [constructor|exact H6].
  - destruct IH as [H2 (a & b & ps & -> & H3 & H4 & H5 & H6)]. split; [apply below_snoc; [eapply below_le; [exact H2|lia]|discriminate]|].
    exists a, (b ++ [EHook V K O j]), ps. rewrite <- app_assoc. split; [reflexivity|]. split; [exact H4|]. split.
    + split; [|intros _; apply in_or_app; right; left; reflexivity]. intros i0 Hi0. destruct (H5 i0) as [y Hy]; [subst; rewrite map_length; exact Hi0|]. exists y. apply in_or_app. auto.
    + intros j1 ps1 h1 X. apply in_app_or in X. destruct X as [X|[X|[]]]; [eapply H6; eassumption|discriminate].
  - destruct IH as [H2 (a & b & ps & -> & H3 & H4 & H5)]. split; [|apply below_snoc; [exact H2|discriminate]].
    rewrite <- app_assoc. apply settled_next; [exact H3| |].
    + intros j1 ps1 h1 X. apply in_app_or in X. destruct X as [X|[X|[]]]; [eapply H5; eassumption|discriminate].
    + left. eapply written_mono; [|exact H4]. intros x Hx. apply in_or_app. auto.
  - destruct IH as [H2 (a & b & ps & -> & H3 & H4 & H5 & H6)]. split; [|apply below_snoc; [eapply below_le; [exact H2|lia]|discriminate]].
    rewrite <- app_assoc. apply settled_next; [exact H4| |].
    + intros j1 ps1 h1 X. apply in_app_or in X. destruct X as [X|[X|[]]]; [eapply H6; eassumption|discriminate].
    + left. split; [|discriminate]. intros i0 Hi0. destruct (H5 i0) as [y Hy]; [subst; rewrite map_length; exact Hi0|]. exists y. apply in_or_app. auto.
  - destruct IH as [H2 (a & b & c & ps & hook & -> & H3 & H4 & H5)]. split; [|apply below_snoc; [exact H2|discriminate]].
    rewrite <- app_assoc. change (settled (a ++ ESubmit V j ps hook :: ((b ++ EFail V K O j :: c) ++ [ERaise V K O])) (S j)). apply (@settled_next a ((b ++ EFail V K O j :: c) ++ [ERaise V K O]) j ps hook); [exact H3| |].
    + intros j1 ps1 h1 X. rewrite <- ?app_assoc in X. cbn [app] in X. apply in_app_or in X. destruct X as [X|[X|X]]; [eapply H5; eassumption|discriminate|].
      apply in_app_or in X. destruct X as [X|[X|[]]]; [|discriminate]. rewrite Forall_forall in H4. apply H4 in X. exact X.
    + right. exists b, c, []. rewrite <- app_assoc. reflexivity.
  - destruct IH as [H1 H2]. split; [apply settled_app; [exact H1|intros j1 ps1 h1 [X|[]]; discriminate]|apply below_snoc; [exact H2|discriminate]].
Qed.
Lemma log_told st : reachable st -> exists ph, told (log st) ph.
Proof.
  intros H. apply reachable_inv in H. pose proof (v_state H) as S. destruct (thread st) as [[e j i rest hook|]|].
  - destruct S as (_ & _ & _ & snap & m & ps & F). eexists. apply (f_told F).
  - destruct (main st).
    + destruct (error st); [destruct S as (j & S & _)|]; eauto.
    + destruct (error st); [destruct S as (j & S & _)|]; eauto.
    + destruct S as (_ & _ & S). eauto.
    + destruct S as (_ & _ & cs & S & _). eauto.
  - destruct (main st).
    + destruct (error st); [destruct S as (j & S & _)|]; eauto.
    + destruct (error st); [destruct S as (j & S & _)|]; eauto.
    + destruct S as (_ & _ & S). eauto.
    + destruct S as (_ & _ & cs & S & _). eauto.
Qed.
Lemma at_event st a x b : reachable st -> log st = a ++ x :: b -> exists pa px, told a pa /\ facts a pa /\ next (values a) pa x px.
Proof.
  intros H E. destruct (log_told H) as [ph Hp]. rewrite E in Hp. destruct (told_split Hp) as (pa & px & H1 & H2). exists pa, px.
  split; [exact H1|]. split; [apply told_facts; exact H1|exact H2].
Qed.

(** ** Theorems *)
(** C29: a file holds the values the tensors had, in program order, when submit was called
    for it, whatever the training code changed afterwards and however the device ordered
    its work. *)
Theorem C29_files_hold_the_values_at_submit : forall st j i x, reachable st -> In (ECommit j i x) (log st) ->
  exists a ps hook b p, log st = a ++ ESubmit V j ps hook :: b /\ In (ECommit j i x) b
    /\ nth_error ps i = Some p /\ x = content (values a) p.
Proof.
  intros st j i x H Hin. apply in_split in Hin. destruct Hin as (l1 & l2 & E). destruct (at_event H E) as (pa & px & _ & F & N).
  inversion N as [| | |j' cs h i' c Hc X1 X2 X3| | | | | |]; subst. destruct F as [_ (a & b & ps & -> & -> & _)].
  rewrite nth_error_map in Hc. destruct (nth_error ps i) as [p|] eqn:Ep; [|discriminate]. inversion Hc; subst.
  exists a, ps, h, (b ++ ECommit j i (content (values a) p) :: l2), p. rewrite E, <- app_assoc. split; [reflexivity|].
  split; [apply in_or_app; right; left; reflexivity|]. auto.
Qed.

(** C29: files are committed in the order of submission and, within a submission, in the
    order of its payloads, none twice and none skipped. *)
Theorem C29_files_are_written_in_order : forall st, reachable st ->
  (forall a b c j i x j' i' x', log st = a ++ ECommit j i x :: b ++ ECommit j' i' x' :: c -> (j < j' \/ (j = j' /\ i < i'))%nat)
  /\ (forall a b j i x, log st = a ++ ECommit j i x :: b -> forall i', (i' < i)%nat -> exists y, In (ECommit j i' y) a).
Proof.
  intros st H. split.
  - intros a b c j i x j' i' x' E. change (a ++ ECommit j i x :: b ++ ECommit j' i' x' :: c) with (a ++ (ECommit j i x :: b) ++ ECommit j' i' x' :: c) in E.
    rewrite app_assoc in E. destruct (at_event H E) as (pa & px & _ & F & N).
    inversion N as [| | |j1 cs h i1 c1 Hc X1 X2 X3| | | | | |]; subst. destruct F as [F _]. apply (F j i x). apply in_or_app. right. left. reflexivity.
  - intros a b j i x E i' Hi'. destruct (at_event H E) as (pa & px & _ & F & N).
    inversion N as [| | |j1 cs h i1 c1 Hc X1 X2 X3| | | | | |]; subst. destruct F as [_ (a1 & b1 & ps & -> & _ & _ & F & _)].
    destruct (F i' Hi') as [y Hy]. exists y. apply in_or_app. right. right. exact Hy.
Qed.

(** C29: the post hook (pruning) runs only when every file of its submission has been
    committed. *)
Theorem C29_the_hook_runs_after_all_files : forall st a b j, reachable st -> log st = a ++ EHook V K O j :: b ->
  exists ps, In (ESubmit V j ps true) a /\ forall i, (i < List.length ps)%nat -> exists x, In (ECommit j i x) a.
Proof.
  intros st a b j H E. destruct (at_event H E) as (pa & px & _ & F & N).
  inversion N as [| | | | |j1 cs i1 Hi X1 X2 X3| | | |]; subst. destruct F as [_ (a1 & b1 & ps & -> & -> & _ & F & _)].
  exists ps. split; [apply in_or_app; right; left; reflexivity|]. intros i Hi. destruct (F i) as [x Hx]; [rewrite map_length; exact Hi|].
  exists x. apply in_or_app. right. right. exact Hx.
Qed.

(** C29: once a finaliser or hook has failed, nothing is written, no submission accepted and
    no flush returns until the failure has been raised to the caller. *)
Theorem C29_failures_are_raised_before_anything_else : forall st a b c j x, reachable st ->
  log st = a ++ EFail V K O j :: b ++ x :: c -> ~ In (ERaise V K O) b ->
  match x with EKernel _ _ _ _ | EHost _ _ _ _ | ERaise _ _ _ => True | _ => False end.
Proof.
  intros st a b c j x H E Hb. destruct (log_told H) as [ph Hp]. rewrite E in Hp.
  assert (G : forall b, ~ In (ERaise V K O) b -> forall ph, told (a ++ EFail V K O j :: b) ph -> ph = PFailed V K O j).
  { clear. intros b. induction b as [|y b IH] using rev_ind; intros Hb ph H.
    - inversion H as [X|l p e p' H1 H2 X]; [destruct a; discriminate|]. apply app_inj_tail in X. destruct X; subst. inversion H2; reflexivity.
    - inversion H as [X|l p e p' H1 H2 X]; [destruct a; discriminate|]. change (l ++ [e] = a ++ (EFail V K O j :: b) ++ [y]) in X.
      rewrite app_assoc in X. apply app_inj_tail in X. destruct X; subst.
      assert (p = PFailed V K O j) by (apply IH; [intros X; apply Hb; apply in_or_app; auto|exact H1]). subst p.
      inversion H2; subst; try reflexivity. elim Hb. apply in_or_app. right. left. reflexivity. }
  change (a ++ EFail V K O j :: b ++ x :: c) with (a ++ (EFail V K O j :: b) ++ x :: c) in Hp. rewrite app_assoc in Hp.
  destruct (told_split Hp) as (pa & px & H1 & H2). rewrite (G b Hb pa H1) in H2. inversion H2; exact I.
Qed.

(** C29: when flush returns, every submission accepted so far has been carried out
    completely, or its failure has been raised. *)
Theorem C29_after_flush_everything_is_written : forall st a b j ps hook, reachable st -> log st = a ++ EFlushed V K O :: b ->
  In (ESubmit V j ps hook) a -> written a j ps hook \/ reported a j.
Proof.
  intros st a b j ps hook H E Hin. destruct (at_event H E) as (pa & px & _ & F & N). inversion N; subst. destruct F as [F _]. apply (F _ _ _ Hin).
Qed.

(** C29: at most one submission is in flight: a submission is accepted only when every
    earlier one has been carried out or its failure raised. *)
Theorem C29_one_submission_at_a_time : forall st a b j ps hook j0 ps0 hook0, reachable st -> log st = a ++ ESubmit V j ps hook :: b ->
  In (ESubmit V j0 ps0 hook0) a -> (j0 < j)%nat /\ (written a j0 ps0 hook0 \/ reported a j0).
Proof.
  intros st a b j ps hook j0 ps0 hook0 H E Hin. destruct (at_event H E) as (pa & px & _ & F & N). inversion N; subst. destruct F as [F _]. apply (F _ _ _ Hin).
Qed.

(** C29: submit and flush raise only because of a failure that has not been raised yet. *)
Theorem C29_every_exception_has_its_own_failure : forall st a b, reachable st -> log st = a ++ ERaise V K O :: b ->
  exists a1 j a2, a = a1 ++ EFail V K O j :: a2 /\ ~ In (ERaise V K O) a2.
Proof.
  intros st a b H E. destruct (at_event H E) as (pa & px & _ & F & N). inversion N; subst.
  destruct F as [_ (a1 & b1 & c1 & ps & hook & -> & _ & F & _)]. exists (a1 ++ ESubmit V j ps hook :: b1), j, c1. rewrite <- app_assoc. split; [reflexivity|].
  intros X. rewrite Forall_forall in F. apply F in X. exact X.
Qed.

(** C29: staging keeps the structure of the payloads and the sharing of tensors: the
    staged objects are the given ones with tensors renamed one to one. *)
Theorem C29_staging_preserves_sharing : forall (ps qs : list (tree loc)) n m n',
  stage_all ps ([], n) = (qs, (m, n')) ->
  exists f, qs = map (tree_map f) ps
    /\ forall p q x y, In p ps -> In q ps -> In x (leaves p) -> In y (leaves q) -> f x = f y -> x = y.
Proof.
  intros ps qs n m n' H. destruct (stage_all_ok H) as (Om & Lm & Eq). exists (rho m). split; [exact Eq|].
  intros p q x y Hp Hq Hx Hy E. pose proof (Lm p x Hp Hx) as Hx'. pose proof (Lm q y Hq Hy) as Hy'. unfold rho in E.
  destruct (memo_get m x) as [i|] eqn:Ex; [|contradiction]. destruct (memo_get m y) as [j|] eqn:Ey; [|contradiction].
  apply memo_get_In in Ex. apply memo_get_In in Ey. assert (i = j) by (destruct x, y; cbn in E; congruence). subst j.
  eapply snd_inj; [apply (mo_vals Om)|eassumption|eassumption].
Qed.

(** C29: no deadlock: whenever the main thread is inside submit or flush, some thread or
    the device can go on, without any help from the training code. *)
Theorem C29_no_deadlock : forall st, reachable st -> main st <> Idle K O -> exists st', step st st'.
Proof.
  intros st H Hm. apply reachable_inv in H.
  (* the compute stream can go on unless it is empty or waits for the job in flight *)
  assert (Hc : compute st = [] \/ (exists st', step st st') \/ exists e j i r h rest, compute st = Wait V e :: rest /\ thread st = Some (Running e j i r h)).
  { destruct (compute st) as [|o q] eqn:E; [auto|]. destruct o as [n f|x y|e|e].
    - right. left. eexists. eapply s_compute; [exact E|reflexivity].
    - right. left. eexists. eapply s_compute; [exact E|reflexivity].
    - right. left. eexists. eapply s_compute; [exact E|reflexivity].
    - destruct (v_waits H (w := e)) as [X|(j & i & r & h & X)]; [rewrite E; left; reflexivity| |].
      + right. left. eexists. eapply s_compute; [exact E|]. cbn. rewrite (proj2 (existsb_In e (fired st)) X). reflexivity.
      + right. right. exists e, j, i, r, h, q. auto. }
  pose proof (v_state H) as S.
  destruct (main st) as [|cl|j ps hook|j i rest hook] eqn:Em; [contradiction| | |].
  - destruct (thread st) as [[e j i rest hook|]|] eqn:Et.
    + destruct S as (_ & _ & _ & snap & m & ps & F).
      destruct (f_copying F) as [pre post e0 X1 X2 X3 X4 X5 X6 X7 X8 X9|post w don todo X1 X2 X3 X4 X5 X6 X7|X1 X2 X3].
      * destruct pre as [|o pre].
        -- eexists. eapply s_compute; [exact X1|reflexivity].
        -- destruct o as [n f|x y|e1|e1]; try (eexists; eapply s_compute; [exact X1|reflexivity]).
           eexists. eapply s_compute; [exact X1|]. cbn. rewrite (proj2 (existsb_In e1 (fired st))); [reflexivity|]. apply X9. left. reflexivity.
      * destruct X6 as [->|(e0 & -> & X6 & _)].
        -- destruct todo as [|o todo]; [eexists; eapply s_copy; [exact X4|reflexivity]|].
           destruct (@gpu_copies_copies V m o) as (x & y & ->); [rewrite X5; apply in_or_app; right; left; reflexivity|].
           eexists. eapply s_copy; [exact X4|reflexivity].
        -- eexists. eapply s_copy; [exact X4|]. cbn. rewrite (proj2 (existsb_In e0 (fired st)) X6). reflexivity.
      * destruct rest as [|p rest]; [eexists; eapply s_done; eassumption|eexists; eapply s_commit; eassumption].
    + destruct (error st) eqn:Ee; [eexists; eapply s_raise; eauto|]. destruct cl; [eexists; eapply s_flushed; eauto|eexists; eapply s_accept; eauto].
    + destruct (error st) eqn:Ee; [eexists; eapply s_raise; eauto|]. destruct cl; [eexists; eapply s_flushed; eauto|eexists; eapply s_accept; eauto].
  - destruct (copyq st) as [|o q] eqn:Eq; [eexists; eapply s_drained; eassumption|].
    assert (Hd : draining (main st) = true) by (rewrite Em; reflexivity).
    destruct (v_drain H Hd (o := o)) as [(x & y & ->)|(w & -> & [X|X])]; [rewrite Eq; left; reflexivity| | |].
    + eexists. eapply s_copy; [exact Eq|reflexivity].
    + eexists. eapply s_copy; [exact Eq|]. cbn. rewrite (proj2 (existsb_In w (fired st)) X). reflexivity.
    + destruct Hc as [Hc|[Hc|(e & j1 & i1 & r & h & q1 & _ & Hc)]]; [rewrite Hc in X; destruct X|exact Hc|].
      rewrite Hc in S. destruct S as [S _]. discriminate.
  - destruct rest as [|p rest]; [eexists; eapply s_sync_done; eassumption|].
    destruct Hc as [Hc|[Hc|(e & j1 & i1 & r & h & q1 & _ & Hc)]]; [|exact Hc|].
    + eexists. eapply s_sync_commit; [exact Em|]. intros _. exact Hc.
    + rewrite Hc in S. destruct S as [S _]. discriminate.
Qed.
End C29.

(** ** Iterables that can be traversed only once *)
(** submit's documentation asks for "an iterable of (obj, finalize) pairs".  It may traverse
    it twice: once to stage (lines 116-119) and, if that runs out of memory while staging
    item k, again to write synchronously (129-130).  A list starts over; a generator
    goes on where the first traversal stopped. *)
Inductive iterable (A : Type) := AList (l : list A) | AGenerator (l : list A).
Definition items (A : Type) (it : iterable A) : list A := match it with AList l | AGenerator l => l end.
(** for x in it, stopped by an exception while item k is being handled. *)
Definition traverse_until (A : Type) (k : nat) (it : iterable A) : iterable A :=
  match it with AList l => AList l | AGenerator l => AGenerator (skipn (S k) l) end.
Definition written_after_oom (A : Type) (k : nat) (it : iterable A) : list A := items (traverse_until k it).

Theorem C29_payload_lists_survive_running_out_of_memory : forall (A : Type) (l : list A) k,
  written_after_oom k (AList l) = l.
Proof. reflexivity. Qed.
(** ... but not for every iterable: the payloads a generator had already yielded are never
    written, and submit returns as if they had been. *)
Theorem C29_every_iterable_is_written_refuted :
  ~ (forall (A : Type) (it : iterable A) k, written_after_oom k it = items it).
Proof. intros H. specialize (H nat (AGenerator [1; 2; 3]%nat) 1%nat). discriminate. Qed.

(** ** Example: a tensor is overwritten while the writer is still copying it *)
Module Ex.
Definition t0 : store Z := {| gpu := fun _ => 0; cpu := fun _ => 0 |}.
Definition set (n : nat) (v : Z) : (nat -> Z) -> Z := fun _ => v.
(** Two payloads sharing a tensor, and a post hook. *)
Definition payloads : list (tree string unit loc) :=
  [Dict [("w"%string, Leaf (Gpu 0)); ("b"%string, Leaf (Cpu 4))]; Seq true [Leaf (Gpu 0); Leaf (Gpu 1)]].
Definition EK := @EKernel Z string unit.
Definition expected : list (event Z string unit) :=
  [EK 0%nat (set 0 7); EHost _ _ 4 3; ESubmit Z 0 payloads true; EK 0%nat (set 0 9); EHost _ _ 4 5;
   ECommit 0 0 (Dict [("w"%string, Leaf 7); ("b"%string, Leaf 3)]); ECommit 0 1 (Seq true [Leaf 7; Leaf 0]);
   EHook _ _ _ 0%nat; EDone _ _ _ 0%nat; EFlushed _ _ _].
Tactic Notation "fw" hyp(R) tactic3(tac) :=
  let R' := fresh "R" in
  eassert (R' : reachable t0 t0 _) by (eapply (r_step R); [tac; cbn; try reflexivity; first [left; reflexivity | right; reflexivity]]); clear R; rename R' into R; cbn -[Z.add] in R.
Example overwritten_while_copying : exists st, reachable t0 t0 st /\ log st = expected.
Proof.
  pose proof (r_init string unit t0 t0) as R. unfold init in R.
  fw R (eapply (@s_kernel Z string unit _ 0%nat (set 0 7))).
  fw R (eapply (@s_host Z string unit _ 4%nat 3)).
  fw R (eapply (@s_call Z string unit _ (CSubmit payloads true false None))).
  fw R (eapply (@s_accept Z string unit _ payloads true false None)).
  fw R (eapply (@s_kernel Z string unit _ 0%nat (set 0 9))).
  fw R (eapply (@s_host Z string unit _ 4%nat 5)).
  (* the device: the first kernel, the event, then the copies *)
  fw R (eapply (@s_compute Z string unit _)).
  fw R (eapply (@s_compute Z string unit _)).
  fw R (eapply (@s_copy Z string unit _)).
  fw R (eapply (@s_copy Z string unit _)).
  fw R (eapply (@s_copy Z string unit _)).
  fw R (eapply (@s_copy Z string unit _)).
  (* only now may the second kernel run *)
  fw R (eapply (@s_compute Z string unit _)).
  fw R (eapply (@s_compute Z string unit _)).
  fw R (eapply (@s_commit Z string unit _)).
  fw R (eapply (@s_commit Z string unit _)).
  fw R (eapply (@s_done Z string unit _)).
  fw R (eapply (@s_call Z string unit _ (CFlush _ _))).
  fw R (eapply (@s_flushed Z string unit _)).
  eexists. split; [exact R|reflexivity].
Qed.
End Ex.
