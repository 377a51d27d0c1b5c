(** Prefetching follows the synchronous iterator. *)
From Verif Require Import Base BaseFacts Rng Sequential Planner Transactions Prefetch.
Set Implicit Arguments.
Unset Strict Implicit.

Section Facts.
  Variables X A T O : Type.
  Variable fd : feed X A T.
  Variable shape : A -> Z.
  Variable cf : pconfig.
  Variable is_resumable : bool.
  Variable token_digest : bytes -> batch A -> bytes -> bytes.
  Variable state_eqb : pstate A T -> pstate A T -> bool.
  Variable dc : dconfig.
  Variable decode : list A -> list bool -> res O.
  Variable decode_many : list (list A * list bool) -> res (list O).
  Variable finalize_batch : O -> res O.
  Variable fuel : nat.
  Hypothesis Hdepth : 0 < dc_depth dc.
  (** Decoding several batches in one call is decoding each of them. *)
  Hypothesis Hmany : forall l, match decode_many l with
    | Ok ds => mapM (fun b => decode (fst b) (snd b)) l = Ok ds
    | Err _ => exists e, mapM (fun b => decode (fst b) (snd b)) l = Err e
    end.

  Notation txn := (txn X A T).
  Notation token := (token A T).
  Notation next := (next_transactional fd shape cf is_resumable token_digest fuel).
  Notation terminal := (finalize_terminal fd cf is_resumable token_digest).
  Notation comp := (@None (composer A O)).
  Notation gen_emit := (gen_emit fd shape cf is_resumable token_digest fuel).
  Notation gen_next := (gen_next fd shape cf is_resumable token_digest fuel).
  Notation commit_all := (commit_all is_resumable comp state_eqb).
  Notation sync_next := (sync_next fd shape cf is_resumable comp token_digest state_eqb dc decode finalize_batch fuel).
  Notation sync_serve := (sync_serve fd shape cf is_resumable comp token_digest state_eqb dc decode finalize_batch fuel).
  Notation sstep := (sstep fd shape cf is_resumable comp token_digest state_eqb dc decode finalize_batch fuel).
  Notation sruns := (sruns fd shape cf is_resumable comp token_digest state_eqb dc decode finalize_batch fuel).
  Notation pstep := (pstep fd shape cf is_resumable comp token_digest state_eqb dc decode_many finalize_batch fuel).
  Notation pruns := (pruns fd shape cf is_resumable comp token_digest state_eqb dc decode_many finalize_batch fuel).
  Notation run_job := (run_job dc decode_many finalize_batch).
  Notation publish := (publish is_resumable comp token_digest state_eqb dc finalize_batch).

  (** [t] with the committed state of [c]. *)
  Definition recommit (c t : txn) : txn :=
    {| t_pl := t_pl t; t_committed_state := t_committed_state c; t_yield_state := t_yield_state t;
       t_committed_digest := t_committed_digest c; t_yield_digest := t_yield_digest t;
       t_committed_blob := t_committed_blob c; t_yield_blob := t_yield_blob t |}.

  Lemma next_recommit c t : next (recommit c t) =
    match next t with Ok (o, t') => Ok (o, recommit c t') | Err e => Err e end.
  Proof.
    unfold next_transactional. cbn [recommit t_pl t_yield_state t_yield_digest t_yield_blob].
    destruct (next_batch fd shape cf fuel (t_pl t)) as [[[b|] p]|e]; cbn [bind]; [|reflexivity|reflexivity].
    destruct (snapshot fd cf is_resumable p) as [s|e]; cbn [bind]; reflexivity.
  Qed.

  Lemma terminal_recommit c t tok : terminal (recommit c t) tok =
    match terminal t tok with Ok (o, t') => Ok (o, recommit c t') | Err e => Err e end.
  Proof.
    unfold finalize_terminal. cbn [recommit t_pl t_yield_state t_yield_digest t_yield_blob].
    destruct (pl_finished (t_pl t)); [|reflexivity].
    destruct (zlist_eqb (tk_after_digest tok) (t_yield_digest t)); [|reflexivity].
    destruct (snapshot fd cf is_resumable (t_pl t)) as [s|e]; cbn [bind]; reflexivity.
  Qed.

  Lemma gen_emit_recommit c t tok : gen_emit tok (recommit c t) =
    match gen_emit tok t with Ok (o, g, t') => Ok (o, g, recommit c t') | Err e => Err e end.
  Proof.
    unfold Prefetch.gen_emit. destruct (b_last (tk_batch tok)); [reflexivity|]. rewrite next_recommit.
    destruct (next t) as [[[f|] t1]|e]; cbn [bind]; try reflexivity. rewrite terminal_recommit.
    destruct (terminal t1 tok) as [[tok1 t2]|e]; cbn [bind]; reflexivity.
  Qed.

  Lemma gen_next_recommit c g t : gen_next g (recommit c t) =
    match gen_next g t with Ok (o, g1, t') => Ok (o, g1, recommit c t') | Err e => Err e end.
  Proof.
    unfold Prefetch.gen_next. destruct g as [|tok|]; [|rewrite gen_emit_recommit|reflexivity].
    - rewrite next_recommit. destruct (next t) as [[[f|] t1]|e]; cbn [bind]; try reflexivity.
      rewrite gen_emit_recommit. destruct (gen_emit f t1) as [[[? ?] ?]|e]; cbn [bind]; reflexivity.
    - destruct (gen_emit tok t) as [[[? ?] ?]|e]; cbn [bind]; reflexivity.
  Qed.

  Lemma commit_recommit c t toks : commit_all (recommit c t) toks =
    match commit_all c toks with Ok c' => Ok (recommit c' t) | Err e => Err e end.
  Proof.
    unfold Prefetch.commit_all, prepare_commit.
    cbn [recommit t_pl t_committed_state t_committed_digest t_committed_blob].
    destruct toks as [|tok0 toks]; [reflexivity|].
    destruct (match t_committed_state c with Some s => _ | None => _ end) as [ep n].
    destruct (check_tokens is_resumable comp state_eqb _ _ _ _ _ _) as [[d bl]|e]; cbn [bind]; [|reflexivity].
    unfold commit_prepared. cbn [pr_before_digest recommit t_committed_digest].
    destruct (zlist_eqb (t_committed_digest c) (t_committed_digest c)); [|reflexivity].
    destruct (negb _); reflexivity.
  Qed.

  Lemma commit_yield t toks t' : commit_all t toks = Ok t' -> t' = recommit t' t.
  Proof.
    unfold Prefetch.commit_all. intros H. inv_bind H. unfold commit_prepared in H.
    apply guard_Ok in H as [_ H]. apply guard_Ok in H as [_ H]. injection H as <-. reflexivity.
  Qed.

  Lemma recommit_self t : recommit t t = t.
  Proof. destruct t. reflexivity. Qed.
  Lemma recommit_recommit c c' t : recommit c (recommit c' t) = recommit c t.
  Proof. reflexivity. Qed.
  Lemma recommit_of c t : recommit (recommit c t) t = recommit c t.
  Proof. reflexivity. Qed.

  (** Same committed state. *)
  Definition same (t t' : txn) : Prop := t' = recommit t t'.
  Lemma same_refl t : same t t.
  Proof. unfold same. symmetry. apply recommit_self. Qed.
  Lemma same_trans t t' t'' : same t t' -> same t' t'' -> same t t''.
  Proof. unfold same. intros H1 H2. rewrite H2 at 1. rewrite H1 at 1. reflexivity. Qed.
  Lemma same_sym t t' : same t t' -> same t' t.
  Proof. unfold same. intros H. rewrite H. destruct t. reflexivity. Qed.

  Lemma gen_next_same g t o g1 t1 : gen_next g t = Ok (o, g1, t1) -> same t t1.
  Proof.
    intros H. pose proof (gen_next_recommit t g t) as K. rewrite recommit_self, H in K. injection K as K. exact K.
  Qed.

  Lemma same_commit t t' toks : same t t' ->
    commit_all t' toks = match commit_all t toks with Ok c => Ok (recommit c t') | Err e => Err e end.
  Proof. unfold same. intros H. rewrite H at 1. rewrite commit_recommit. reflexivity. Qed.

  (** The planned batches. *)
  Inductive plans : gctl A T -> txn -> list token -> gctl A T -> txn -> Prop :=
  | plans_nil g t : plans g t [] g t
  | plans_cons g t tok g1 t1 toks g2 t2 : gen_next g t = Ok (Some tok, g1, t1) -> plans g1 t1 toks g2 t2 ->
      plans g t (tok :: toks) g2 t2.

  Lemma plans_app g t xs g1 t1 ys g2 t2 : plans g t xs g1 t1 -> plans g1 t1 ys g2 t2 -> plans g t (xs ++ ys) g2 t2.
  Proof. induction 1; cbn; intros; auto. econstructor; eauto. Qed.

  Lemma plans_same g t xs g1 t1 : plans g t xs g1 t1 -> same t t1.
  Proof.
    induction 1 as [|? ? ? ? ? ? ? ? H1 H2 IH]; [apply same_refl|].
    eapply same_trans; [eapply gen_next_same; exact H1|exact IH].
  Qed.

  Lemma plans_recommit c g t xs g1 t1 : plans g t xs g1 t1 -> plans g (recommit c t) xs g1 (recommit c t1).
  Proof.
    induction 1 as [|? ? ? ? ? ? ? ? H1 H2 IH]; [constructor|]. econstructor; [|exact IH].
    rewrite gen_next_recommit, H1. reflexivity.
  Qed.

  Lemma take_plans n : forall g t items ex g1 t1,
    take_planned fd shape cf is_resumable token_digest fuel n g t = Ok (items, ex, g1, t1) ->
    plans g t items g1 t1 /\ (ex = true -> g1 = GEnd A T) /\ (List.length items <= n)%nat
    /\ ((0 < n)%nat -> items = [] -> ex = true).
  Proof.
    induction n as [|n IH]; intros g t items ex g1 t1 H; cbn [take_planned] in H.
    - injection H as <- <- <- <-. conj; [constructor|discriminate|cbn; lia|lia].
    - destruct (gen_next g t) as [[[[tok|] g2] t2]|e] eqn:Eg; cbn [bind] in H; [| |discriminate].
      + destruct (take_planned _ _ _ _ _ _ n g2 t2) as [[[[toks ex'] g3] t3]|e] eqn:Et; cbn [bind] in H; [|discriminate].
        injection H as <- <- <- <-. destruct (IH _ _ _ _ _ _ Et) as (K1 & K2 & K3 & K4).
        conj; auto; [econstructor; eauto|cbn; lia|discriminate].
      + injection H as <- <- <- <-. unfold Prefetch.gen_next in Eg. destruct g as [|tok|].
        * inv_bind Eg. destruct v as [[f|] t']; [|discriminate]. inv_bind Eg. destruct v as [[? ?] ?]. discriminate.
        * inv_bind Eg. destruct v as [[? ?] ?]. discriminate.
        * injection Eg as <- <-. conj; auto; [constructor|cbn; lia].
  Qed.

  Lemma take_fails n : forall g t e, take_planned fd shape cf is_resumable token_digest fuel n g t = Err e ->
    exists toks g1 t1 e', plans g t toks g1 t1 /\ gen_next g1 t1 = Err e'.
  Proof.
    induction n as [|n IH]; intros g t e H; cbn [take_planned] in H; [discriminate|].
    destruct (gen_next g t) as [[[[tok|] g2] t2]|e1] eqn:Eg; cbn [bind] in H.
    - destruct (take_planned _ _ _ _ _ _ n g2 t2) as [[[[toks ex'] g3] t3]|e2] eqn:Et; cbn [bind] in H; [discriminate|].
      destruct (IH _ _ _ Et) as (toks & g1 & t1 & e' & K1 & K2). exists (tok :: toks), g1, t1, e'. split; auto. econstructor; eauto.
    - discriminate.
    - exists [], g, t, e1. split; [constructor|exact Eg].
  Qed.

  (** The synchronous control point of a generator. *)
  Definition ctl_of (g : gctl A T) : sctl A T :=
    match g with GStart _ _ => SStart A T | GHave tok => SNext tok | GEnd _ _ => SEnd A T end.

  (** What the synchronous iterator does with the next planned batch. *)
  Lemma gen_emit_facts tok0 t tok g t' : gen_emit tok0 t = Ok (tok, g, t') ->
    slice tok = slice tok0 /\ (b_last (tk_batch tok) = true <-> g = GEnd A T)
    /\ (if b_last (tk_batch tok0) then Ok (None, tok0, t)
       else '(f, t2) <- next t ;;
            match f with
            | None => '(tok2, t3) <- terminal t2 tok0 ;; Ok (None, tok2, t3)
            | Some _ => Ok (f, tok0, t2)
            end) = Ok (match g with GHave f => Some f | _ => None end, tok, t').
  Proof.
    unfold Prefetch.gen_emit. intros H. destruct (b_last (tk_batch tok0)) eqn:El.
    - injection H as <- <- <-. conj; auto. split; auto.
    - destruct (next t) as [[[f|] t1]|e]; cbn [bind] in H |- *; [| |discriminate].
      + injection H as <- <- <-. conj; auto. split; [congruence|discriminate].
      + destruct (terminal t1 tok0) as [[tok1 t2]|e] eqn:Et; cbn [bind] in H |- *; [|discriminate].
        injection H as <- <- <-. unfold finalize_terminal in Et. do 2 apply guard_Ok in Et as [_ Et]. inv_bind Et.
        injection Et as <- <-. conj; auto. split; auto.
  Qed.

  Definition ready (tok : token) : res O := d <- decode (fst (slice tok)) (snd (slice tok)) ;; finalize_batch d.

  Lemma serve_emit tok0 t opened tok g t' : gen_emit tok0 t = Ok (tok, g, t') ->
    sync_serve t tok0 opened =
      (out <- ready tok ;;
       t3 <- (if dc_train dc then Ok t' else commit_all t' [tok]) ;;
       Ok (Yielded tok out,
           {| sy_t := t3; sy_ctl := ctl_of g; sy_open := if dc_train dc then opened ++ [tok] else opened |})).
  Proof.
    intros H. destruct (gen_emit_facts H) as (E1 & E2 & E3). unfold Prefetch.sync_serve, ready. rewrite E1.
    destruct (decode _ _) as [d|e]; cbn [bind]; [|reflexivity].
    destruct (finalize_batch d) as [d'|e]; cbn [bind]; [|reflexivity].
    unfold prepare_pipeline. cbn [bind]. rewrite E3. cbn [bind].
    destruct (if dc_train dc then Ok t' else commit_all t' [tok]) as [t3|e]; cbn [bind]; [|reflexivity].
    do 3 f_equal. destruct g as [|f|].
    - exfalso. unfold Prefetch.gen_emit in H. destruct (b_last (tk_batch tok0)); [discriminate|].
      destruct (next t) as [[[f|] t1]|e]; cbn [bind] in H; try discriminate.
      destruct (terminal t1 tok0) as [[tok1 t2]|e]; cbn [bind] in H; discriminate.
    - destruct (b_last (tk_batch tok)) eqn:El; [|reflexivity].
      exfalso. pose proof (proj1 E2 eq_refl). discriminate.
    - rewrite (proj2 E2 eq_refl). reflexivity.
  Qed.

  Lemma sync_next_gen g t opened o g1 t1 : gen_next g t = Ok (o, g1, t1) ->
    sync_next {| sy_t := t; sy_ctl := ctl_of g; sy_open := opened |} =
      match o with
      | None => Err StopIteration
      | Some tok =>
          out <- ready tok ;;
          t3 <- (if dc_train dc then Ok t1 else commit_all t1 [tok]) ;;
          Ok (Yielded tok out,
              {| sy_t := t3; sy_ctl := ctl_of g1; sy_open := if dc_train dc then opened ++ [tok] else opened |})
      end.
  Proof.
    unfold Prefetch.gen_next, Prefetch.sync_next. destruct g as [|tok|]; cbn [ctl_of sy_ctl sy_t sy_open]; intros H.
    - destruct (next t) as [[[f|] t2]|e]; cbn [bind] in *; try discriminate.
      destruct (gen_emit f t2) as [[[tok1 g2] t3]|e] eqn:Ee; cbn [bind] in *; [|discriminate].
      injection H as <- <- <-. eapply serve_emit. exact Ee.
    - destruct (gen_emit tok t) as [[[tok1 g2] t3]|e] eqn:Ee; cbn [bind] in *; [|discriminate].
      injection H as <- <- <-. eapply serve_emit. exact Ee.
    - injection H as <- <- <-. reflexivity.
  Qed.

  Lemma sync_next_err g t opened e : gen_next g t = Err e ->
    exists e', sync_next {| sy_t := t; sy_ctl := ctl_of g; sy_open := opened |} = Err e'.
  Proof.
    unfold Prefetch.gen_next, Prefetch.sync_next. destruct g as [|tok|]; cbn [ctl_of sy_ctl sy_t sy_open]; intros H.
    - destruct (next t) as [[[f|] t2]|e2]; cbn [bind] in *; [| |eauto]; [|eauto].
      destruct (gen_emit f t2) as [[[tok1 g2] t3]|e3] eqn:Ee; cbn [bind] in *; [discriminate|].
      unfold Prefetch.sync_serve. destruct (decode _ _) as [d|]; cbn [bind]; [|eauto].
      destruct (finalize_batch d); cbn [bind]; [|eauto]. unfold prepare_pipeline. cbn [bind].
      unfold Prefetch.gen_emit in Ee. destruct (b_last (tk_batch f)); [discriminate|].
      destruct (next t2) as [[[f2|] t4]|e4]; cbn [bind] in *; [discriminate| |eauto].
      destruct (terminal t4 f) as [[? ?]|]; cbn [bind] in *; [discriminate|eauto].
    - destruct (gen_emit tok t) as [[[tok1 g2] t3]|e3] eqn:Ee; cbn [bind] in *; [discriminate|].
      unfold Prefetch.sync_serve. destruct (decode _ _) as [d|]; cbn [bind]; [|eauto].
      destruct (finalize_batch d); cbn [bind]; [|eauto]. unfold prepare_pipeline. cbn [bind].
      unfold Prefetch.gen_emit in Ee. destruct (b_last (tk_batch tok)); [discriminate|].
      destruct (next t) as [[[f2|] t4]|e4]; cbn [bind] in *; [discriminate| |eauto].
      destruct (terminal t4 tok) as [[? ?]|]; cbn [bind] in *; [discriminate|eauto].
    - discriminate.
  Qed.

  (** A synchronous iterator that cannot come to its end. *)
  Definition doomed (s : sync X A T) : Prop := forall es s', sruns s es s' -> sy_ctl s' <> SEnd A T.

  Lemma sruns_app s es s1 es' s2 : sruns s es s1 -> sruns s1 es' s2 -> sruns s (es ++ es') s2.
  Proof. induction 1; cbn; intros; auto. econstructor; eauto. Qed.

  Lemma doomed_step s : sy_ctl s <> SEnd A T -> (forall e s', sstep s e s' -> doomed s') -> doomed s.
  Proof. intros H1 H2 es s' H. inversion H; subst; auto. eapply H2; eauto. Qed.

  (** Commits do not help. *)
  Lemma doomed_plan toks : forall g t opened g1 t1, plans g t toks g1 t1 ->
    ((exists e, gen_next g1 t1 = Err e) \/ exists tok e, In tok toks /\ ready tok = Err e) ->
    doomed {| sy_t := t; sy_ctl := ctl_of g; sy_open := opened |}.
  Proof.
    assert (Hstuck : forall s' es g t opened, sruns {| sy_t := t; sy_ctl := ctl_of g; sy_open := opened |} es s' ->
       (forall c opened, exists e', sync_next {| sy_t := recommit c t; sy_ctl := ctl_of g; sy_open := opened |} = Err e') ->
       sy_ctl s' = ctl_of g).
    { intros s' es g t opened H. remember {| sy_t := t; sy_ctl := ctl_of g; sy_open := opened |} as s eqn:E.
      revert t opened E. induction H as [s|s e s1 es s2 H1 H2 IH]; intros t opened -> Hs; [reflexivity|].
      inversion H1; subst.
      - destruct (Hs t opened) as (e' & K). rewrite recommit_self in K. congruence.
      - cbn [sy_t sy_ctl sy_open] in *. eapply IH; [reflexivity|]. intros c op.
        match goal with K : commit_all t _ = Ok ?t' |- _ => rewrite (commit_yield K) end. apply Hs. }
    induction toks as [|tok toks IH]; intros g t opened g1 t1 Hp Hbad.
    - inversion Hp; subst. destruct Hbad as [(e & He)|(tok & e & [] & _)].
      intros es s' Hr E. assert (sy_ctl s' = ctl_of g1).
      { eapply Hstuck; [exact Hr|]. intros c op. eapply sync_next_err. rewrite gen_next_recommit, He. reflexivity. }
      destruct g1; cbn in *; congruence.
    - inversion Hp as [|? ? ? g2 t2 ? ? ? Hg Hp']; subst.
      intros es s' Hr.
      remember {| sy_t := t; sy_ctl := ctl_of g; sy_open := opened |} as s eqn:E.
      revert t t1 t2 opened E Hp Hg Hp' Hbad. induction Hr as [s|s e s1 es s2 H1 H2 IH2]; intros t t1 t2 opened -> Hp Hg Hp' Hbad.
      + cbn. intros E. destruct g; try discriminate.
      + inversion H1 as [? ? ? Hn|? n t' Htr Hc]; subst.
        * rewrite (sync_next_gen opened Hg) in Hn. destruct (ready tok) as [out|er] eqn:Er; cbn [bind] in Hn; [|discriminate].
          destruct (if dc_train dc then Ok t2 else commit_all t2 [tok]) as [t3|] eqn:Ec; cbn [bind] in Hn; [|discriminate].
          injection Hn as <- <-.
          assert (Ht3 : exists c, t3 = recommit c t2).
          { destruct (dc_train dc); [injection Ec as <-; exists t2; symmetry; apply recommit_self|exists t3; eapply commit_yield; exact Ec]. }
          destruct Ht3 as (c & ->). eapply IH; [|clear IH2|exact H2].
          -- apply plans_recommit. exact Hp'.
          -- destruct Hbad as [(e & He)|(tok' & e & [-> |Hin] & He)].
             ++ left. exists e. rewrite gen_next_recommit, He. reflexivity.
             ++ congruence.
             ++ right. eauto.
        * cbn [sy_t sy_ctl sy_open] in *. 
          assert (Ht' : exists c, t' = recommit c t) by (exists t'; exact (commit_yield Hc)).
          destruct Ht' as (c & ->).
          eapply (IH2 (recommit c t) (recommit c t1) (recommit c t2)); [reflexivity| | | |].
          -- apply plans_recommit. exact Hp.
          -- rewrite gen_next_recommit, Hg. reflexivity.
          -- apply plans_recommit. exact Hp'.
          -- destruct Hbad as [(e & He)|Hbad]; [|right; exact Hbad]. left. exists e. rewrite gen_next_recommit, He. reflexivity.
  Qed.

  (** ** The invariant of prefetching *)
  Definition serving (c : pctl A T O) : list (token * O) := match c with PServe l => l | _ => [] end.
  Definition queue (p : pref X A T O) : list token :=
    map fst (serving (pf_ctl p)) ++ List.concat (map fst (pf_pending p)).
  Definition failed (c : pctl A T O) : Prop := match c with PFailed _ _ _ _ => True | _ => False end.
  Definition decoded_ok (x : token * O) : Prop :=
    if dc_final_early dc then ready (fst x) = Ok (snd x) else decode (fst (slice (fst x))) (snd (slice (fst x))) = Ok (snd x).

  Record healthy (s : sync X A T) (p : pref X A T O) : Prop := {
    he_plan : exists g, sy_ctl s = ctl_of g /\ plans g (sy_t s) (queue p) (pf_gen p) (pf_t p);
    he_end : pf_exhausted p = true -> pf_gen p = GEnd A T;
    he_count : pf_count p = zlen (queue p);
    he_jobs : Forall (fun x => snd x = None \/ snd x = Some (run_job (fst x))) (pf_pending p);
    he_serve : Forall decoded_ok (serving (pf_ctl p));
    he_pop : pf_ctl p = PPop A T O -> (pf_count p <? dc_depth dc) && negb (pf_exhausted p) = false;
    he_done : pf_ctl p = PDone A T O -> sy_ctl s = SEnd A T
  }.

  Record pinv (t0 : txn) (es : list (event A T O)) (p : pref X A T O) : Prop := {
    pi_bound : 0 <= pf_count p <= dc_depth dc;
    pi_sync : exists s, sruns (sync_init t0) es s /\ sy_open s = pf_open p /\ same (sy_t s) (pf_t p)
      /\ (failed (pf_ctl p) -> doomed s) /\ (~ failed (pf_ctl p) -> healthy s p)
  }.

  Lemma run_job_spec items : match run_job items with
    | Ok ds => List.length ds = List.length items /\ Forall decoded_ok (combine items ds)
    | Err _ => exists tok e, In tok items /\ ready tok = Err e
    end.
  Proof.
    unfold Prefetch.run_job. pose proof (Hmany (map (@slice A T) items)) as Hm.
    assert (Hok : forall l ds, mapM (fun b => decode (fst b) (snd b)) (map (@slice A T) l) = Ok ds ->
      Forall2 (fun tok d => decode (fst (slice tok)) (snd (slice tok)) = Ok d) l ds).
    { induction l as [|x l IH]; intros ds H; cbn [map mapM] in H.
      - injection H as <-. constructor.
      - inv_bind H. inv_bind H. injection H as <-. constructor; auto. }
    assert (Herr : forall l e, mapM (fun b => decode (fst b) (snd b)) (map (@slice A T) l) = Err e ->
      exists tok e', In tok l /\ ready tok = Err e').
    { induction l as [|x l IH]; intros e H; cbn [map mapM] in H; [discriminate|].
      destruct (decode (fst (slice x)) (snd (slice x))) as [d|e1] eqn:Ed; cbn [bind] in H.
      - destruct (mapM _ (map _ l)) as [ds|e2] eqn:Em; cbn [bind] in H; [discriminate|].
        destruct (IH _ eq_refl) as (tok & e' & Hi & He). exists tok, e'. split; [right|]; auto.
      - exists x, e1. split; [left; auto|]. unfold ready. rewrite Ed. reflexivity. }
    destruct (decode_many (map (@slice A T) items)) as [ds|e]; cbn [bind].
    - pose proof (Hok _ _ Hm) as H2. clear Hm Hok Herr. unfold decoded_ok. destruct (dc_final_early dc).
      + destruct (mapM finalize_batch ds) as [os|e] eqn:Ef.
        * revert os Ef. induction H2 as [|tok d l ds Hd H2 IH]; intros os Ef; cbn [mapM] in Ef.
          -- injection Ef as <-. split; [reflexivity|constructor].
          -- inv_bind Ef. inv_bind Ef. injection Ef as <-. destruct (IH _ Hm0) as [K1 K2]. split; [cbn; congruence|].
             cbn [combine]. constructor; auto. cbn [fst snd]. unfold ready. rewrite Hd. exact Hm.
        * revert e Ef. induction H2 as [|tok d l ds Hd H2 IH]; intros e Ef; cbn [mapM] in Ef; [discriminate|].
          destruct (finalize_batch d) as [o|e1] eqn:E1; cbn [bind] in Ef.
          -- destruct (mapM finalize_batch ds) as [os|e2]; cbn [bind] in Ef; [discriminate|].
             destruct (IH _ eq_refl) as (tok' & e' & Hi & He). exists tok', e'. split; [right|]; auto.
          -- exists tok, e1. split; [left; auto|]. unfold ready. rewrite Hd. exact E1.
      + induction H2 as [|tok d l ds Hd H2 [K1 K2]]; [split; [reflexivity|constructor]|].
        split; [cbn; congruence|]. cbn [combine]. constructor; auto.
    - destruct Hm as (e' & Hm). eauto.
  Qed.

  Lemma map_fst_combine {V W} (l : list V) : forall (m : list W), List.length m = List.length l -> map fst (combine l m) = l.
  Proof. clear. induction l as [|x l IH]; intros [|y m] H; cbn in *; try lia; auto. f_equal. apply IH. lia. Qed.

  Lemma sruns_snoc s es s1 e s2 : sruns s es s1 -> sstep s1 e s2 -> sruns s (es ++ [e]) s2.
  Proof. intros H1 H2. eapply sruns_app; [exact H1|]. econstructor; [exact H2|constructor]. Qed.

  Lemma sync_eta (s : sync X A T) g : sy_ctl s = ctl_of g -> s = {| sy_t := sy_t s; sy_ctl := ctl_of g; sy_open := sy_open s |}.
  Proof. destruct s; cbn. intros ->. reflexivity. Qed.

  Lemma doomed_plan' s g toks g1 t1 : sy_ctl s = ctl_of g -> plans g (sy_t s) toks g1 t1 ->
    ((exists e, gen_next g1 t1 = Err e) \/ exists tok e, In tok toks /\ ready tok = Err e) -> doomed s.
  Proof. intros H1 H2 H3. rewrite (sync_eta H1). eapply doomed_plan; eauto. Qed.

  Ltac wit s := exists s; split; [assumption|]; split; [assumption|]; split; [assumption|]; split.

  Lemma pstep_inv t0 es p es1 p' : pinv t0 es p -> pstep p es1 p' -> pinv t0 (es ++ es1) p'.
  Proof.
    intros [HB (s & Hr & Ho & Hsame & Hf & Hh)] Hst.
    destruct Hst as [p Hc Hg|p Hc Hg|p before items after Hp|p items r rest Hc Hp|p Hc Hp|p tok d rest e p' Hc Hpub|p tok d rest e Hc Hpub
      |p Hc|p n t' Htr Hcm].
    - (* fill *)
      rewrite app_nil_r. assert (Hnf : ~ failed (pf_ctl p)) by (rewrite Hc; auto). specialize (Hh Hnf).
      destruct Hh as [(g & Eg & Hpl) He Hcnt Hj Hsv Hpop Hd]. apply andb_true_iff in Hg as [G1 G2]. apply Z.ltb_lt in G1.
      apply negb_true_iff in G2. unfold submit_chunk. rewrite G2. cbn [orb].
      destruct (Z.leb_spec (dc_depth dc) (pf_count p)); [lia|].
      destruct (take_planned _ _ _ _ _ _ _ _ _) as [[[[items ex] g1] t1]|e] eqn:Et; cbn [bind].
      + destruct (take_plans Et) as (K1 & K2 & K3 & K4).
        assert (Hs1 : same (sy_t s) t1) by (eapply same_trans; [exact Hsame|eapply plans_same; exact K1]).
        destruct items as [|i0 items].
        * constructor; cbn; auto. wit s; [cbn; rewrite Hc; intros []|]. intros _. constructor; cbn; auto; try (rewrite Hc; discriminate).
          -- exists g. split; auto. unfold queue. cbn [pf_ctl pf_pending]. rewrite <- (app_nil_r (_ ++ _)). eapply plans_app; [exact Hpl|exact K1].
        * constructor; cbn [pf_count].
          { unfold zlen. cbn [List.length] in *. unfold chunk_size in K3. lia. }
          wit s; [cbn; rewrite Hc; intros []|]. intros _.
          constructor; cbn [pf_gen pf_t pf_exhausted pf_count pf_pending pf_ctl]; auto; try (rewrite Hc; discriminate).
          -- exists g. split; auto. unfold queue. cbn [pf_ctl pf_pending]. rewrite map_app, concat_app, app_assoc.
             eapply plans_app; [exact Hpl|]. cbn [map fst List.concat]. rewrite app_nil_r. exact K1.
          -- rewrite Hcnt. unfold queue. cbn [pf_ctl pf_pending]. rewrite map_app, concat_app. cbn [map fst List.concat].
             rewrite app_nil_r, !zlen_app. lia.
          -- apply Forall_app. split; auto.
      + constructor; cbn; auto. wit s; [|cbn; tauto]. intros _.
        destruct (take_fails Et) as (toks & g1 & t1 & e' & K1 & K2).
        eapply doomed_plan'; [exact Eg|eapply plans_app; [exact Hpl|exact K1]|]. left. eauto.
    - (* filled *)
      rewrite app_nil_r. assert (Hnf : ~ failed (pf_ctl p)) by (rewrite Hc; auto). specialize (Hh Hnf).
      destruct Hh as [Hpl He Hcnt Hj Hsv Hpop Hd]. constructor; cbn; auto. wit s; [intros []|]. intros _.
      unfold queue in *. rewrite Hc in *. constructor; cbn; auto. discriminate.
    - (* work *)
      rewrite app_nil_r. constructor; cbn; auto. wit s; [exact Hf|]. intros Hnf. specialize (Hh Hnf).
      destruct Hh as [Hpl He Hcnt Hj Hsv Hpop Hd]. unfold queue in *. rewrite Hp in *.
      rewrite map_app in Hpl, Hcnt. cbn [map fst] in Hpl, Hcnt.
      constructor; unfold queue; cbn [with_pending pf_gen pf_t pf_exhausted pf_count pf_pending pf_ctl]; auto.
      + rewrite map_app. cbn [map fst]. exact Hpl.
      + rewrite map_app. cbn [map fst]. exact Hcnt.
      + apply Forall_app in Hj as [J1 J2]. inversion J2; subst. apply Forall_app. split; auto.
    - (* pop *)
      rewrite app_nil_r. assert (Hnf : ~ failed (pf_ctl p)) by (rewrite Hc; auto). specialize (Hh Hnf).
      destruct Hh as [(g & Eg & Hpl) He Hcnt Hj Hsv Hpop Hd]. unfold queue in Hpl, Hcnt. rewrite Hc, Hp in *.
      cbn [serving map app fst List.concat] in Hpl, Hcnt.
      inversion Hj as [|? ? [J|J] Hj']; subst; cbn [fst snd] in J; [discriminate|]. injection J as ->.
      pose proof (run_job_spec items) as Hrun. destruct (run_job items) as [ds|e].
      + destruct Hrun as [R1 R2]. rewrite R1, Nat.eqb_refl.
        constructor; cbn; auto. wit s; [intros []|]. intros _.
        constructor; unfold queue; cbn; auto; try discriminate.
        * rewrite map_fst_combine by exact R1. eauto.
        * rewrite map_fst_combine by exact R1. exact Hcnt.
      + constructor; cbn; auto. wit s; [|cbn; tauto]. intros _.
        destruct Hrun as (tok & e' & Hi & Hre). eapply doomed_plan'; [exact Eg|exact Hpl|].
        right. exists tok, e'. split; auto. apply in_or_app. left. exact Hi.
    - (* end *)
      rewrite app_nil_r. assert (Hnf : ~ failed (pf_ctl p)) by (rewrite Hc; auto). specialize (Hh Hnf).
      destruct Hh as [(g & Eg & Hpl) He Hcnt Hj Hsv Hpop Hd]. specialize (Hpop Hc).
      unfold queue in *. rewrite Hc, Hp in *. cbn [serving map app List.concat] in *.
      constructor; cbn; auto. wit s; [intros []|]. intros _.
      rewrite Hcnt in Hpop. change (zlen (@nil token)) with 0 in Hpop.
      destruct (Z.ltb_spec 0 (dc_depth dc)); [|lia]. cbn [andb] in Hpop. apply negb_false_iff in Hpop.
      constructor; unfold queue; cbn [goto pf_gen pf_t pf_exhausted pf_count pf_pending pf_ctl serving map app List.concat]; rewrite ?Hp; auto; try discriminate.
      + exists g. auto.
      + intros _. rewrite Eg. inversion Hpl; subst. rewrite (He Hpop). reflexivity.
    - (* yield *)
      assert (Hnf : ~ failed (pf_ctl p)) by (rewrite Hc; auto). specialize (Hh Hnf).
      destruct Hh as [(g & Eg & Hpl) He Hcnt Hj Hsv Hpop Hd]. unfold queue in Hpl, Hcnt. rewrite Hc in *.
      cbn [serving map app fst] in Hpl, Hcnt, Hsv. inversion Hsv as [|? ? Hd1 Hsv']; subst.
      inversion Hpl as [|? ? ? g1 t1 ? ? ? Hg Hpl']; subst. rewrite zlen_cons in Hcnt.
      unfold Prefetch.publish in Hpub.
      assert (Hout : exists out, ready tok = Ok out /\ (if dc_final_early dc then Ok d else finalize_batch d) = Ok out).
      { unfold decoded_ok in Hd1. cbn [fst snd] in Hd1. unfold ready in *. destruct (dc_final_early dc).
        - eauto.
        - rewrite Hd1. cbn [bind]. destruct (finalize_batch d) as [o|]; [eauto|discriminate]. }
      destruct Hout as (out & E1 & E2). rewrite E2 in Hpub. unfold prepare_pipeline in Hpub. cbn [bind] in Hpub.
      destruct (if dc_train dc then Ok (pf_t p) else commit_all (pf_t p) [tok]) as [t2|] eqn:Ec; cbn [bind] in Hpub; [|discriminate].
      injection Hpub as <- <-.
      pose proof (sync_next_gen (sy_open s) Hg) as Hn. rewrite <- (sync_eta Eg), E1 in Hn. cbn [bind] in Hn.
      assert (Hs1 : same (pf_t p) t1).
      { eapply same_trans; [apply same_sym; exact Hsame|eapply gen_next_same; exact Hg]. }
      assert (Hc1 : (if dc_train dc then Ok t1 else commit_all t1 [tok]) = Ok (recommit t2 t1)).
      { destruct (dc_train dc); [injection Ec as <-; f_equal; exact Hs1|]. rewrite (same_commit [tok] Hs1), Ec. reflexivity. }
      rewrite Hc1 in Hn. cbn [bind] in Hn.
      assert (Ht2 : exists c, t2 = recommit c (pf_t p)).
      { destruct (dc_train dc); [injection Ec as <-; exists (pf_t p); symmetry; apply recommit_self|exists t2; eapply commit_yield; exact Ec]. }
      destruct Ht2 as (c & ->).
      constructor; cbn [pf_count]; [unfold zlen in *; lia|].
      eexists. split; [eapply sruns_snoc; [exact Hr|apply ss_yield; exact Hn]|]. cbn [sy_open pf_open sy_t pf_t pf_ctl].
      split; [rewrite Ho; reflexivity|]. split; [reflexivity|]. split; [intros []|]. intros _.
      constructor; cbn [sy_ctl pf_gen pf_t pf_exhausted pf_count pf_pending pf_ctl sy_t]; auto; try discriminate.
      + exists g1. split; auto. unfold queue. cbn [pf_ctl pf_pending serving]. rewrite (recommit_recommit _ _ _) || idtac.
        change (recommit (recommit c (pf_t p)) t1) with (recommit c t1). apply plans_recommit. exact Hpl'.
      + unfold queue. cbn [pf_ctl pf_pending serving]. lia.
    - (* publish fails *)
      rewrite app_nil_r. assert (Hnf : ~ failed (pf_ctl p)) by (rewrite Hc; auto). specialize (Hh Hnf).
      destruct Hh as [(g & Eg & Hpl) He Hcnt Hj Hsv Hpop Hd]. unfold queue in Hpl, Hcnt. rewrite Hc in *.
      cbn [serving map app fst] in Hpl, Hcnt, Hsv. inversion Hsv as [|? ? Hd1 Hsv']; subst.
      inversion Hpl as [|? ? ? g1 t1 ? ? ? Hg Hpl']; subst.
      constructor; cbn [goto pf_count]; auto. wit s; [|cbn; tauto]. intros _.
      unfold Prefetch.publish in Hpub. unfold decoded_ok in Hd1. cbn [fst snd] in Hd1.
      destruct (if dc_final_early dc then Ok d else finalize_batch d) as [out|e1] eqn:Efin; cbn [bind] in Hpub.
      + unfold prepare_pipeline in Hpub. cbn [bind] in Hpub.
        assert (E1 : ready tok = Ok out).
        { unfold ready in *. destruct (dc_final_early dc); [injection Efin as <-; exact Hd1|]. rewrite Hd1. exact Efin. }
        destruct (dc_train dc) eqn:Etr; cbn [bind] in Hpub; [discriminate|].
        destruct (commit_all (pf_t p) [tok]) as [|e2] eqn:Ec; cbn [bind] in Hpub; [discriminate|].
        pose proof (sync_next_gen (sy_open s) Hg) as Hn. rewrite <- (sync_eta Eg), E1, Etr in Hn. cbn [bind] in Hn.
        assert (Hs1 : same (pf_t p) t1).
        { eapply same_trans; [apply same_sym; exact Hsame|eapply gen_next_same; exact Hg]. }
        rewrite (same_commit [tok] Hs1), Ec in Hn. cbn [bind] in Hn.
        apply doomed_step.
        * rewrite Eg. destruct g; try discriminate.
        * intros e3 s' H3. inversion H3; subst; congruence.
      + eapply doomed_plan'; [exact Eg|exact Hpl|]. right. exists tok, e1. split; [left; reflexivity|].
        destruct (dc_final_early dc); [discriminate|]. unfold ready. rewrite Hd1. exact Efin.
    - (* served *)
      rewrite app_nil_r. assert (Hnf : ~ failed (pf_ctl p)) by (rewrite Hc; auto). specialize (Hh Hnf).
      destruct Hh as [Hpl He Hcnt Hj Hsv Hpop Hd]. constructor; cbn; auto. wit s; [intros []|]. intros _.
      unfold queue in *. rewrite Hc in *. constructor; cbn; auto; discriminate.
    - (* commit *)
      constructor; cbn [pf_count]; auto.
      pose proof (same_commit (firstn n (pf_open p)) (same_sym Hsame)) as Hsc. rewrite Hcm in Hsc.
      eexists. split; [eapply sruns_snoc; [exact Hr|apply ss_commit; [exact Htr|rewrite Ho; exact Hsc]]|].
      cbn [sy_open pf_open sy_t pf_t pf_ctl].
      assert (Ht' : exists c, t' = recommit c (pf_t p)) by (exists t'; exact (commit_yield Hcm)).
      destruct Ht' as (c & ->).
      split; [rewrite Ho; reflexivity|]. split; [reflexivity|]. split.
      + intros Hfl. specialize (Hf Hfl). intros es2 s2 H2. eapply Hf. econstructor; [apply ss_commit; [exact Htr|rewrite Ho; exact Hsc]|exact H2].
      + intros Hnf. specialize (Hh Hnf). destruct Hh as [(g & Eg & Hpl) He Hcnt Hj Hsv Hpop Hd].
        constructor; cbn [sy_ctl pf_gen pf_t pf_exhausted pf_count pf_pending pf_ctl sy_t]; auto.
        exists g. split; auto. unfold queue. cbn [pf_ctl pf_pending].
        change (recommit (recommit c (pf_t p)) (sy_t s)) with (recommit c (sy_t s)). apply plans_recommit. exact Hpl.
  Qed.

  Lemma pinit_inv t0 : pinv t0 [] (pref_init O t0).
  Proof.
    constructor; cbn; [lia|]. exists (sync_init t0). conj; [constructor|reflexivity|apply same_refl|intros []|].
    intros _. constructor; cbn; auto; try discriminate.
    exists (GStart A T). split; [reflexivity|constructor].
  Qed.

  Lemma pruns_inv t0 es p : pruns (pref_init O t0) es p -> pinv t0 es p.
  Proof.
    intros H. remember (pref_init O t0) as p0 eqn:E. induction H as [p|p es p1 es1 p2 H IH Hst]; subst.
    - apply pinit_inv.
    - eapply pstep_inv; [apply IH; reflexivity|exact Hst].
  Qed.

  (** Batches submitted or decoded and not handed out. *)
  Lemma pstep_held p es1 p' : pstep p es1 p' -> zlen (queue p) <= pf_count p -> zlen (queue p') <= pf_count p'.
  Proof.
    intros Hst H.
    destruct Hst as [p Hc Hg|p Hc Hg|p before items after Hp|p items r rest Hc Hp|p Hc Hp|p tok d rest e p' Hc Hpub|p tok d rest e Hc Hpub
      |p Hc|p n t' Htr Hcm]; unfold queue in *; cbn [goto with_pending pf_ctl pf_pending pf_count] in *.
    - unfold submit_chunk. destruct (pf_exhausted p || _); [exact H|].
      destruct (take_planned _ _ _ _ _ _ _ _ _) as [[[[items ex] g1] t1]|e]; cbn [bind].
      + destruct items as [|i0 items]; cbn [pf_ctl pf_pending pf_count]; [exact H|].
        rewrite map_app, concat_app, app_assoc, zlen_app. cbn [map fst List.concat]. rewrite app_nil_r. lia.
      + cbn [goto pf_ctl pf_pending pf_count serving map app]. rewrite zlen_app in H. pose proof (zlen_nonneg (map fst (serving (pf_ctl p)))). lia.
    - rewrite Hc in H. exact H.
    - rewrite Hp in H. rewrite map_app in *. exact H.
    - rewrite Hc, Hp in H. cbn [serving map app fst List.concat] in H. rewrite zlen_app in H. destruct r as [ds|e].
      + destruct (Nat.eqb_spec (List.length ds) (List.length items)).
        * cbn [serving]. rewrite map_fst_combine by assumption. rewrite zlen_app. lia.
        * cbn [serving map app]. pose proof (zlen_nonneg items). lia.
      + cbn [serving map app]. pose proof (zlen_nonneg items). lia.
    - rewrite Hc in H. exact H.
    - rewrite Hc in H. cbn [serving map app fst] in H. rewrite zlen_cons in H. unfold Prefetch.publish in Hpub.
      inv_bind Hpub. unfold prepare_pipeline in Hpub. cbn [bind] in Hpub. inv_bind Hpub. injection Hpub as <- <-.
      cbn [pf_ctl pf_pending pf_count serving]. lia.
    - rewrite Hc in H. cbn [serving map app fst] in H |- *. rewrite zlen_cons, zlen_app in H. 
      pose proof (zlen_nonneg (map fst rest)). lia.
    - rewrite Hc in H. exact H.
    - exact H.
  Qed.

  Lemma pruns_held t0 es p : pruns (pref_init O t0) es p -> zlen (queue p) <= pf_count p.
  Proof.
    intros H. remember (pref_init O t0) as p0 eqn:E. induction H as [p|p es p1 es1 p2 H IH Hst]; subst.
    - cbn. unfold zlen. cbn. lia.
    - eapply pstep_held; [exact Hst|apply IH; reflexivity].
  Qed.

  (** Without the consumer committing anything, the iterator or a worker can go on. *)
  Lemma goes_on p : pf_ctl p = PDone A T O \/ failed (pf_ctl p) \/ exists es1 p', pstep p es1 p'
    /\ forall n, ~ In (Committed A T O n) es1.
  Proof.
    assert (Hnil : forall n, ~ In (Committed A T O n) []) by (intros n []).
    destruct (pf_ctl p) as [| |[|[tok d] rest]| |e] eqn:Hc.
    - right. right. destruct ((pf_count p <? dc_depth dc) && negb (pf_exhausted p)) eqn:Hg.
      + exists []. eexists. split; [apply ps_fill; assumption|exact Hnil].
      + exists []. eexists. split; [apply ps_filled; assumption|exact Hnil].
    - right. right. destruct (pf_pending p) as [|[items [r|]] rest] eqn:Hp.
      + exists []. eexists. split; [apply ps_end; assumption|exact Hnil].
      + exists []. eexists. split; [eapply ps_pop; eassumption|exact Hnil].
      + exists []. eexists. split; [apply (@ps_work _ _ _ _ _ _ _ _ _ _ _ _ _ _ _ p [] items rest); exact Hp|exact Hnil].
    - right. right. exists []. eexists. split; [apply ps_served; assumption|exact Hnil].
    - right. right. destruct (publish p tok d rest) as [[e s']|e] eqn:Hpub.
      + exists [e], s'. split; [eapply ps_yield; eassumption|]. intros n [Hn|[]]. subst e. unfold Prefetch.publish in Hpub.
        inv_bind Hpub. unfold prepare_pipeline in Hpub. cbn [bind] in Hpub. inv_bind Hpub. discriminate.
      + exists []. eexists. split; [eapply ps_yield_err; eassumption|exact Hnil].
    - auto.
    - right. left. exact I.
  Qed.

  (** Submitting makes progress. *)
  Lemma submit_progress p : pf_ctl p = PFill A T O -> (pf_count p <? dc_depth dc) && negb (pf_exhausted p) = true ->
    match submit_chunk fd shape cf is_resumable token_digest dc fuel p with
    | Ok p' => pf_count p < pf_count p' \/ pf_exhausted p' = true
    | Err _ => True
    end.
  Proof.
    intros Hc Hg. apply andb_true_iff in Hg as [G1 G2]. apply Z.ltb_lt in G1. apply negb_true_iff in G2.
    unfold submit_chunk. rewrite G2. destruct (Z.leb_spec (dc_depth dc) (pf_count p)); [lia|]. cbn [orb].
    destruct (take_planned _ _ _ _ _ _ _ _ _) as [[[[items ex] g1] t1]|e] eqn:Et; cbn [bind]; [|exact I].
    destruct (take_plans Et) as (_ & _ & _ & K4). destruct items as [|i0 items].
    - right. cbn. apply K4; auto. unfold chunk_size. lia.
    - left. cbn [pf_count]. rewrite zlen_cons. pose proof (zlen_nonneg items). lia.
  Qed.
End Facts.
