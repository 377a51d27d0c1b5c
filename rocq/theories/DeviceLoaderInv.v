(** The invariants of the prefetching loader are kept by every step. *)
From Verif Require Import Base BaseFacts DeviceLoader DeviceLoaderFacts.
Set Implicit Arguments.
Unset Strict Implicit.

Section Inv.
Variable V : Type.
Variable P : nat.
Variable source : list (hbatch V).
Hypothesis HP : (1 <= P)%nat.
Notation inv := (inv P source).
Notation queues := (queues P source).

Lemma inv_init m0 h0 b0 : inv (pinit m0 h0 b0 source).
Proof.
  split; [|split]; constructor; cbn; intros; try tauto; try lia; try congruence;
    try (destruct a; discriminate); try reflexivity.
  - exists 0%nat. split; [lia|split; [reflexivity|intros k Hk; lia]].
  - apply NoDup_nil.
Qed.

(** *** The device *)
Lemma fired_more (d d' : dev V pevent) e : dstep d d' -> fired d e -> fired d' e.
Proof. intros H [F|F]; destruct H; unfold fired; cbn; rewrite in_app_iff; tauto. Qed.

Definition with_dev (st : pstate V) (d : dev V pevent) : pstate V :=
  {| pd := d; src := src st; taken := taken st; exhausted := exhausted st; pending := pending st; retired := retired st;
     used := used st; held := held st; dropped := dropped st; blk := blk st; phase := phase st; asked := asked st; nexts := nexts st; delivered := delivered st |}.

Lemma same_hist (d d' : dev V pevent) : dstep d d' ->
  copy_done d' ++ copyq d' = copy_done d ++ copyq d /\ comp_done d' ++ compq d' = comp_done d ++ compq d /\ host d' = host d.
Proof.
  intros H. destruct H as [o rest E _|o rest E _]; cbn; rewrite E, <- app_assoc; auto.
Qed.

Lemma streams_device st d : streams st -> dstep (pd st) d -> streams (with_dev st d).
Proof.
  intros S H. destruct (same_hist H) as (E1 & E2 & _).
  constructor; cbn [pd with_dev taken blk dropped];
    try rewrite E1; try rewrite E2.
  - intros o Ho. exact (S_ops S Ho).
  - exact (@S_rec _ _ S).
  - exact (@S_sorted _ _ S).
  - exact (@S_before _ _ S).
  - intros o Ho. exact (S_comp S Ho).
  - exact (@S_read _ _ S).
  - intros e He.
    destruct H as [o rest E C|o rest E C]; cbn in He |- *.
    + eapply fired_more; [eapply d_copy; eauto|]. exact (S_waited S He).
    + apply in_app_iff in He. destruct He as [He|[Eo|[]]].
      * eapply fired_more; [eapply d_comp; eauto|]. exact (S_waited S He).
      * eapply fired_more; [eapply d_comp; eauto|]. rewrite Eo in C. exact C.
Qed.
Lemma queues_device st d : queues st -> dstep (pd st) d -> queues (with_dev st d).
Proof.
  intros Q H. destruct Q. destruct (same_hist H) as (E1 & E2 & _).
  constructor; cbn [with_dev pd src taken exhausted pending retired used held dropped blk phase asked nexts delivered]; auto.
  - destruct Q_retired as (r & R1 & R2 & R3). exists r. split; [exact R1|]. split; [exact R2|].
    intros k Hk. eapply fired_more; [exact H|apply R3; exact Hk].
  - intros k Hk. rewrite E2. auto.
  - intros why Hw. specialize (Q_drained why Hw). destruct H as [o rest E C|o rest E C]; cbn; congruence.
Qed.
Lemma memory_device st d : inv st -> dstep (pd st) d -> memory (with_dev st d).
Proof.
  intros I H. pose proof I as (S & Q & M).
  assert (Mono : forall e, In e (comp_done (pd st)) -> In e (comp_done d)).
  { intros e He. destruct H; cbn; [exact He|]. apply in_or_app. auto. }
  constructor; cbn [with_dev pd src taken exhausted pending retired used held dropped blk phase asked nexts delivered].
  - exact (@M_blocks _ _ M).
  - intros j k i i' Hj Hi Hi' E. apply Mono. exact (M_reuse M Hj Hi Hi' E).
  - destruct (same_hist H) as (_ & _ & ->). exact (@M_host _ _ M).
  - intros a h l c v Ec Hl Hv.
    destruct H as [o rest E C|o rest E C]; cbn [copy_done mem exec_mem] in *.
    + destruct (split_app Ec) as [(c' & E1 & ->)|(a' & E1 & E2)].
      * assert (Hno : forall h', o <> Copy h' l).
        { intros h' ->. apply (Hl h'). apply in_or_app. right. left. reflexivity. }
        assert (Hm : mem (pd st) l = v).
        { eapply (M_mem M); eauto. intros h' Hh'. apply (Hl h'). apply in_or_app. auto. }
        destruct o as [h' l'| | |]; cbn [exec_mem]; auto. unfold put. destruct (Nat.eqb_spec l l') as [->|]; auto.
        exfalso. apply (Hno h'). reflexivity.
      * destruct a' as [|? [|? ?]]; cbn in E2; [|discriminate|discriminate]. injection E2 as -> <-.
        cbn [exec_mem]. unfold put. rewrite Nat.eqb_refl. destruct h as [k i].
        eapply (M_host M); [|exact Hv]. eapply copying_kept; eauto. rewrite E. left. reflexivity.
    + assert (Ho : exec_mem (pd st) o = mem (pd st)).
      { destruct o; try reflexivity. exfalso.
        apply (S_comp S (o:=Copy src dst)). rewrite E. apply in_or_app. right. left. reflexivity. }
      rewrite Ho. eapply (M_mem M); eauto.
  - intros h v Hr. destruct H as [o rest E C|o rest E C]; cbn [reads exec_reads] in *.
    + destruct o; try exact (M_reads M Hr). exfalso.
      destruct (S_ops S (o:=Read what from)) as [(x & y & E' & _)|(x & E' & _)]; try discriminate.
      rewrite E. apply in_or_app. right. left. reflexivity.
    + destruct o as [| h' l'| |]; try exact (M_reads M Hr).
      apply in_app_iff in Hr. destruct Hr as [Hr|[Hr|[]]]; [exact (M_reads M Hr)|].
      injection Hr as -> <-. eapply read_right; eauto.
Qed.
Lemma inv_device st d : inv st -> dstep (pd st) d -> inv (with_dev st d).
Proof.
  intros I H. pose proof I as (S & Q & M). split; [|split].
  - apply streams_device; auto.
  - apply queues_device; auto.
  - apply memory_device; auto.
Qed.

(** *** Steps that change nothing on the device *)
Lemma streams_same (st st' : pstate V) : pd st' = pd st -> taken st' = taken st -> blk st' = blk st -> dropped st' = dropped st ->
  streams st -> streams st'.
Proof.
  intros E1 E2 E3 E4 [A B C D E F G]. unfold width in *. constructor; unfold width; rewrite ?E1, ?E2, ?E3, ?E4; auto.
Qed.
Lemma memory_same (st st' : pstate V) : pd st' = pd st -> taken st' = taken st -> blk st' = blk st ->
  (forall k, In k (pending st') \/ In k (retired st') -> In k (pending st) \/ In k (retired st)) ->
  memory st -> memory st'.
Proof.
  intros E1 E2 E3 E4 [A B C D E]. unfold width in *. constructor; unfold width; rewrite ?E1, ?E2, ?E3; auto.
Qed.

Ltac fields := cbn [set_phase pd src taken exhausted pending retired used held dropped blk phase asked nexts delivered enq_comp enq_copy with_host copy_done copyq comp_done compq mem host reads] in *.

Lemma fired_enq (d : dev V pevent) l e : fired (enq_comp d l) e = fired d e.
Proof. reflexivity. Qed.

(** The compute stream gets more work. *)
Lemma streams_comp (st st' : pstate V) l : pd st' = enq_comp (pd st) l -> taken st' = taken st -> blk st' = blk st ->
  (forall k, In k (dropped st) -> In k (dropped st')) -> streams st ->
  (forall o, In o l -> match o with
    | Copy _ _ => False
    | Read h n => n = blk st h /\ (fst h < List.length (taken st))%nat /\ (snd h < width st (fst h))%nat
        /\ In (WaitE (CopyEnd (fst h))) (comp_done (pd st) ++ compq (pd st)) /\ ~ In (Rec (Freed (fst h))) (comp_done (pd st) ++ compq (pd st))
    | Rec (CopyEnd _) => False
    | Rec (Freed k) => In k (dropped st')
    | WaitE (CopyEnd k) => (k < List.length (taken st))%nat
    | WaitE (Freed _) => False
    end) -> (List.length l <= 1)%nat -> streams st'.
Proof.
  intros E1 E2 E3 E4 [A B C D E F G] L Len.
  constructor; unfold width; rewrite ?E1, ?E2, ?E3; fields; auto.
  - intros o Ho. rewrite app_assoc in Ho. apply in_app_iff in Ho. destruct Ho as [Ho|Ho].
    + specialize (E _ Ho). destruct o as [| | [|]|[|]]; auto.
    + specialize (L _ Ho). destruct o as [| | [|]|[|]]; auto. unfold width in L. tauto.
  - intros a h n c Ec. rewrite app_assoc in Ec. destruct (split_app Ec) as [(c' & Eq & _)|(a' & -> & Eq)].
    + exact (F _ _ _ _ Eq).
    + destruct l as [|o l]; [destruct a'; discriminate|]. destruct l; [|cbn in Len; lia].
      destruct a' as [|? [|? ?]]; cbn in Eq; try discriminate. injection Eq as -> <-. rewrite app_nil_r.
      specialize (L _ (or_introl eq_refl)). cbv beta iota in L. tauto.
Qed.
Lemma memory_comp (st st' : pstate V) l : pd st' = enq_comp (pd st) l -> taken st' = taken st -> blk st' = blk st ->
  (forall k, In k (pending st') \/ In k (retired st') -> In k (pending st) \/ In k (retired st)) ->
  memory st -> memory st'.
Proof.
  intros E1 E2 E3 E4 [A B C D E]. unfold width in *. constructor; unfold width; rewrite ?E1, ?E2, ?E3; fields; auto.
Qed.

Lemma more_false (st : pstate V) : more P st = false -> (P <= List.length (pending st))%nat \/ exhausted st = true.
Proof. unfold more. intros H. apply andb_false_iff in H. rewrite Nat.ltb_ge, negb_false_iff in H. tauto. Qed.
Lemma more_true (st : pstate V) : more P st = true -> (List.length (pending st) < P)%nat /\ exhausted st = false.
Proof. unfold more. intros H. apply andb_true_iff in H. rewrite Nat.ltb_lt, negb_true_iff in H. tauto. Qed.

Ltac same := split; [eapply streams_same; [..|eassumption]; fields; auto|split; [|eapply memory_same; [..|eassumption]; fields; auto]].

Ltac nx := match goal with H : nexts _ = _ \/ _ |- _ => solve [destruct H as [H|(H & ? & [?|[?|?]])]; try discriminate; try congruence; auto 6] end.
Lemma inv_exhaust st what : inv st -> phase st = PFill what -> more P st = true -> src st = [] -> inv
    {| pd := pd st; src := src st; taken := taken st; exhausted := true; pending := pending st; retired := retired st;
       used := used st; held := held st; dropped := dropped st; blk := blk st; phase := PFill what; asked := asked st; nexts := S (nexts st); delivered := delivered st |}.
Proof.
  intros (S & Q & M) Ep Hm Es. same. destruct Q. constructor; unfold popped in *; fields; rewrite Ep in *; auto; try discriminate; destruct (more_true Hm) as [_ Hx]; try nx.
Qed.
Lemma inv_raise st what : inv st -> phase st = PFill what -> more P st = true -> inv
    {| pd := pd st; src := src st; taken := taken st; exhausted := exhausted st; pending := pending st; retired := retired st;
       used := used st; held := held st; dropped := dropped st; blk := blk st; phase := PClosing None; asked := asked st; nexts := S (nexts st); delivered := delivered st |}.
Proof.
  intros (S & Q & M) Ep Hm. same. destruct Q. constructor; unfold popped in *; fields; rewrite Ep in *; auto; try discriminate; try nx.
  - destruct what; lia.
  - right. destruct (more_true Hm) as [_ Hx]. destruct Q_nexts as [E|(E & _ & [H|[H|H]])]; try congruence. auto 6.
Qed.
Lemma inv_start st : inv st -> phase st = PFill None -> more P st = false -> inv (set_phase st PHead).
Proof.
  intros (S & Q & M) Ep Hm. same. destruct Q. constructor; unfold popped in *; fields; rewrite Ep in *; auto; try discriminate; try nx.
  intros E. destruct (more_false Hm) as [H|H]; auto. rewrite E in H. cbn in H. lia.
Qed.
Lemma inv_yield st k : inv st -> phase st = PFill (Some k) -> more P st = false -> inv
    {| pd := pd st; src := src st; taken := taken st; exhausted := exhausted st; pending := pending st; retired := retired st;
       used := used st; held := held st; dropped := dropped st; blk := blk st; phase := PUser; asked := asked st; nexts := nexts st; delivered := delivered st ++ [k] |}.
Proof.
  intros (S & Q & M) Ep Hm. same. destruct Q. constructor; unfold popped in *; fields; rewrite Ep in *; rewrite ?app_length; cbn [List.length]; auto; try discriminate; try nx.
  - rewrite Nat.add_1_r, seq_S, <- Q_delivered. destruct Q_phase as [-> _]. reflexivity.
  - lia.
  - lia.
  - intros E. destruct (more_false Hm) as [H|H]; auto. rewrite E in H. cbn in H. lia.
Qed.
Lemma inv_loop st : inv st -> phase st = PHead -> pending st <> [] -> inv (set_phase st PRelease).
Proof.
  intros (S & Q & M) Ep Hm. same. destruct Q. constructor; unfold popped in *; fields; rewrite Ep in *; auto; try discriminate; try nx.
Qed.
Lemma inv_finish st : inv st -> phase st = PHead -> pending st = [] -> inv (set_phase st (PClosing (Some true))).
Proof.
  intros (S & Q & M) Ep Hm. same. destruct Q. constructor; unfold popped in *; fields; rewrite Ep in *; auto; try discriminate; try nx.
Qed.
Lemma inv_release st k r p : inv st -> retired st = k :: r -> fired (pd st) (CopyEnd k) ->
  (phase st = PRelease /\ p = PRelease) \/ (phase st = PSync /\ p = PPop) -> inv
    {| pd := pd st; src := src st; taken := taken st; exhausted := exhausted st; pending := pending st; retired := r;
       used := used st; held := held st; dropped := dropped st; blk := blk st; phase := p; asked := asked st; nexts := nexts st; delivered := delivered st |}.
Proof.
  intros (S & Q & M) Er Hf Ep.
  assert (Sub : forall j, In j r -> In j (retired st)) by (rewrite Er; intros; right; auto).
  same.
  2:{ intros j [H|H]; auto. }
  destruct Q.
  assert (Len : List.length (retired st) = Datatypes.S (List.length r)) by (rewrite Er; reflexivity).
  constructor; unfold popped in *; fields; auto.
  - destruct Q_retired as (q & Q1 & Q2 & Q3). rewrite Er in Q2.
    destruct (List.length (used st) - q)%nat as [|n] eqn:En; cbn [seq] in Q2; [discriminate|]. injection Q2 as -> ->.
    exists (Datatypes.S q). split; [lia|]. split; [f_equal; lia|].
    intros j Hj. destruct (Nat.eq_dec j q) as [->|]; auto. apply Q3. lia.
  - destruct Ep as [[Ep ->]|[Ep ->]]; rewrite Ep in *; auto.
  - destruct Ep as [[Ep ->]|[Ep ->]]; rewrite Ep in *; lia.
  - destruct Ep as [[Ep ->]|[Ep ->]]; rewrite Ep in *; discriminate.
  - destruct Ep as [[Ep ->]|[Ep ->]]; rewrite Ep in *; auto.
  - destruct Ep as [[Ep ->]|[Ep ->]]; rewrite Ep in *; auto.
  - destruct Ep as [[Ep ->]|[Ep ->]]; rewrite Ep in *; auto.
  - destruct Ep as [[Ep ->]|[Ep ->]]; rewrite Ep in *; nx.
  - destruct Ep as [[Ep ->]|[Ep ->]]; rewrite Ep in *; discriminate.
Qed.
Lemma inv_keep st : inv st -> phase st = PRelease -> inv (set_phase st PSync).
Proof.
  intros (S & Q & M) Ep. same. destruct Q. constructor; unfold popped in *; fields; rewrite Ep in *; auto; try discriminate; try nx.
Qed.
Lemma inv_nosync st : inv st -> phase st = PSync -> (List.length (retired st) < P + 1)%nat -> inv (set_phase st PPop).
Proof.
  intros (S & Q & M) Ep Hl. same. destruct Q. constructor; unfold popped in *; fields; rewrite Ep in *; auto; try discriminate; try nx. lia.
Qed.
Lemma inv_next st : inv st -> phase st = PUser -> inv
    {| pd := pd st; src := src st; taken := taken st; exhausted := exhausted st; pending := pending st; retired := retired st;
       used := used st; held := held st; dropped := dropped st; blk := blk st; phase := PHead; asked := S (asked st); nexts := nexts st; delivered := delivered st |}.
Proof.
  intros (S & Q & M) Ep. same. destruct Q. constructor; unfold popped in *; fields; rewrite Ep in *; auto; try discriminate; try nx.
Qed.
Lemma inv_close st : inv st -> phase st = PUser -> inv (set_phase st (PClosing (Some false))).
Proof.
  intros (S & Q & M) Ep. same. destruct Q. constructor; unfold popped in *; fields; rewrite Ep in *; auto; try discriminate; try nx.
Qed.
Lemma inv_end st why : inv st -> phase st = PClosing why -> copyq (pd st) = [] -> inv (set_phase st (PEnd why)).
Proof.
  intros (S & Q & M) Ep Hc. same. destruct Q. constructor; unfold popped in *; fields; rewrite Ep in *; auto; try discriminate; try nx.
  destruct Q_nexts as [H|(H & H1 & [H2|[H2|H2]])]; try discriminate; auto. right. injection H2 as ->. auto 6.
Qed.

(** *** Work for the compute stream *)
Lemma inv_pop st k r : inv st -> phase st = PPop -> pending st = k :: r -> inv
    {| pd := enq_comp (pd st) [WaitE (CopyEnd k)];
       src := src st; taken := taken st; exhausted := exhausted st; pending := r; retired := retired st ++ [k];
       used := used st ++ [k]; held := held st ++ [k]; dropped := dropped st; blk := blk st; phase := PFill (Some k);
       asked := asked st; nexts := nexts st; delivered := delivered st |}.
Proof.
  intros (S & Q & M) Ep Er. destruct Q. unfold popped in *. rewrite Ep in *. rewrite Er in Q_pending.
  destruct (List.length (taken st) - List.length (used st))%nat as [|n] eqn:En; cbn [seq] in Q_pending; [discriminate|].
  injection Q_pending as Ek Err.
  split; [|split].
  - eapply streams_comp; [..|exact S| |]; fields; auto. intros o [<-|[]]. lia.
  - constructor; unfold popped in *; fields; rewrite ?app_length in *; cbn [List.length] in *; auto; try discriminate; try nx.
    + lia.
    + rewrite Err. f_equal; lia.
    + rewrite Nat.add_1_r, seq_S, <- Q_used, Ek. reflexivity.
    + destruct Q_retired as (q & Q1 & Q2 & Q3). exists q. split; [lia|]. split; [|exact Q3].
      replace (List.length (used st) + 1 - q)%nat with (Datatypes.S (List.length (used st) - q)) by lia.
      rewrite seq_S, <- Q2. do 2 f_equal. lia.
    + intros j. rewrite in_app_iff. cbn [In]. specialize (Q_held j). split; [|].
      * intros Hj. destruct (Nat.eq_dec j k); [auto|]. destruct Q_held as [X _]. destruct X; auto. lia.
      * intros [[H|[<-|[]]]|H]; [|lia|]; destruct Q_held as [_ X]; [specialize (X (or_introl H))|specialize (X (or_intror H))]; lia.
    + assert (Nk : ~ In k (held st ++ dropped st)).
      { rewrite in_app_iff. intros H. apply Q_held in H. lia. }
      rewrite <- app_assoc. apply NoDup_Add with (a := k) (l := held st ++ dropped st); [apply Add_app|auto].
    + lia.
    + intros j Hj. rewrite app_assoc, in_app_iff. destruct (Nat.eq_dec j k) as [->|]; [right; left; reflexivity|].
      left. apply Q_waits. lia.
    + rewrite Er in Q_bound. cbn in Q_bound. lia.
    + lia.
  - eapply memory_comp; [..|exact M]; fields; auto. intros j. rewrite Er, in_app_iff. cbn [In]. tauto.
Qed.
Lemma inv_launch st k i : inv st -> phase st = PUser -> In k (held st) -> In k (delivered st) -> (i < width st k)%nat -> inv
    {| pd := enq_comp (pd st) [Read (k, i) (blk st (k, i))];
       src := src st; taken := taken st; exhausted := exhausted st; pending := pending st; retired := retired st;
       used := used st; held := held st; dropped := dropped st; blk := blk st; phase := phase st; asked := asked st; nexts := nexts st; delivered := delivered st |}.
Proof.
  intros (S & Q & M) Ep Hh Hd Hi.
  assert (Kp : (k < popped st)%nat) by (apply (Q_held Q); auto).
  split; [|split].
  - eapply streams_comp; [..|exact S| |]; fields; auto. intros o [<-|[]]. cbn [fst snd]. pose proof (Q_popped Q) as Hpo.
    split; [reflexivity|]. split; [lia|]. split; [exact Hi|]. split; [apply (Q_waits Q); exact Kp|].
    intros H. apply (S_comp S) in H. pose proof (Q_distinct Q) as ND.
    apply in_split in Hh. destruct Hh as (l1 & l2 & Eh). rewrite Eh, <- app_assoc in ND. apply NoDup_remove_2 in ND.
    apply ND. rewrite !in_app_iff. auto.
  - destruct Q. constructor; unfold popped in *; fields; auto.
    + intros j Hj. rewrite app_assoc, in_app_iff. left. auto.
  - eapply memory_comp; [..|exact M]; fields; auto.
Qed.
Lemma inv_drop st k l1 l2 : inv st -> phase st = PUser -> held st = l1 ++ k :: l2 -> inv
    {| pd := enq_comp (pd st) (if existsb (Nat.eqb k) (used st) then [Rec (Freed k)] else []);
       src := src st; taken := taken st; exhausted := exhausted st; pending := pending st; retired := retired st;
       used := used st; held := l1 ++ l2; dropped := dropped st ++ [k]; blk := blk st; phase := phase st; asked := asked st; nexts := nexts st; delivered := delivered st |}.
Proof.
  intros (S & Q & M) Ep Eh.
  split; [|split].
  - eapply streams_comp; [..|exact S| |]; fields; auto.
    + intros j H. apply in_or_app. auto.
    + intros o H. destruct (existsb (Nat.eqb k) (used st)); [|destruct H]. destruct H as [<-|[]]. apply in_or_app. right. left. reflexivity.
    + destruct (existsb (Nat.eqb k) (used st)); cbn; lia.
  - destruct Q. constructor; unfold popped in *; fields; auto.
    + intros j. rewrite (Q_held j), Eh, !in_app_iff. cbn [In]. tauto.
    + rewrite Eh, <- app_assoc in Q_distinct. cbn [app] in Q_distinct.
      eapply Permutation.Permutation_NoDup; [|exact Q_distinct].
      rewrite <- app_assoc. apply Permutation.Permutation_app_head. 
      rewrite app_comm_cons. rewrite app_assoc. apply Permutation.Permutation_cons_append.
    + intros j Hj. rewrite app_assoc, in_app_iff. left. auto.
  - eapply memory_comp; [..|exact M]; fields; auto.
Qed.

(** *** Host memory *)
Lemma inv_scribble st k i v : inv st -> (k < List.length (taken st))%nat -> ~ In k (pending st) -> ~ In k (retired st) -> inv
    {| pd := with_host (pd st) (set_buffer (host (pd st)) (k, i) v);
       src := src st; taken := taken st; exhausted := exhausted st; pending := pending st; retired := retired st;
       used := used st; held := held st; dropped := dropped st; blk := blk st; phase := phase st; asked := asked st; nexts := nexts st; delivered := delivered st |}.
Proof.
  intros (S & Q & M) Hk Np Nr. split; [|split].
  - destruct S. constructor; unfold width in *; fields; auto.
  - destruct Q. constructor; unfold popped in *; fields; auto.
  - destruct M. constructor; unfold width in *; fields; auto.
    intros j i' w Hj Hc. unfold set_buffer, buffer_eqb. cbn [fst snd].
    destruct (Nat.eqb_spec j k) as [->|]; [tauto|]. cbn [andb]. apply M_host; auto.
Qed.

(** *** A batch is copied *)
Lemma width_old (st st' : pstate V) b k : taken st' = taken st ++ [b] -> (k < List.length (taken st))%nat -> width st' k = width st k.
Proof. intros E H. unfold width. rewrite E, nth_error_app1 by exact H. reflexivity. Qed.
Lemma width_new (st st' : pstate V) b : taken st' = taken st ++ [b] -> width st' (List.length (taken st)) = List.length (hb_tensors b).
Proof. intros E. unfold width. rewrite E, nth_error_app2 by lia. rewrite Nat.sub_diag. reflexivity. Qed.

Lemma copies_sorted k n bl a h l c h' l' : copies k n bl = a ++ Copy h l :: c -> In (Copy h' l') c -> lex h h'.
Proof.
  unfold copies. intros E H. destruct (map_split E) as (a1 & x & c1 & E1 & _ & Ex & Ec). injection Ex as -> _.
  unfold buffers in E1. destruct (map_split E1) as (a2 & y & c2 & E2 & _ & <- & Ec2).
  destruct (seq_split_lt E2) as [L _]. rewrite <- Ec, <- Ec2, map_map in H. apply in_map_iff in H.
  destruct H as (z & Ez & Hz). injection Ez as <- _. right. cbn. split; [reflexivity|]. auto.
Qed.
Lemma copies_sorted2 k n bl a h l c h' l' e : copies k n bl ++ [Rec e] = a ++ Copy h l :: c -> In (Copy h' l') c -> lex h h'.
Proof.
  intros E H. destruct (split_app E) as [(c' & E1 & ->)|(a' & -> & E1)].
  - apply in_app_iff in H. destruct H as [H|[H|[]]]; [|discriminate]. eapply copies_sorted; eauto.
  - destruct a' as [|? [|? ?]]; cbn in E1; discriminate.
Qed.

Lemma inv_enqueue st what b rest bl : inv st -> phase st = PFill what -> more P st = true -> src st = b :: rest ->
    let k := List.length (taken st) in
    let n := List.length (hb_tensors b) in
    (forall g, fst g <> k -> bl g = blk st g) ->
    NoDup (map bl (buffers k n)) -> (forall i, (i < n)%nat -> available st (bl (k, i))) -> inv
    {| pd := enq_copy (with_host (pd st) (host_of (host (pd st)) k (hb_tensors b))) (copies k n bl ++ [Rec (CopyEnd k)]);
       src := rest; taken := taken st ++ [b]; exhausted := hb_terminal b; pending := pending st ++ [k]; retired := retired st;
       used := used st; held := held st; dropped := dropped st; blk := bl; phase := PFill what; asked := asked st; nexts := S (nexts st); delivered := delivered st |}.
Proof.
  intros (S & Q & M) Ep Hm Es k n Hbl Hnd Hav.
  destruct (more_true Hm) as [Hlen Hex].
  set (st' := Build_pstate _ _ _ _ _ _ _ _ _ _ _ _ _ _).
  assert (Et : taken st' = taken st ++ [b]) by reflexivity.
  assert (Lt : List.length (taken st') = Datatypes.S k) by (rewrite Et, app_length; cbn; lia).
  assert (Wo : forall j, (j < k)%nat -> width st' j = width st j) by (intros; eapply width_old; eauto).
  assert (Wn : width st' k = n) by (eapply width_new; eauto).
  assert (Bo : forall j i, (j < k)%nat -> blk st' (j, i) = blk st (j, i)) by (intros; apply Hbl; cbn; lia).
  assert (Eh : copy_done (pd st') ++ copyq (pd st') = (copy_done (pd st) ++ copyq (pd st)) ++ (copies k n bl ++ [Rec (CopyEnd k)])).
  { cbn. rewrite app_assoc. reflexivity. }
  assert (Ec : comp_done (pd st') ++ compq (pd st') = comp_done (pd st) ++ compq (pd st)) by reflexivity.
  assert (Pk : (popped st <= k)%nat) by apply (Q_popped Q).
  split; [|split].
  - constructor; rewrite ?Eh, ?Ec, ?Lt.
    + intros o Ho. rewrite !in_app_iff in Ho. destruct Ho as [Ho|[Ho|[<-|[]]]].
      * rewrite <- in_app_iff in Ho. destruct (S_ops S Ho) as [(j & i & -> & Hj & Hi)|(j & -> & Hj)].
        -- left. exists j, i. fold k in Hj. rewrite Bo, Wo by exact Hj. auto.
        -- right. exists j. split; [reflexivity|]. unfold k. lia.
      * apply in_copies in Ho. destruct Ho as (i & Hi & ->). left. exists k, i. rewrite Wn. split; [reflexivity|]. split; [lia|exact Hi].
      * right. exists k. split; [reflexivity|lia].
    + intros j Hj. rewrite in_app_iff. destruct (Nat.eq_dec j k) as [->|].
      * right. apply in_or_app. right. left. reflexivity.
      * left. apply (S_rec S). fold k. lia.
    + intros a h l c h' l' E H. destruct (split_app E) as [(c' & E1 & ->)|(a' & -> & E1)].
      * apply in_app_iff in H. destruct H as [H|H]; [exact (S_sorted S E1 H)|].
        assert (Hh : In (Copy h l) (copy_done (pd st) ++ copyq (pd st))) by (rewrite E1; apply in_or_app; right; left; reflexivity).
        destruct (S_ops S Hh) as [(j & i & Ej & Hj & Hi)|(j & Ej & Hj)]; [|discriminate]. injection Ej as -> _.
        rewrite in_app_iff, in_copies in H. destruct H as [(i' & Hi' & E')|[E'|[]]]; [|discriminate]. injection E' as -> _.
        left. cbn. exact Hj.
      * eapply copies_sorted2; eauto.
    + intros a j c E. destruct (split_app E) as [(c' & E1 & ->)|(a' & -> & E1)].
      * assert (Hh : In (Rec (CopyEnd j)) (copy_done (pd st) ++ copyq (pd st))) by (rewrite E1; apply in_or_app; right; left; reflexivity).
        destruct (S_ops S Hh) as [(? & ? & Ej & _)|(j' & Ej & Hj)]; [discriminate|]. injection Ej as <-. fold k in Hj.
        destruct (S_before S E1) as (H1 & H2 & H3). rewrite Wo by exact Hj. split; [|split].
        -- intros i Hi. rewrite Bo by exact Hj. auto.
        -- intros i l. rewrite !in_app_iff, in_copies. intros [H|[(i' & _ & H)|[H|[]]]]; [exact (H2 i l H)| |discriminate].
           injection H as H _. lia.
        -- rewrite !in_app_iff, in_copies. intros [H|[(i' & _ & H)|[H|[]]]]; [exact (H3 H)|discriminate|]. injection H as H. lia.
      * destruct (split_app E1) as [(c' & E2 & ->)|(a2 & -> & E2)].
        { exfalso. assert (H : In (Rec (CopyEnd j)) (copies k n bl)) by (rewrite E2; apply in_or_app; right; left; reflexivity).
          apply in_copies in H. destruct H as (? & _ & H). discriminate. }
        destruct a2 as [|? [|? ?]]; cbn in E2; try discriminate. injection E2 as <- <-. rewrite Wn, app_nil_r. split; [|split].
        -- intros i Hi. apply in_or_app. right. apply in_copies. exists i. auto.
        -- intros i l [].
        -- intros [].
    + intros o Ho. specialize (S_comp S Ho). destruct o as [|h l|[|]|[|]]; auto.
      * fold k. intros (-> & H1 & H2). rewrite Wo by exact H1. destruct h as [j i]. cbn [fst] in H1. rewrite Bo by exact H1. split; [reflexivity|]. split; [cbn; lia|exact H2].
    + exact (@S_read _ _ S).
    + exact (@S_waited _ _ S).
  - destruct Q. subst st'. constructor; unfold popped in *; fields; rewrite Ep in *; rewrite ?app_length in *; cbn [List.length]; auto.
    + rewrite <- app_assoc. cbn [app]. congruence.
    + lia.
    + fold k. replace (k + 1 - List.length (used st))%nat with (Datatypes.S (k - List.length (used st))) by lia.
      rewrite seq_S. fold k in Q_pending. rewrite <- Q_pending. do 2 f_equal. lia.
    + lia.
    + discriminate.
    + intros Hb x Hx. apply in_app_iff in Hx. destruct Hx as [Hx|[<-|[]]]; auto.
    + intros a x c Ex Nc. destruct (split_app Ex) as [(c' & E1 & ->)|(a' & -> & E1)].
      * apply Q_open; auto. rewrite E1. apply in_or_app. right. left. reflexivity.
      * destruct a' as [|? [|? ?]]; cbn in E1; try discriminate. injection E1 as <- <-. congruence.
    + intros Hb. right. exists (taken st), b. auto.
    + left. destruct Q_nexts as [E|(E & _ & [H|[H|H]])]; [rewrite E, Nat.add_1_r; reflexivity|congruence..].
    + discriminate.
  - constructor; rewrite ?Lt.
    + intros j i i' Hj Hi Hi' E. destruct (Nat.eq_dec j k) as [->|].
      * rewrite Wn in Hi, Hi'. subst st'. cbn [blk] in E. unfold buffers in Hnd. rewrite map_map in Hnd.
        assert (Inj := Hnd). rewrite (NoDup_nth _ (bl (k, 0%nat))) in Inj. rewrite map_length, seq_length in Inj.
        specialize (Inj i i' Hi Hi').
        assert (X : forall q, (q < n)%nat -> nth q (map (fun x => bl (k, x)) (seq 0 n)) (bl (k, 0%nat)) = bl (k, q)).
        { intros q Hq. rewrite (map_nth (fun x => bl (k, x)) (seq 0 n) 0%nat q), seq_nth by exact Hq. reflexivity. }
        rewrite !X in Inj by assumption. exact (Inj E).
      * assert (Hj2 : (j < k)%nat) by lia. rewrite Wo in Hi, Hi' by exact Hj2. rewrite !Bo in E by exact Hj2. exact (M_blocks M Hj2 Hi Hi' E).
    + intros j q i i' Hj Hi Hi' E. cbn [pd enq_copy with_host comp_done]. destruct (Nat.eq_dec q k) as [->|].
      * rewrite Wo in Hi by lia. rewrite Wn in Hi'. rewrite Bo in E by lia. cbn [blk st'] in E.
        destruct (Hav i' Hi' j i) as [D1 D2]; [fold k; lia|exact Hi|exact E|].
        apply (fired_freed j S). apply D2. rewrite (Q_used Q). apply in_seq. split; [lia|]. apply (Q_held Q). auto.
      * rewrite Wo in Hi, Hi' by lia. rewrite !Bo in E by lia. eapply (M_reuse M (j:=j) (k:=q)); eauto. fold k. lia.
    + intros j i v Hj Hc. cbn [pd st' enq_copy with_host host]. unfold host_of. cbn [fst snd].
      unfold content in Hc. cbn [fst snd] in Hc.
      destruct (Nat.eqb_spec j k) as [->|Nj].
      * rewrite Et, nth_error_app2 in Hc by (unfold k; lia). unfold k in Hc. rewrite Nat.sub_diag in Hc. cbn [nth_error] in Hc.
        apply nth_error_nth. exact Hc.
      * cbn [pending retired st'] in Hj. rewrite in_app_iff in Hj. cbn [In] in Hj.
        assert (Hj2 : In j (pending st) \/ In j (retired st)) by (destruct Hj as [[H|[H|[]]]|H]; auto; congruence).
        apply (M_host M Hj2). unfold content. cbn [fst snd]. 
        assert (Hjk : (j < k)%nat).
        { destruct Hj2 as [H|H]; [rewrite (Q_pending Q) in H; apply in_seq in H; fold k in H; lia|].
          destruct (Q_retired Q) as (q & _ & Eq & _). rewrite Eq in H. apply in_seq in H. lia. }
        rewrite Et, nth_error_app1 in Hc by exact Hjk. exact Hc.
    + intros a h l c v E Hl Hv. cbn [pd st' enq_copy with_host copy_done mem] in *.
      eapply (M_mem M); eauto.
      assert (Hh : In (Copy h l) (copy_done (pd st) ++ copyq (pd st))) by (rewrite E; apply in_or_app; left; apply in_or_app; right; left; reflexivity).
      destruct (S_ops S Hh) as [(j & i & Ej & Hj & Hi)|(j & Ej & Hj)]; [|discriminate]. injection Ej as -> _.
      unfold content in *. cbn [fst] in *. rewrite Et, nth_error_app1 in Hv by exact Hj. exact Hv.
    + intros h v Hr. rewrite Et. apply content_app. exact (M_reads M Hr).
Qed.

Theorem inv_step st st' : inv st -> pstep P st st' -> inv st'.
Proof.
  intros I H. destruct H.
  - apply (@inv_device st d); auto.
  - apply inv_enqueue with (rest := rest); auto.
  - apply inv_exhaust; auto.
  - eapply inv_raise; eauto.
  - apply inv_start; auto.
  - apply inv_yield; auto.
  - apply inv_loop; auto.
  - apply inv_finish; auto.
  - eapply inv_release; eauto.
  - apply inv_keep; auto.
  - eapply inv_release; eauto.
  - apply inv_nosync; auto.
  - apply inv_pop; auto.
  - apply inv_launch; auto.
  - apply inv_drop; auto.
  - apply inv_next; auto.
  - apply inv_close; auto.
  - apply inv_end; auto.
  - apply inv_scribble; auto.
Qed.
Theorem inv_reach m0 h0 b0 st : preach P m0 h0 b0 source st -> inv st.
Proof. induction 1; [apply inv_init|eapply inv_step; eauto]. Qed.
End Inv.
