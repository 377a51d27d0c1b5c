(** The composite source serves exactly the mixed stream of its children. *)
From Verif Require Import Base BaseFacts Rng Source Composite CompositeSpec WeightedFacts CompositeFacts.
Set Implicit Arguments.

Lemma py_get_lt A (l : list A) i d : (i < List.length l)%nat -> py_get l i = Ok (nth i l d).
Proof. intros H. unfold py_get. rewrite (nth_error_nth' l d H). reflexivity. Qed.
Lemma py_set_lt A (l : list A) i x : (i < List.length l)%nat -> py_set l i x = Ok (upd l i x).
Proof. intros H. unfold py_set. replace (i <? List.length l)%nat with true by lia. reflexivity. Qed.

Lemma mapM_app A B (f : A -> res B) l m : mapM f (l ++ m) =
  (a <- mapM f l ;; b <- mapM f m ;; Ok (a ++ b)).
Proof.
  induction l as [|x l IH]; cbn [mapM app bind].
  - destruct (mapM f m); reflexivity.
  - destruct (f x); cbn [bind]; auto. rewrite IH. destruct (mapM f l); cbn [bind]; auto.
    destruct (mapM f m); reflexivity.
Qed.

Lemma skipn_nth A (l : list A) p x d : nth_error l p = Some x -> skipn p l = x :: skipn (S p) l /\ nth p l d = x.
Proof.
  revert p; induction l as [|a l IH]; intros [|p] H; cbn in *; try discriminate.
  - inversion H; auto.
  - apply IH; auto.
Qed.

Lemma upd_same A (d : A) l : forall i, upd l i (nth i l d) = l.
Proof. induction l as [|a l IH]; intros [|i]; cbn; auto. f_equal. auto. Qed.

Section Sim.
  Variables C P : Type.
  Variable comp : composite C P.
  Variable R : nat -> C -> list (envelope P) -> Prop.
  Notation n := (List.length (children comp)).
  Notation E := (envelope P).

  Hypothesis Hserves : forall i src, nth_error (children comp) i = Some src -> serves src (R i).
  Hypothesis Hn : (0 < n)%nat.
  Hypothesis Hwl : List.length (cw comp) = n.
  Hypothesis Hpos : Forall (fun w => 0 < w) (cw comp).
  Hypothesis Hcnt : counted (cw comp) (schedule comp).
  Hypothesis Hsched : Forall (fun i => i < n)%nat (schedule comp).

  Hypothesis Hshapes : List.length (child_shapes comp) = n.

  Definition wrap2 (p : nat * E) := wrap comp (fst p) (snd p).
  Definition known (rems : list (list E)) :=
    forall i e, In e (nth i rems []) -> exists w, wrap comp i e = Ok w.

  (** Children's cursors and exhaustion flags agree with the remaining records. *)
  Record SI (st : cstate C) (rems : list (list E)) : Prop := {
    si_c : List.length (fst st) = n;
    si_e : List.length (snd st) = n;
    si_r : List.length rems = n;
    si_R : forall i c, nth_error (fst st) i = Some c -> R i c (nth i rems []);
    si_x : forall i, nth i (snd st) false = true -> nth i rems [] = []
  }.

  Lemma known_upd rems i r : known rems -> (i < List.length rems)%nat ->
    (forall e, In e r -> In e (nth i rems [])) -> known (upd rems i r).
  Proof.
    intros Hk Hi Hr j e. rewrite nth_upd_list by auto. destruct (Nat.eqb_spec j i) as [->|]; auto.
  Qed.

  Lemma next_child_spec st rems i : SI st rems -> (i < n)%nat ->
    exists st', next_child comp st i = Ok (hd_error (nth i rems []), st')
                /\ SI st' (upd rems i (tl (nth i rems []))).
  Proof.
    intros HS Hi. unfold next_child.
    destruct (nth_error (children comp) i) as [src|] eqn:Es; [|apply nth_error_None in Es; lia].
    rewrite (proj2 (py_get_Ok _ _ _) Es). cbn [bind].
    destruct (nth_error (fst st) i) as [c|] eqn:Ec; [|apply nth_error_None in Ec; rewrite (si_c HS) in Ec; lia].
    rewrite (proj2 (py_get_Ok _ _ _) Ec). cbn [bind].
    destruct (serves_next (Hserves _ Es) _ _ (si_R HS _ Ec)) as [c' [En Rn]]. rewrite En. cbn [bind].
    rewrite py_set_lt by (rewrite (si_c HS); lia). cbn [bind].
    pose proof (si_c HS) as L1. pose proof (si_e HS) as L2. pose proof (si_r HS) as L3.
    assert (HR : forall ex, List.length ex = n ->
       (forall j, nth j ex false = true -> nth j (upd rems i (tl (nth i rems []))) [] = []) ->
       SI (upd (fst st) i c', ex) (upd rems i (tl (nth i rems [])))).
    { intros ex Le Hx. constructor; cbn [fst snd]; rewrite ?upd_length; auto.
      intros j cj. rewrite nth_error_upd, nth_upd_list by lia.
      destruct (Nat.eqb_spec j i) as [->|].
      - replace (i <? List.length (fst st))%nat with true by lia. intros Ej; inversion Ej; subst; auto.
      - intros Ej. apply (si_R HS); auto. }
    destruct (hd_error (nth i rems [])) as [x|] eqn:Eh.
    - exists (upd (fst st) i c', snd st). split; auto. apply HR; auto.
      intros j Hj. rewrite nth_upd_list by lia. pose proof (si_x HS _ Hj) as Hx.
      destruct (Nat.eqb_spec j i) as [->|]; [|auto]. rewrite Hx in Eh. discriminate.
    - rewrite py_set_lt by lia. cbn [bind]. eexists. split; [reflexivity|]. apply HR.
      + rewrite upd_length. auto.
      + intros j. rewrite !nth_upd_list by lia. destruct (Nat.eqb_spec j i) as [->|].
        * intros _. destruct (nth i rems []); [reflexivity|discriminate].
        * apply (si_x HS).
  Qed.

  Lemma many_loop_spec (src : source C P) Ri limit : serves src Ri -> forall fuel c l acc,
    Ri c l -> (List.length acc <= limit)%nat -> (limit - List.length acc <= fuel)%nat ->
    exists c' ended, many_loop fuel src c limit acc
                     = Ok (acc ++ firstn (limit - List.length acc) l, c', ended)
      /\ Ri c' (skipn (limit - List.length acc) l)
      /\ (ended = true -> skipn (limit - List.length acc) l = []).
  Proof.
    intros HS. induction fuel as [|fuel IH]; intros c l acc HR Ha Hf.
    - cbn [many_loop]. replace (List.length acc <? limit)%nat with false by lia.
      replace (limit - List.length acc)%nat with O by lia. cbn [firstn skipn]. rewrite app_nil_r.
      exists c, false. conj; auto. discriminate.
    - cbn [many_loop]. destruct (Nat.ltb_spec (List.length acc) limit) as [H|H].
      2:{ replace (limit - List.length acc)%nat with O by lia. cbn [firstn skipn]. rewrite app_nil_r.
          exists c, false. conj; auto. discriminate. }
      destruct (s_many src) as [f|] eqn:Em.
      + destruct (@serves_many _ _ _ _ HS f c l (limit - List.length acc)%nat Em HR) as [chunk [rest [c' [E1 [E2 [HR' [Hl He]]]]]]]; [lia|].
        rewrite E1. cbn [bind]. destruct chunk as [|x chunk].
        * rewrite He in * by auto. symmetry in E2. apply app_eq_nil in E2 as [_ E2]. subst.
          exists c', true. rewrite firstn_nil, skipn_nil, app_nil_r. auto.
        * destruct (IH c' rest (acc ++ x :: chunk) HR') as [c2 [ended [E3 [R3 H3]]]].
          { rewrite app_length. lia. } { rewrite app_length. cbn [List.length]. lia. }
          rewrite app_length in E3, R3, H3. exists c2, ended. rewrite E3. subst l.
          assert (Ef : (limit - List.length acc
                        = List.length (x :: chunk) + (limit - (List.length acc + List.length (x :: chunk))))%nat) by lia.
          rewrite Ef, firstn_app_2, skipn_app.
          rewrite skipn_all2 by lia. cbn [app].
          replace (List.length (x :: chunk) + (limit - (List.length acc + List.length (x :: chunk))) - List.length (x :: chunk))%nat
            with (limit - (List.length acc + List.length (x :: chunk)))%nat by lia.
          rewrite <- app_assoc. auto.
      + destruct (serves_next HS _ _ HR) as [c' [E1 HR']]. rewrite E1. cbn [bind].
        destruct l as [|x l]; cbn [hd_error tl] in *.
        * exists c', true. rewrite firstn_nil, skipn_nil, app_nil_r. auto.
        * destruct (IH c' l (acc ++ [x]) HR') as [c2 [ended [E3 [R3 H3]]]].
          { rewrite app_length. cbn. lia. } { rewrite app_length. cbn [List.length]. lia. }
          rewrite app_length in E3, R3, H3. cbn [List.length] in *.
          exists c2, ended. rewrite E3.
          replace (limit - List.length acc)%nat with (S (limit - (List.length acc + 1))) by lia.
          cbn [firstn skipn]. rewrite <- app_assoc. auto.
  Qed.

  Lemma next_child_many_spec st rems i limit : SI st rems -> (i < n)%nat ->
    exists st', next_child_many comp st i limit = Ok (firstn limit (nth i rems []), st')
                /\ SI st' (upd rems i (skipn limit (nth i rems []))).
  Proof.
    intros HS Hi. unfold next_child_many.
    pose proof (si_c HS) as L1. pose proof (si_e HS) as L2. pose proof (si_r HS) as L3.
    rewrite (@py_get_lt _ (snd st) i false) by lia. cbn [bind].
    destruct (nth i (snd st) false) eqn:Ex.
    - pose proof (si_x HS _ Ex) as Hx. rewrite Hx, firstn_nil, skipn_nil. exists st. split; auto.
      assert (Eu : upd rems i [] = rems).
      { rewrite <- (upd_same [] rems i) at 2. rewrite Hx. reflexivity. }
      rewrite Eu. auto.
    - destruct (nth_error (children comp) i) as [src|] eqn:Es; [|apply nth_error_None in Es; lia].
      rewrite (proj2 (py_get_Ok _ _ _) Es). cbn [bind].
      destruct (nth_error (fst st) i) as [c|] eqn:Ec; [|apply nth_error_None in Ec; lia].
      rewrite (proj2 (py_get_Ok _ _ _) Ec). cbn [bind].
      destruct (@many_loop_spec src (R i) limit (Hserves _ Es) limit c (nth i rems []) [])
        as [c' [ended [E1 [R1 H1]]]]; cbn [List.length]; try lia; [apply (si_R HS); auto|].
      cbn [List.length app] in *. rewrite Nat.sub_0_r in *. rewrite E1. cbn [bind].
      rewrite py_set_lt by lia. cbn [bind].
      assert (HR : forall ex, List.length ex = n ->
        (forall j, nth j ex false = true -> nth j (upd rems i (skipn limit (nth i rems []))) [] = []) ->
        SI (upd (fst st) i c', ex) (upd rems i (skipn limit (nth i rems [])))).
      { intros ex Le Hx. constructor; cbn [fst snd]; rewrite ?upd_length; auto.
        intros j cj. rewrite nth_error_upd, nth_upd_list by lia.
        destruct (Nat.eqb_spec j i) as [->|].
        - replace (i <? List.length (fst st))%nat with true by lia. intros Ej; inversion Ej; subst; auto.
        - intros Ej. apply (si_R HS); auto. }
      destruct ended.
      + rewrite py_set_lt by lia. cbn [bind]. eexists. split; [reflexivity|]. apply HR.
        * rewrite upd_length; auto.
        * intros j. rewrite !nth_upd_list by lia. destruct (Nat.eqb_spec j i) as [->|]; auto.
          apply (si_x HS).
      + cbn [bind]. eexists. split; [reflexivity|]. apply HR; auto.
        intros j Hj. rewrite nth_upd_list by lia. destruct (Nat.eqb_spec j i) as [->|]; [congruence|].
        apply (si_x HS); auto.
  Qed.

  Lemma gather_spec m ws : forall st rems i, SI st rems -> (i + List.length ws = n)%nat ->
    exists ess st' rems', gather comp st i ws m = Ok (ess, st') /\ SI st' rems'
      /\ List.length ess = List.length ws
      /\ (forall j w, nth_error ws j = Some w ->
            nth j ess [] = firstn (Z.to_nat w * m) (nth (i + j) rems [])
            /\ nth (i + j) rems' [] = skipn (Z.to_nat w * m) (nth (i + j) rems []))
      /\ (forall j, (j < i)%nat -> nth j rems' [] = nth j rems []).
  Proof.
    induction ws as [|w ws IH]; intros st rems i HS Hi; cbn [gather].
    - exists [], st, rems. conj; auto. intros [|j] w Hw; discriminate.
    - cbn [List.length] in Hi.
      destruct (@next_child_many_spec st rems i (Z.to_nat w * m) HS) as [st1 [E1 S1]]; [lia|].
      rewrite E1. cbn [bind].
      destruct (IH st1 _ (S i) S1) as [ess [st2 [rems2 [E2 [S2 [L2 [H2 H3]]]]]]]; [lia|].
      rewrite E2. cbn [bind]. pose proof (si_r HS) as L3.
      exists (firstn (Z.to_nat w * m) (nth i rems []) :: ess), st2, rems2.
      split; [reflexivity|]. split; [auto|]. split; [cbn; lia|]. split.
      + intros [|j] w' Hw'; cbn [nth_error nth] in *.
        * inversion Hw'; subst. rewrite Nat.add_0_r. split; auto.
          rewrite H3 by lia. rewrite nth_upd_list by lia. rewrite Nat.eqb_refl. auto.
        * destruct (H2 j w' Hw') as [G1 G2]. replace (i + S j)%nat with (S i + j)%nat by lia.
          rewrite G1, G2. rewrite nth_upd_list by lia.
          replace (S i + j =? i)%nat with false by lia. auto.
      + intros j Hj. rewrite H3 by lia. rewrite nth_upd_list by lia.
        replace (j =? i)%nat with false by lia. auto.
  Qed.

  (** Buffered dealing with positions = dealing from the suffixes. *)
  Definition suffixes (ess : list (list E)) (ps : list nat) : list (list E) :=
    map (fun i => skipn (nth i ps O) (nth i ess [])) (seq 0 (List.length ess)).

  Lemma suffixes_nth ess ps i : nth i (suffixes ess ps) [] = skipn (nth i ps O) (nth i ess []).
  Proof.
    unfold suffixes. destruct (Nat.ltb_spec i (List.length ess)) as [H|H].
    - set (f := fun i => skipn (nth i ps O) (nth i ess [])).
      rewrite (nth_indep _ [] (f O)) by (rewrite map_length, seq_length; auto).
      rewrite (map_nth f). rewrite seq_nth by auto. reflexivity.
    - rewrite (nth_overflow (map _ _)) by (rewrite map_length, seq_length; lia).
      rewrite (nth_overflow ess) by lia. rewrite skipn_nil. reflexivity.
  Qed.
  Lemma suffixes_length ess ps : List.length (suffixes ess ps) = List.length ess.
  Proof. unfold suffixes. rewrite map_length, seq_length. reflexivity. Qed.

  Lemma list_ext A (d : A) (a b : list A) : List.length a = List.length b ->
    (forall i, nth i a d = nth i b d) -> a = b.
  Proof. intros Hl H. apply nth_ext with (d := d) (d' := d); auto. Qed.

  Lemma deal_pass_spec sched : forall ess ps, Forall (fun i => i < n)%nat sched ->
    List.length ess = n -> List.length ps = n -> known ess ->
    exists ps' ws, deal_pass comp sched ess ps = Ok (ws, ps')
      /\ mapM wrap2 (fst (deal sched (suffixes ess ps))) = Ok ws
      /\ suffixes ess ps' = snd (deal sched (suffixes ess ps)) /\ List.length ps' = n.
  Proof.
    induction sched as [|c t IH]; intros ess ps Hs He Hp Hk; cbn [deal_pass deal].
    - exists ps, []. cbn. auto.
    - inversion Hs as [|? ? Hc Ht]; subst.
      rewrite (@py_get_lt _ ps c O) by lia. cbn [bind].
      rewrite (@py_get_lt _ ess c []) by lia. cbn [bind].
      rewrite suffixes_nth.
      destruct (nth_error (nth c ess []) (nth c ps O)) as [x|] eqn:Ex.
      + destruct (skipn_nth _ _ x Ex) as [Esk _]. rewrite Esk.
        destruct (Hk c x (nth_error_In _ _ Ex)) as [w Ew]. rewrite Ew. cbn [bind].
        rewrite py_set_lt by lia. cbn [bind].
        destruct (IH ess (upd ps c (S (nth c ps O))) Ht He) as [ps' [ws [E1 [E2 [E3 E4]]]]];
          [rewrite upd_length; auto|auto|].
        assert (Eu : suffixes ess (upd ps c (S (nth c ps O)))
                     = upd (suffixes ess ps) c (skipn (S (nth c ps O)) (nth c ess []))).
        { apply (@list_ext _ []); [rewrite upd_length, !suffixes_length; auto|]. intros i.
          rewrite nth_upd_list by (rewrite suffixes_length; lia).
          rewrite !suffixes_nth, nth_upd_list by lia. destruct (Nat.eqb_spec i c) as [->|]; auto. }
        rewrite Eu in *. rewrite E1. cbn [bind].
        destruct (deal t (upd (suffixes ess ps) c (skipn (S (nth c ps O)) (nth c ess [])))) as [o rs].
        cbn [fst snd] in *. exists ps', (w :: ws). conj; auto.
        cbn [mapM]. unfold wrap2 at 1. cbn [fst snd]. rewrite Ew. cbn [bind]. rewrite E2. reflexivity.
      + apply nth_error_None in Ex. rewrite skipn_all2 by lia.
        apply IH; auto.
  Qed.

  Lemma deal_passes_spec k : forall ess ps, List.length ess = n -> List.length ps = n -> known ess ->
    exists ws q, deal_passes comp k ess ps = Ok (ws, q)
      /\ mapM wrap2 (fst (rounds k (schedule comp) (suffixes ess ps))) = Ok ws /\ 0 <= q.
  Proof.
    induction k as [|k IH]; intros ess ps He Hp Hk; cbn [deal_passes rounds].
    - exists [], 0. conj; auto; lia.
    - destruct (@deal_pass_spec (schedule comp) ess ps Hsched He Hp Hk) as [ps' [ws [E1 [E2 [E3 E4]]]]].
      rewrite E1. cbn [bind]. destruct (IH ess ps' He E4 Hk) as [ws2 [q [E5 [E6 Hq6]]]].
      rewrite E5. cbn [bind].
      destruct (deal (schedule comp) (suffixes ess ps)) as [o rs]. cbn [fst snd] in *. subst rs.
      destruct (rounds k (schedule comp) (suffixes ess ps')) as [o2 rs2]. cbn [fst snd] in *.
      eexists _, _. split; [reflexivity|]. split; [rewrite mapM_app, E2; cbn [bind]; rewrite E6; reflexivity|].
      destruct ws; lia.
  Qed.

  Lemma min_complete_spec (ess : list (list E)) : forall ws, ws <> [] -> List.length ess = List.length ws ->
    Forall (fun w => 0 < w) ws ->
    exists q, min_complete ess ws = Some q /\ 0 <= q /\ Z.to_nat q = complete_cycles ws ess.
  Proof.
    induction ess as [|e ess IH]; intros [|w ws] Hne Hl Hw; cbn in Hl; try lia; try congruence.
    inversion Hw as [|? ? Hw1 Hw2]; subst. cbn [min_complete]. cbv zeta.
    assert (0 <= zlen e / w) by (apply Z.div_pos; [apply zlen_nonneg|lia]).
    destruct ws as [|w2 ws].
    - destruct ess; [|discriminate]. cbn [min_complete complete_cycles]. eexists; split; eauto.
    - destruct ess as [|e2 ess]; [discriminate|].
      destruct (IH (w2 :: ws)) as [q [Eq [Hq Hc]]]; auto; [congruence|].
      rewrite Eq. eexists. split; [reflexivity|]. split; [lia|].
      change (complete_cycles (w :: w2 :: ws) (e :: e2 :: ess))
        with (Nat.min (Z.to_nat (zlen e / w)) (complete_cycles (w2 :: ws) (e2 :: ess))). lia.
  Qed.

  Notation stream := (mixed_stream (sync_length comp) (cw comp) (schedule comp)).

  Lemma Hcov (rems : list (list E)) : List.length rems = n -> covers (schedule comp) (List.length rems).
  Proof. intros ->. rewrite <- Hwl. apply counted_covers; auto. Qed.
  Lemma Hwne : cw comp <> [].
  Proof. intros Ew. rewrite Ew in Hwl. cbn in Hwl. lia. Qed.

  Lemma Hw0 : exists w, nth_error (cw comp) 0 = Some w /\ 0 < w.
  Proof.
    destruct (nth_error (cw comp) 0) as [w|] eqn:Ew.
    - exists w. split; auto. rewrite Forall_forall in Hpos. apply Hpos. eapply nth_error_In; eauto.
    - apply nth_error_None in Ew. lia.
  Qed.

  Lemma known_incl rems rems' : known rems ->
    (forall i e, In e (nth i rems' []) -> In e (nth i rems [])) -> known rems'.
  Proof. intros Hk H i e He. apply Hk. auto. Qed.

  Lemma in_firstn A (l : list A) k x : In x (firstn k l) -> In x l.
  Proof. intros H. rewrite <- (firstn_skipn k l). apply in_or_app. auto. Qed.
  Lemma in_skipn A (l : list A) k x : In x (skipn k l) -> In x l.
  Proof. intros H. rewrite <- (firstn_skipn k l). apply in_or_app. auto. Qed.

  Lemma known_rounds k rems : List.length rems = n -> known rems ->
    known (snd (rounds k (schedule comp) rems)).
  Proof.
    intros Hl Hk. eapply known_incl; [exact Hk|]. intros i e.
    destruct (Nat.ltb_spec i (List.length rems)) as [Hi|Hi].
    - destruct (rounds_child (schedule comp) k rems Hi) as [_ ->]. apply in_skipn.
    - rewrite nth_overflow by (rewrite rounds_length; auto). intros [].
  Qed.

  Lemma stream_known rems : List.length rems = n -> known rems ->
    forall k, exists ws, mapM wrap2 (fst (rounds k (schedule comp) rems)) = Ok ws.
  Proof.
    intros Hl Hk k.
    assert (G : forall p, In p (fst (rounds k (schedule comp) rems)) -> exists w, wrap2 p = Ok w).
    { intros [i e] Hin.
      assert (Hi : In e (from_child i (fst (rounds k (schedule comp) rems)))).
      { unfold from_child. apply in_map_iff. exists (i, e). split; auto. apply filter_In. cbn.
        rewrite Nat.eqb_refl. auto. }
      destruct (Nat.ltb_spec i (List.length rems)) as [Hlt|Hge].
      - destruct (rounds_child (schedule comp) k rems Hlt) as [E1 _]. rewrite E1 in Hi.
        apply Hk. eapply in_firstn; eauto.
      - exfalso. clear Hi. revert Hin. generalize rems Hl Hge. clear - Hsched Hn.
        assert (D : forall sched rems, Forall (fun j => j < n)%nat sched -> List.length rems = n ->
                   (n <= i)%nat -> ~ In (i, e) (fst (deal sched rems))).
        { induction sched as [|c t IH]; intros rems Hf Hl Hge; cbn [deal]; [intros []|].
          inversion Hf as [|? ? Hc Ht]; subst.
          destruct (nth c rems []) as [|x r]; [apply IH; auto|].
          specialize (IH (upd rems c r) Ht). rewrite upd_length in IH. specialize (IH Hl Hge).
          destruct (deal t (upd rems c r)) as [o rs]. cbn in *. intros [Heq|Hin]; [inversion Heq; lia|auto]. }
        induction k as [|k IH]; intros rems Hl Hge; cbn [rounds]; [intros []|].
        pose proof (D (schedule comp) rems Hsched Hl ltac:(lia)) as Hd.
        pose proof (deal_length (schedule comp) rems) as Hdl.
        destruct (deal (schedule comp) rems) as [o rs]. cbn [fst snd] in *.
        specialize (IH rs ltac:(lia) ltac:(lia)). destruct (rounds k (schedule comp) rs) as [o2 rs2].
        cbn [fst] in *. rewrite in_app_iff. tauto. }
    revert G. generalize (fst (rounds k (schedule comp) rems)).
    induction l as [|p l IH]; intros G; cbn [mapM]; [eauto|].
    destruct (G p) as [w ->]; [cbn; auto|]. cbn [bind].
    destruct IH as [ws ->]; [intros q Hq; apply G; cbn; auto|]. cbn [bind]. eauto.
  Qed.

  (** Outcome of a fill from a clear cursor whose children hold [rems]. *)
  Definition fill_ok (cur : ccursor C P) (rems : list (list E)) (r : res (bool * ccursor C P)) : Prop :=
    (stream rems = [] /\ exists st rems', r = Ok (false, set_terminal (set_children cur st))
        /\ SI st rems')
    \/ (exists k st rems' ws q, (* k more cycles were buffered *)
          stream rems = fst (rounds k (schedule comp) rems) ++ stream rems'
          /\ mapM wrap2 (fst (rounds k (schedule comp) rems)) = Ok ws /\ ws <> []
          /\ SI st rems' /\ known rems' /\ 0 <= q
          /\ r = Ok (true, set_pending (set_children cur st) ws q)).

  Lemma ess_ext m (ess rems : list (list E)) k : List.length ess = n -> List.length rems = n -> (k <= m)%nat ->
    (forall j w, nth_error (cw comp) j = Some w ->
        nth j ess [] = firstn (Z.to_nat w * m) (nth j rems [])) ->
    fst (rounds k (schedule comp) ess) = fst (rounds k (schedule comp) rems).
  Proof.
    intros He Hr Hkm H. apply rounds_ext. split; [lia|]. intros i.
    destruct (nth_error (cw comp) i) as [w|] eqn:Ew.
    - pose proof (Hcnt i Ew) as Hc. specialize (H i w Ew). rewrite H.
      exists (skipn (Z.to_nat w * m) (nth i rems [])). split; [symmetry; apply firstn_skipn|].
      destruct (Nat.le_gt_cases (List.length (nth i rems [])) (Z.to_nat w * m)) as [Hle|Hgt].
      + left. apply skipn_all2. auto.
      + right. rewrite firstn_length. nia.
    - apply nth_error_None in Ew. exists []. rewrite !nth_overflow by lia. auto.
  Qed.

  Lemma fill_cycles_spec cur rems m : (0 < m)%nat ->
    SI (cc_children cur, cc_exhausted cur) rems -> known rems ->
    fill_ok cur rems (fill_cycles comp cur m).
  Proof.
    intros Hm HS Hk. unfold fill_ok, fill_cycles.
    destruct (@gather_spec m (cw comp) _ rems O HS) as [ess [st [rems' [E1 [S1 [L1 [H1 _]]]]]]]; [lia|].
    rewrite E1. cbn [bind]. cbv zeta. pose proof (si_r HS) as Lr. pose proof (si_r S1) as Lr'.
    assert (Hess : List.length ess = n) by lia.
    assert (Hke : known ess).
    { eapply known_incl; [exact Hk|]. intros i e.
      destruct (nth_error (cw comp) i) as [w|] eqn:Ew.
      - destruct (H1 i w Ew) as [-> _]. apply in_firstn.
      - apply nth_error_None in Ew. rewrite nth_overflow by lia. intros []. }
    assert (Hk' : known rems').
    { eapply known_incl; [exact Hk|]. intros i e.
      destruct (nth_error (cw comp) i) as [w|] eqn:Ew.
      - destruct (H1 i w Ew) as [_ H]. cbn in H. rewrite H. apply in_skipn.
      - apply nth_error_None in Ew. rewrite nth_overflow by lia. intros []. }
    assert (Hdeal : forall k, (k <= m)%nat -> exists ws q,
       deal_passes comp k ess (map (fun _ => O) (children comp)) = Ok (ws, q)
       /\ mapM wrap2 (fst (rounds k (schedule comp) rems)) = Ok ws /\ 0 <= q).
    { intros k Hkm. destruct (@deal_passes_spec k ess (map (fun _ => O) (children comp))) as [ws [q [E2 [E3 Hq3]]]]; auto.
      { apply map_length. }
      exists ws, q. split; auto. split; auto.
      assert (Es : suffixes ess (map (fun _ => O) (children comp)) = ess).
      { apply (@list_ext _ []); [apply suffixes_length|]. intros i. rewrite suffixes_nth.
        replace (nth i (map (fun _ => O) (children comp)) O) with O; auto.
        clear. generalize i. induction (children comp) as [|a l IH]; intros [|j]; cbn; auto. }
      rewrite Es in E3. rewrite (@ess_ext m ess rems k) in E3; auto.
      intros j w Ew. apply (H1 j w Ew). }
    assert (Hrems' : forall k, k = m -> rems' = snd (rounds k (schedule comp) rems)).
    { intros k ->. apply (@list_ext _ []); [rewrite rounds_length; lia|]. intros i.
      destruct (nth_error (cw comp) i) as [w|] eqn:Ew.
      - destruct (H1 i w Ew) as [_ H]. cbn in H. rewrite H.
        assert (Hi : (i < List.length rems)%nat) by (rewrite Lr, <- Hwl; apply nth_error_Some; congruence).
        destruct (rounds_child (schedule comp) m rems Hi) as [_ ->]. f_equal.
        pose proof (Hcnt i Ew). nia.
      - apply nth_error_None in Ew. rewrite !nth_overflow; auto; [rewrite rounds_length|]; lia. }
    destruct (sync_length comp) eqn:Esync.
    - destruct (@min_complete_spec ess (cw comp) Hwne ltac:(lia) Hpos) as [q [Eq [Hq Hc]]].
      rewrite Eq. cbn [bind].
      assert (Hcm : complete_cycles (cw comp) ess = Nat.min (complete_cycles (cw comp) rems) m).
      { assert (G : forall k, (k <= complete_cycles (cw comp) ess)%nat
                    <-> (k <= complete_cycles (cw comp) rems /\ k <= m)%nat).
        { intros k. rewrite !complete_cycles_ge by (auto using Hwne; lia). split.
          - intros H. split.
            + intros i w Ew. specialize (H i w Ew). destruct (H1 i w Ew) as [H2 _]. cbn in H2.
              rewrite H2, firstn_length in H. lia.
            + destruct Hw0 as [w0 [Ew0 Hw0p]].
              specialize (H 0%nat w0 Ew0). destruct (H1 0%nat w0 Ew0) as [H2 _]. cbn [Nat.add] in H2.
              rewrite H2, firstn_length in H. nia.
          - intros [H Hkm] i w Ew. specialize (H i w Ew). destruct (H1 i w Ew) as [H2 _]. cbn in H2.
            rewrite H2, firstn_length. nia. }
        pose proof (proj1 (G _) (le_n _)).
        pose proof (proj2 (G (Nat.min (complete_cycles (cw comp) rems) m)) ltac:(lia)). lia. }
      destruct (Z.eqb_spec q 0) as [->|Hq0].
      + left. split.
        * unfold mixed_stream. replace (complete_cycles (cw comp) rems) with O by lia. reflexivity.
        * exists st, rems'. split; [reflexivity|exact S1].
      + remember (Z.to_nat q) as k eqn:Hkq. assert (Hkpos : (0 < k)%nat) by lia. destruct (Hdeal k ltac:(lia)) as [ws [nq [E2 [E3 Hnq]]]].
        rewrite E2. cbn [bind].
        assert (Hws : ws <> []).
        { intros ->. apply mapM_Ok_length in E3. cbn in E3.
          destruct k as [|k']; [lia|]. cbn [rounds] in E3.
          destruct (fst (deal (schedule comp) rems)) as [|p o] eqn:Ed.
          - pose proof (deal_nil_all_empty _ (Hcov _ Lr) Ed) as Hem.
            assert (1 <= complete_cycles (cw comp) rems)%nat by lia.
            rewrite complete_cycles_ge in H by (auto using Hwne; lia).
            destruct Hw0 as [w0 [Ew0 Hw0p]].
            specialize (H 0%nat w0 Ew0). rewrite Hem in H. cbn [List.length] in H. lia.
          - destruct (deal (schedule comp) rems) as [o1 rs]. cbn [fst] in *. subst.
            destruct (rounds k' (schedule comp) rs). cbn in E3. lia. }
        right. exists k, st, rems', ws, nq. destruct ws as [|w0 wt]; [congruence|].
        conj; auto.
        rewrite (@mixed_sync_split _ (cw comp) (schedule comp) k rems) at 1 by (auto using Hwne; lia).
        f_equal. unfold mixed_stream.
        destruct (Nat.eq_dec k m) as [Hkm|Hkm]; [rewrite (Hrems' k Hkm); reflexivity|].
        assert (Z1 : complete_cycles (cw comp) rems' = O).
        { destruct (complete_cycles (cw comp) rems') as [|z] eqn:Ez; auto. exfalso.
          assert (HH : (1 <= complete_cycles (cw comp) rems')%nat) by lia.
          rewrite complete_cycles_ge in HH by (auto using Hwne; lia).
          assert (K2 : (S (complete_cycles (cw comp) rems) <= complete_cycles (cw comp) rems)%nat); [|lia].
          apply complete_cycles_ge; auto using Hwne; [lia|]. intros i w Ew.
          destruct (H1 i w Ew) as [_ H2]. cbn in H2. specialize (HH i w Ew). rewrite H2, skipn_length in HH.
          assert (complete_cycles (cw comp) rems < m)%nat by lia.
          assert (0 < w) by (rewrite Forall_forall in Hpos; apply Hpos; eapply nth_error_In; eauto). nia. }
        assert (Z2 : complete_cycles (cw comp) (snd (rounds k (schedule comp) rems)) = O).
        { destruct (complete_cycles (cw comp) (snd (rounds k (schedule comp) rems))) as [|z] eqn:Ez; auto. exfalso.
          assert (HH : (1 <= complete_cycles (cw comp) (snd (rounds k (schedule comp) rems)))%nat) by lia.
          rewrite complete_cycles_ge in HH by (auto using Hwne; rewrite rounds_length; lia).
          assert (K2 : (S k <= complete_cycles (cw comp) rems)%nat); [|lia].
          apply complete_cycles_ge; auto using Hwne; [lia|]. intros i w Ew.
          assert (Hi : (i < List.length rems)%nat) by (rewrite Lr, <- Hwl; apply nth_error_Some; congruence).
          specialize (HH i w Ew). destruct (rounds_child (schedule comp) k rems Hi) as [_ H2].
          rewrite H2, skipn_length in HH. pose proof (Hcnt i Ew).
          assert (0 < w) by (rewrite Forall_forall in Hpos; apply Hpos; eapply nth_error_In; eauto). nia. }
        rewrite Z1, Z2. reflexivity.
    - destruct (forallb (fun es => match es with [] => true | _ => false end) ess) eqn:Eall.
      + cbn [bind]. left. split.
        * assert (Hem : forall i, nth i rems [] = []).
          { intros i. destruct (nth_error (cw comp) i) as [w|] eqn:Ew.
            - destruct (H1 i w Ew) as [H2 _]. cbn in H2.
              assert (He : nth i ess [] = []).
              { destruct (Nat.ltb_spec i (List.length ess)) as [Hi|Hi]; [|apply nth_overflow; lia].
                rewrite forallb_forall in Eall. specialize (Eall _ (nth_In _ [] Hi)).
                destruct (nth i ess []); [auto|discriminate]. }
              rewrite He in H2. pose proof (Hcnt i Ew).
              assert (0 < w) by (rewrite Forall_forall in Hpos; apply Hpos; eapply nth_error_In; eauto).
              destruct (nth i rems []) as [|x r]; auto.
              destruct (Z.to_nat w * m)%nat eqn:Ez; [nia|discriminate].
            - apply nth_error_None in Ew. apply nth_overflow. lia. }
          unfold mixed_stream. rewrite rounds_empty by auto. reflexivity.
        * exists st, rems'. split; [reflexivity|exact S1].
      + cbn [bind]. destruct (Hdeal m ltac:(lia)) as [ws [nq [E2 [E3 Hnq]]]]. rewrite E2. cbn [bind].
        assert (Hws : ws <> []).
        { intros ->. apply mapM_Ok_length in E3. cbn in E3. destruct m as [|m']; [lia|]. cbn [rounds] in E3.
          destruct (fst (deal (schedule comp) rems)) as [|p o] eqn:Ed.
          - pose proof (deal_nil_all_empty _ (Hcov _ Lr) Ed) as Hem.
            assert (forallb (fun es : list E => match es with [] => true | _ => false end) ess = true); [|congruence].
            apply forallb_forall. intros es Hin. apply In_nth with (d := []) in Hin as [i [Hi <-]].
            destruct (nth_error (cw comp) i) as [w|] eqn:Ew.
            + destruct (H1 i w Ew) as [H2 _]. cbn in H2. rewrite H2, Hem, firstn_nil. auto.
            + apply nth_error_None in Ew. lia.
          - destruct (deal (schedule comp) rems) as [o1 rs]. cbn [fst] in *. subst.
            destruct (rounds m' (schedule comp) rs). cbn in E3. lia. }
        right. exists m, st, rems', ws, nq. destruct ws as [|w0 wt]; [congruence|].
        conj; auto. rewrite (Hrems' m eq_refl). apply mixed_free_split. apply Hcov; auto.
  Qed.

  Lemma SI_upd_tl_nil st rems c : SI st rems -> (c < n)%nat -> nth c rems [] = [] ->
    SI st (upd rems c (tl (nth c rems []))) -> SI st rems.
  Proof. auto. Qed.


  Lemma free_pass_spec sched : forall st rems, Forall (fun i => i < n)%nat sched -> SI st rems -> known rems ->
    exists st' ws, free_pass comp sched st = Ok (ws, st')
      /\ mapM wrap2 (fst (deal sched rems)) = Ok ws
      /\ SI st' (snd (deal sched rems)) /\ known (snd (deal sched rems)).
  Proof.
    induction sched as [|c t IH]; intros st rems Hs HS Hk; cbn [free_pass deal].
    - exists st, []. cbn. auto.
    - inversion Hs as [|? ? Hc Ht]; subst.
      rewrite (@py_get_lt _ (snd st) c false) by (rewrite (si_e HS); lia). cbn [bind].
      destruct (nth c (snd st) false) eqn:Ex.
      + rewrite (si_x HS _ Ex). apply IH; auto.
      + destruct (next_child_spec HS Hc) as [st1 [E1 S1]]. rewrite E1. cbn [bind].
        destruct (nth c rems []) as [|x r] eqn:Er; cbn [hd_error tl] in *.
        * rewrite <- Er in S1. rewrite upd_same in S1. apply IH; auto.
        * destruct (Hk c x) as [w Ew]; [rewrite Er; cbn; auto|]. rewrite Ew. cbn [bind].
          destruct (IH st1 (upd rems c r) Ht S1) as [st2 [ws [E2 [E3 [E4 E5]]]]].
          { apply known_upd; auto; [rewrite (si_r HS); auto|]. rewrite Er. cbn. auto. }
          rewrite E2. cbn [bind]. destruct (deal t (upd rems c r)) as [o rs]. cbn [fst snd] in *.
          exists st2, (w :: ws). conj; auto. cbn [mapM]. unfold wrap2 at 1. cbn [fst snd].
          rewrite Ew. cbn [bind]. rewrite E3. reflexivity.
  Qed.

  Lemma sync_pass_spec sched : forall st rems, Forall (fun i => i < n)%nat sched -> SI st rems -> known rems ->
    (forall i, (i < n)%nat -> (count sched i <= List.length (nth i rems []))%nat) ->
    exists st' ws, sync_pass comp sched st = Ok (Some ws, st')
      /\ mapM wrap2 (fst (deal sched rems)) = Ok ws
      /\ SI st' (snd (deal sched rems)) /\ known (snd (deal sched rems)).
  Proof.
    induction sched as [|c t IH]; intros st rems Hs HS Hk Hcn; cbn [sync_pass deal].
    - exists st, []. cbn. auto.
    - inversion Hs as [|? ? Hc Ht]; subst.
      destruct (next_child_spec HS Hc) as [st1 [E1 S1]]. rewrite E1. cbn [bind].
      destruct (nth c rems []) as [|x r] eqn:Er; cbn [hd_error tl] in *.
      + specialize (Hcn c Hc). cbn [count_occ] in Hcn. rewrite Er in Hcn. cbn in Hcn.
        destruct (Nat.eq_dec c c); [lia|congruence].
      + destruct (Hk c x) as [w Ew]; [rewrite Er; cbn; auto|]. rewrite Ew. cbn [bind].
        destruct (IH st1 (upd rems c r) Ht S1) as [st2 [ws [E2 [E3 [E4 E5]]]]].
        { apply known_upd; auto; [rewrite (si_r HS); auto|]. rewrite Er. cbn. auto. }
        { intros i Hi. specialize (Hcn i Hi). cbn [count_occ] in Hcn.
          rewrite nth_upd_list by (rewrite (si_r HS); auto).
          destruct (Nat.eqb_spec i c) as [Hic|Hic].
          - subst i. rewrite Er in Hcn. cbn [List.length] in Hcn. destruct (Nat.eq_dec c c); [lia|congruence].
          - destruct (Nat.eq_dec c i); [congruence|lia]. }
        rewrite E2. cbn [bind]. destruct (deal t (upd rems c r)) as [o rs]. cbn [fst snd] in *.
        exists st2, (w :: ws). conj; auto. cbn [mapM]. unfold wrap2 at 1. cbn [fst snd].
        rewrite Ew. cbn [bind]. rewrite E3. reflexivity.
  Qed.

  Lemma sync_pass_fail sched : forall st rems i, Forall (fun i => i < n)%nat sched -> SI st rems -> known rems ->
    (i < n)%nat -> (List.length (nth i rems []) < count sched i)%nat ->
    exists st' rems', sync_pass comp sched st = Ok (None, st') /\ SI st' rems'.
  Proof.
    induction sched as [|c t IH]; intros st rems i Hs HS Hk Hi Hlt; cbn [sync_pass]; [cbn in Hlt; lia|].
    inversion Hs as [|? ? Hc Ht]; subst.
    destruct (next_child_spec HS Hc) as [st1 [E1 S1]]. rewrite E1. cbn [bind].
    destruct (nth c rems []) as [|x r] eqn:Er; cbn [hd_error tl] in *.
    - eexists st1, _. split; [reflexivity|exact S1].
    - destruct (Hk c x) as [w Ew]; [rewrite Er; cbn; auto|]. rewrite Ew. cbn [bind].
      destruct (IH st1 (upd rems c r) i Ht S1) as [st2 [rems2 [E2 L2]]]; auto.
      { apply known_upd; auto; [rewrite (si_r HS); auto|]. rewrite Er. cbn. auto. }
      { cbn [count_occ] in Hlt. rewrite nth_upd_list by (rewrite (si_r HS); auto).
        destruct (Nat.eqb_spec i c) as [Hic|Hic].
        - subst i. rewrite Er in Hlt. cbn [List.length] in Hlt. destruct (Nat.eq_dec c c); [lia|congruence].
        - destruct (Nat.eq_dec c i); [congruence|lia]. }
      rewrite E2. cbn [bind]. eauto.
  Qed.

  Lemma fill_cycle_spec cur rems :
    SI (cc_children cur, cc_exhausted cur) rems -> known rems ->
    fill_ok cur rems (fill_cycle comp cur).
  Proof.
    intros HS Hk. unfold fill_ok, fill_cycle. pose proof (si_r HS) as Lr.
    assert (R1 : forall rs : list (list E), fst (rounds 1 (schedule comp) rs) = fst (deal (schedule comp) rs)
                         /\ snd (rounds 1 (schedule comp) rs) = snd (deal (schedule comp) rs)).
    { intros rs. cbn [rounds]. destruct (deal (schedule comp) rs). cbn. rewrite app_nil_r. auto. }
    destruct (R1 rems) as [R1a R1b].
    destruct (sync_length comp) eqn:Esync.
    - destruct (complete_cycles (cw comp) rems) as [|k] eqn:Ek.
      + assert (Hex : exists i, (i < n)%nat /\ (List.length (nth i rems []) < count (schedule comp) i)%nat).
        { assert (Hdec : forall m, (m <= n)%nat ->
            (exists i, (i < m)%nat /\ (List.length (nth i rems []) < count (schedule comp) i)%nat)
            \/ (forall i, (i < m)%nat -> (count (schedule comp) i <= List.length (nth i rems []))%nat)).
          { induction m as [|m IHm]; intros Hm; [right; intros; lia|].
            destruct IHm as [[i [H1 H2]]|H]; [lia|left; exists i; split; auto; lia|].
            destruct (Nat.ltb_spec (List.length (nth m rems [])) (count (schedule comp) m)).
            - left. exists m. split; auto; lia.
            - right. intros i Hi. destruct (Nat.eq_dec i m) as [->|]; [lia|apply H; lia]. }
          destruct (Hdec n (le_n _)) as [|H]; auto. exfalso.
          assert (1 <= complete_cycles (cw comp) rems)%nat; [|lia].
          apply complete_cycles_ge; auto using Hwne; [lia|]. intros i w Ew.
          assert (Hi : (i < n)%nat) by (rewrite <- Hwl; apply nth_error_Some; congruence).
          specialize (H i Hi). pose proof (Hcnt i Ew). lia. }
        destruct Hex as [i [Hi Hlt]].
        destruct (@sync_pass_fail (schedule comp) _ rems i Hsched HS Hk Hi Hlt) as [st [rems2 [E1 L1]]].
        rewrite E1. cbn [bind]. left. split.
        * unfold mixed_stream. rewrite Ek. reflexivity.
        * exists st, rems2. auto.
      + assert (Hall : forall i, (i < n)%nat -> (count (schedule comp) i <= List.length (nth i rems []))%nat).
        { intros i Hi. assert (Hc1 : (1 <= complete_cycles (cw comp) rems)%nat) by lia.
          rewrite complete_cycles_ge in Hc1 by (auto using Hwne; lia).
          destruct (nth_error (cw comp) i) as [w|] eqn:Ew; [|apply nth_error_None in Ew; lia].
          specialize (Hc1 i w Ew). pose proof (Hcnt i Ew). lia. }
        destruct (@sync_pass_spec (schedule comp) _ rems Hsched HS Hk Hall) as [st [ws [E1 [E2 [S2 K2]]]]].
        rewrite E1. cbn [bind]. right. exists 1%nat, st, (snd (deal (schedule comp) rems)), ws, 1.
        rewrite R1a, <- R1b. conj; auto; try lia.
        * rewrite <- R1a. apply mixed_sync_split; auto using Hwne; lia.
        * intros ->. apply mapM_Ok_length in E2. cbn in E2.
          destruct (fst (deal (schedule comp) rems)) eqn:Ed; [|cbn in E2; lia].
          pose proof (deal_nil_all_empty _ (Hcov _ Lr) Ed) as Hem.
          specialize (Hall O ltac:(lia)). rewrite Hem in Hall. cbn in Hall.
          pose proof (Hcov _ Lr) as Hcv. specialize (Hcv O ltac:(lia)). lia.
        * rewrite R1b. auto.
        * rewrite R1b. auto.
    - destruct (forallb (fun b : bool => b) (cc_exhausted cur)) eqn:Eall.
      + left. split.
        * assert (Hem : forall i, nth i rems [] = []).
          { intros i. destruct (Nat.ltb_spec i n) as [Hi|Hi]; [|apply nth_overflow; lia].
            apply (si_x HS). cbn [snd]. rewrite forallb_forall in Eall.
            apply Eall. apply nth_In. pose proof (si_e HS) as L. cbn in L. lia. }
          unfold mixed_stream. rewrite rounds_empty by auto. reflexivity.
        * exists (cc_children cur, cc_exhausted cur), rems. split; [destruct cur; reflexivity|exact HS].
      + destruct (@free_pass_spec (schedule comp) _ rems Hsched HS Hk) as [st [ws [E1 [E2 [S2 K2]]]]].
        rewrite E1. cbn [bind]. destruct ws as [|w0 wt].
        * left. split.
          -- apply mapM_Ok_length in E2. cbn in E2.
             destruct (fst (deal (schedule comp) rems)) eqn:Ed; [|cbn in E2; lia].
             pose proof (deal_nil_all_empty _ (Hcov _ Lr) Ed) as Hem.
             unfold mixed_stream. rewrite rounds_empty by auto. reflexivity.
          -- exists st, (snd (deal (schedule comp) rems)). split; [reflexivity|exact S2].
        * right. exists 1%nat, st, (snd (deal (schedule comp) rems)), (w0 :: wt), 1.
          rewrite R1a, <- R1b. conj; auto; try lia.
          -- rewrite <- R1a. apply mixed_free_split. apply Hcov; auto.
          -- discriminate.
          -- rewrite R1b; auto.
          -- rewrite R1b; auto.
  Qed.

  (** The cursor invariant: exactly [l] is still to come. *)
  Variable id0 : Z * Z * Z.
  Definition CR (cur : ccursor C P) (l : list (envelope (cpayload P))) : Prop :=
    (cc_id cur = id0 /\ 0 <= cc_cycle cur
     /\ Forall (fun e => cp_child (e_payload e) < n)%nat (cc_pending cur)) /\
    if cc_terminal cur then cc_pending cur = [] /\ l = []
      /\ exists rems, SI (cc_children cur, cc_exhausted cur) rems
    else exists rems ws, SI (cc_children cur, cc_exhausted cur) rems /\ known rems
           /\ mapM wrap2 (stream rems) = Ok ws /\ l = skipn (cc_pos cur) (cc_pending cur) ++ ws.

  Lemma wrap2_child l : forall ws, mapM wrap2 l = Ok ws ->
    Forall (fun e => cp_child (e_payload e) < n)%nat ws.
  Proof.
    induction l as [|p l IH]; intros ws H; cbn [mapM] in H; [inversion H; constructor|].
    inv_bind H. inv_bind H. inversion H; subst. constructor; auto.
    unfold wrap2, wrap in Hm. inv_bind Hm. inv_bind Hm.
    apply py_get_Ok in Hm1. assert (fst p < n)%nat by (rewrite <- Hshapes; apply nth_error_Some; congruence).
    destruct (shape_of_code v1 (e_shape (snd p))); [|discriminate].
    destruct (index_of s (parent_shapes comp)); [|discriminate]. inversion Hm; subst. cbn. auto.
  Qed.

  Lemma fill_ok_CR cur rems ws r : cc_id cur = id0 -> 0 <= cc_cycle cur -> cc_terminal cur = false -> fill_ok cur rems r ->
    mapM wrap2 (stream rems) = Ok ws ->
    exists ok cur', r = Ok (ok, cur') /\ CR cur' ws
      /\ (if ok then cc_pos cur' = O /\ cc_pending cur' <> [] /\ cc_terminal cur' = false
          else ws = []).
  Proof.
    intros Hid Hcyc Ht [[Hs [st [rems1 [-> L1]]]]|[k [st [rems' [ws1 [q [Hs [E1 [Hne [S1 [K1 [Hq ->]]]]]]]]]]]] Hw.
    - rewrite Hs in Hw. cbn in Hw. inversion Hw; subst. exists false, (set_terminal (set_children cur st)).
      split; [reflexivity|]. split; [|reflexivity]. split; [split; [exact Hid|split; [exact Hcyc|constructor]]|]. cbn.
      split; auto. split; auto. exists rems1. destruct st; auto.
    - rewrite Hs, mapM_app, E1 in Hw. cbn [bind] in Hw.
      destruct (mapM wrap2 (stream rems')) as [ws2|] eqn:E2; cbn [bind] in Hw; [|discriminate].
      inversion Hw; subst. eexists true, _. split; [reflexivity|]. split.
      + split; [split; [exact Hid|split; [cbn; lia|apply (wrap2_child _ E1)]]|].
        cbn. rewrite Ht.
        exists rems', ws2. conj; auto. destruct st; auto.
      + cbn. auto.
  Qed.

  Lemma CR_advance cur l k : CR cur l -> cc_terminal cur = false ->
    (cc_pos cur + k <= List.length (cc_pending cur))%nat ->
    CR (advance cur k) (skipn k l)
    /\ firstn k l = firstn k (skipn (cc_pos cur) (cc_pending cur)).
  Proof.
    intros [L1 H] Ht Hk. rewrite Ht in H. destruct H as [rems [ws [HS [HK [Hw ->]]]]].
    assert (Hlen : (k <= List.length (skipn (cc_pos cur) (cc_pending cur)))%nat) by (rewrite skipn_length; lia).
    split.
    - unfold advance. rewrite skipn_app.
      replace (k - List.length (skipn (cc_pos cur) (cc_pending cur)))%nat with O by lia. cbn [skipn].
      rewrite skipn_skipn.
      destruct (Nat.eqb_spec (cc_pos cur + k) (List.length (cc_pending cur))) as [He|He];
        (split; [split; [exact (proj1 L1)|split; [exact (proj1 (proj2 L1))|first [exact (proj2 (proj2 L1))|constructor]]]|]); cbn [cc_terminal cc_children cc_exhausted cc_pos cc_pending];
        rewrite Ht; exists rems, ws; conj; auto.
      + rewrite skipn_all2 by lia. reflexivity.
      + f_equal. f_equal. lia.
    - rewrite firstn_app. replace (k - List.length (skipn (cc_pos cur) (cc_pending cur)))%nat with O by lia.
      cbn [firstn]. rewrite app_nil_r. reflexivity.
  Qed.

  Lemma CR_clear cur l : CR cur l -> cc_terminal cur = false ->
    (List.length (cc_pending cur) <= cc_pos cur)%nat ->
    exists rems, SI (cc_children (clear_pending cur), cc_exhausted (clear_pending cur)) rems /\ known rems
       /\ mapM wrap2 (stream rems) = Ok l.
  Proof.
    intros [L1 H] Ht Hp. rewrite Ht in H. destruct H as [rems [ws [HS [HK [Hw ->]]]]].
    exists rems. rewrite skipn_all2 by lia. cbn. auto.
  Qed.

  Theorem next_envelope_spec cur l : CR cur l ->
    exists cur', next_envelope comp cur = Ok (hd_error l, cur') /\ CR cur' (tl l).
  Proof.
    intros HC. unfold next_envelope. destruct (cc_terminal cur) eqn:Ht.
    - exists cur. pose proof HC as HC'. destruct HC' as [L1 H]. rewrite Ht in H. destruct H as [Hp [-> _]]. cbn.
      split; auto.
    - assert (Hstep : exists ok cur1,
        (if (List.length (cc_pending cur) <=? cc_pos cur)%nat
         then fill_cycle comp (clear_pending cur) else Ok (true, cur)) = Ok (ok, cur1)
        /\ CR cur1 l /\ (if ok then (cc_pos cur1 < List.length (cc_pending cur1))%nat
                                     /\ cc_terminal cur1 = false else l = [])).
      { destruct (Nat.leb_spec (List.length (cc_pending cur)) (cc_pos cur)) as [Hle|Hgt].
        - destruct (CR_clear HC Ht Hle) as [rems [HS [HK Hw]]].
          destruct (@fill_ok_CR (clear_pending cur) rems l _ (proj1 (proj1 HC)) (proj1 (proj2 (proj1 HC))) Ht (fill_cycle_spec (clear_pending cur) HS HK) Hw)
            as [ok [cur1 [E1 [C1 H1]]]].
          exists ok, cur1. conj; auto. destruct ok; auto. destruct H1 as [-> [H2 H3]]. split; auto.
          destruct (cc_pending cur1); [congruence|cbn; lia].
        - exists true, cur. conj; auto. }
      destruct Hstep as [ok [cur1 [E1 [C1 H1]]]]. rewrite E1. cbn [bind].
      destruct ok; cbn [negb].
      + destruct H1 as [Hlt Ht1].
        destruct (nth_error (cc_pending cur1) (cc_pos cur1)) as [e|] eqn:Ee; [|apply nth_error_None in Ee; lia].
        rewrite (proj2 (py_get_Ok _ _ _) Ee). cbn [bind].
        destruct (@CR_advance cur1 l 1 C1 Ht1 ltac:(lia)) as [C2 H2].
        exists (advance cur1 1). destruct (skipn_nth _ _ e Ee) as [Esk _]. rewrite Esk in H2. cbn [firstn] in H2.
        destruct l as [|x l]; [discriminate|]. cbn in H2. inversion H2; subst. cbn. split; auto.
      + subst l. exists cur1. auto.
  Qed.

  Lemma envelopes_loop_spec limit fuel : forall cur out l, CR cur l ->
    (limit - List.length out <= fuel)%nat ->
    exists cur', envelopes_loop comp fuel limit cur out
                 = Ok (out ++ firstn (limit - List.length out) l, cur')
      /\ CR cur' (skipn (limit - List.length out) l).
  Proof.
    induction fuel as [|fuel IH]; intros cur out l HC Hf; cbn [envelopes_loop].
    - replace (List.length out <? limit)%nat with false by lia. cbn [andb].
      replace (limit - List.length out)%nat with O by lia. exists cur. cbn. rewrite app_nil_r. auto.
    - destruct (Nat.ltb_spec (List.length out) limit) as [Hlt|Hge]; cbn [andb].
      2:{ replace (limit - List.length out)%nat with O by lia. exists cur. cbn. rewrite app_nil_r. auto. }
      destruct (cc_terminal cur) eqn:Ht; cbn [negb].
      { exists cur. assert (l = []) as ->.
        { destruct HC as [_ H]. rewrite Ht in H. apply H. }
        rewrite firstn_nil, skipn_nil, app_nil_r. auto. }
      set (cyc := Nat.max 1 ((limit - List.length out + List.length (schedule comp) - 1) / List.length (schedule comp))).
      assert (Hstep : exists ok cur1,
        (if (List.length (cc_pending cur) <=? cc_pos cur)%nat
         then fill_cycles comp (clear_pending cur) cyc else Ok (true, cur)) = Ok (ok, cur1)
        /\ CR cur1 l /\ (if ok then (cc_pos cur1 < List.length (cc_pending cur1))%nat
                                     /\ cc_terminal cur1 = false else l = [])).
      { destruct (Nat.leb_spec (List.length (cc_pending cur)) (cc_pos cur)) as [Hle|Hgt].
        - destruct (CR_clear HC Ht Hle) as [rems [HS [HK Hw]]].
          destruct (@fill_ok_CR (clear_pending cur) rems l _ (proj1 (proj1 HC)) (proj1 (proj2 (proj1 HC))) Ht
                      (@fill_cycles_spec (clear_pending cur) rems cyc ltac:(lia) HS HK) Hw)
            as [ok [cur1 [E1 [C1 H1]]]].
          exists ok, cur1. conj; auto. destruct ok; auto. destruct H1 as [-> [H2 H3]]. split; auto.
          destruct (cc_pending cur1); [congruence|cbn; lia].
        - exists true, cur. conj; auto. }
      destruct Hstep as [ok [cur1 [E1 [C1 H1]]]]. cbv zeta. rewrite E1. cbn [bind].
      destruct ok; cbn [negb].
      + destruct H1 as [Hlt1 Ht1].
        set (av := Nat.min (limit - List.length out) (List.length (cc_pending cur1) - cc_pos cur1)).
        destruct (@CR_advance cur1 l av C1 Ht1 ltac:(lia)) as [C2 H2].
        assert (La : List.length (firstn av (skipn (cc_pos cur1) (cc_pending cur1))) = av)
          by (rewrite firstn_length, skipn_length; lia).
        destruct (IH (advance cur1 av) (out ++ firstn av (skipn (cc_pos cur1) (cc_pending cur1))) _ C2)
          as [cur2 [E2 C3]].
        { rewrite app_length, La. lia. }
        rewrite app_length, La in *. rewrite E2. exists cur2. rewrite <- H2, <- app_assoc.
        rewrite skipn_skipn in C3.
        replace (limit - (List.length out + av) + av)%nat with (limit - List.length out)%nat in C3 by lia.
        split; auto. f_equal. f_equal. f_equal.
        rewrite <- (firstn_skipn av (firstn (limit - List.length out) l)).
        rewrite firstn_firstn, Nat.min_l by lia. f_equal.
        rewrite skipn_firstn_comm. f_equal. lia.
      + subst l. exists cur1. rewrite firstn_nil, skipn_nil, app_nil_r. auto.
  Qed.

  Theorem next_envelopes_spec cur l limit : CR cur l -> (0 < limit)%nat ->
    exists cur', next_envelopes comp cur limit = Ok (firstn limit l, cur') /\ CR cur' (skipn limit l).
  Proof.
    intros HC Hl. unfold next_envelopes. replace (0 <? limit)%nat with true by lia.
    destruct (@envelopes_loop_spec limit limit cur [] l HC) as [cur' H]; [cbn; lia|].
    cbn [List.length app] in H. rewrite Nat.sub_0_r in H. eauto.
  Qed.

  Lemma start_CR starts rems ws : List.length starts = n -> List.length rems = n -> known rems ->
    (forall i c, nth_error starts i = Some c -> R i c (nth i rems [])) ->
    mapM wrap2 (stream rems) = Ok ws -> CR (start_cycle P id0 starts) ws.
  Proof.
    intros Hs Hr Hk HR Hw. split; [split; [reflexivity|split; [cbn; lia|constructor]]|].
    cbn. exists rems, ws. conj; auto. constructor; cbn [fst snd]; auto.
    - rewrite map_length; auto.
    - intros i. assert (nth i (map (fun _ : C => false) starts) false = false); [|congruence].
      clear. revert i; induction starts as [|a t IH]; intros [|i]; cbn; auto.
  Qed.

  (** Saving and restoring keeps what is still to come. *)
  Lemma restore_children_spec CS (save_child : nat -> C -> CS) restore_child identity_ok cs rs :
    (forall i c r, R i c r -> exists c', restore_child i (save_child i c) = Ok c' /\ R i c' r
                                         /\ identity_ok i id0 c' = true) ->
    forall b, (forall i c, nth_error cs i = Some c -> R (b + i)%nat c (nth i rs [])) ->
    exists cs', restore_children restore_child identity_ok b id0 (save_children save_child b cs) = Ok cs'
      /\ List.length cs' = List.length cs
      /\ (forall i c, nth_error cs' i = Some c -> R (b + i)%nat c (nth i rs [])).
  Proof.
    intros Hrt. revert rs. induction cs as [|c cs IH]; intros rs b H; cbn [save_children restore_children].
    - exists []. conj; auto. 
    - destruct (Hrt b c (nth 0 rs [])) as [c' [E1 [R1 I1]]].
      { specialize (H O c eq_refl). rewrite Nat.add_0_r in H. exact H. }
      rewrite E1. cbn [bind]. rewrite I1.
      destruct (IH (tl rs) (S b)) as [cs' [E2 [L2 R2]]].
      { intros i x Hx. replace (S b + i)%nat with (b + S i)%nat by lia.
        specialize (H (S i) x Hx). destruct rs; cbn in *; [destruct i; auto|auto]. }
      rewrite E2. cbn [bind]. exists (c' :: cs'). split; auto. split; [cbn; lia|].
      intros [|i] x Hx; cbn in Hx.
      + inversion Hx; subst. rewrite Nat.add_0_r. exact R1.
      + specialize (R2 i x Hx). replace (b + S i)%nat with (S b + i)%nat by lia.
        destruct rs; cbn in *; [destruct i; auto|auto].
  Qed.

  Lemma restore_spec CS (save_child : nat -> C -> CS) restore_child identity_ok own_rank cur l :
    (forall i c r, R i c r -> exists c', restore_child i (save_child i c) = Ok c' /\ R i c' r
                                         /\ identity_ok i id0 c' = true) ->
    0 <= fst (fst id0) -> 0 <= snd (fst id0) -> snd id0 = own_rank ->
    CR cur l ->
    exists cur', restore_cursor comp restore_child identity_ok own_rank (save_cursor save_child cur) = Ok cur'
      /\ CR cur' l.
  Proof.
    intros Hrt H1 H2 H3 [[I1 [I2 I3]] H].
    assert (HS : exists rems, SI (cc_children cur, cc_exhausted cur) rems).
    { destruct (cc_terminal cur); [apply H|]. destruct H as [rems [ws [HS _]]]. eauto. }
    destruct id0 as [[ep cy] rk] eqn:Eid. cbn [fst snd] in *.
    assert (G : forall rems, SI (cc_children cur, cc_exhausted cur) rems ->
      exists cs', restore_children restore_child identity_ok 0 (ep, cy, rk) (save_children save_child 0 (cc_children cur)) = Ok cs'
        /\ SI (cs', cc_exhausted cur) rems).
    { intros rems HS1. destruct (@restore_children_spec CS save_child restore_child identity_ok (cc_children cur) rems)
        with (b := O) as [cs' [E1 [L1 R1]]].
      - rewrite Eid. exact Hrt.
      - intros i c Hc. apply (si_R HS1). exact Hc.
      - rewrite Eid in E1. exists cs'. split; auto. destruct HS1. constructor; auto. cbn in *. lia. }
    destruct HS as [rems0 HS0]. destruct (G _ HS0) as [cs' [E1 S1]].
    unfold restore_cursor, save_cursor. cbn [sd_schema sd_id sd_children sd_exhausted sd_pending sd_cycle sd_terminal].
    rewrite String.eqb_refl. rewrite I1.
    assert (Ls : List.length (save_children save_child 0 (cc_children cur)) = n).
    { rewrite <- (si_c HS0). cbn [fst]. generalize O. clear. induction (cc_children cur) as [|c t IH]; intros b; cbn; auto. }
    rewrite Ls. pose proof (si_e HS0) as Le. cbn in Le. rewrite Le. rewrite Nat.eqb_refl.
    replace (0 <=? ep) with true by lia. replace (0 <=? cy) with true by lia.
    replace (rk =? own_rank) with true by lia. replace (0 <=? cc_cycle cur) with true by lia. cbn [andb].
    rewrite E1. cbn [bind].
    match goal with |- context [if ?b then _ else _] => replace b with true end.
    2:{ symmetry. apply forallb_forall. intros e He. apply in_skipn in He.
        rewrite Forall_forall in I3. specialize (I3 e He). lia. }
    destruct (cc_terminal cur) eqn:Ht.
    - destruct H as [Hp [Hl _]]. rewrite Hp, skipn_nil. cbn [andb negb]. eexists. split; [reflexivity|].
      split; [split; [|split]|]; cbn; auto. split; auto. split; auto. exists rems0. exact S1.
    - cbn [andb negb]. eexists. split; [reflexivity|].
      destruct H as [rems [ws [HS [HK [Hw Hl]]]]]. destruct (G _ HS) as [cs2 [E2 S2]].
      rewrite E1 in E2. inversion E2; subst cs2.
      split; [split; [|split]|]; cbn; auto.
      + rewrite Forall_forall in *. intros e He. apply I3. eapply in_skipn; eauto.
      + exists rems, ws. auto.
  Qed.

  Lemma composite_serves : serves (composite_source comp) CR.
  Proof.
    constructor; cbn.
    - intros c l H. apply next_envelope_spec; auto.
    - intros f c l limit E H Hl. inversion E; subst.
      destruct (next_envelopes_spec H Hl) as [c' [E1 C1]].
      exists (firstn limit l), (skipn limit l), c'. conj; auto.
      + symmetry. apply firstn_skipn.
      + rewrite firstn_length. lia.
      + destruct l; auto. destruct limit; [lia|discriminate].
  Qed.
End Sim.

(** A client of a source: any sequence of single and bulk requests. *)
Inductive request := NextOne | NextMany (limit : nat).
Definition request_size (q : request) : nat := match q with NextOne => 1 | NextMany k => k end.
Definition request_ok (q : request) : Prop := (0 < request_size q)%nat.
Definition total_requested (qs : list request) : nat :=
  fold_right (fun q a => (request_size q + a)%nat) O qs.

Section Client.
  Variables C P : Type.
  Variable comp : composite C P.
  Fixpoint serve (cur : ccursor C P) (qs : list request)
    : res (list (envelope (cpayload P)) * ccursor C P) :=
    match qs with
    | [] => Ok ([], cur)
    | q :: rest =>
        '(es, cur1) <-
          match q with
          | NextOne => '(e, c) <- next_envelope comp cur ;;
                       Ok (match e with None => [] | Some x => [x] end, c)
          | NextMany k => next_envelopes comp cur k
          end ;;
        '(more, cur2) <- serve cur1 rest ;;
        Ok (es ++ more, cur2)
    end.
End Client.

(** What the client sees of one delivered envelope: which child, which record. *)
Definition origin {P} (e : envelope (cpayload P)) : nat * envelope P :=
  (cp_child (e_payload e), cp_envelope (e_payload e)).

Lemma wrap_origin C P (comp : composite C P) i e w : wrap comp i e = Ok w -> origin w = (i, e).
Proof.
  unfold wrap. intros H. inv_bind H. inv_bind H.
  destruct (shape_of_code v (e_shape e)); [|discriminate].
  destruct (index_of s (parent_shapes comp)); [|discriminate]. inversion H; subst. reflexivity.
Qed.
Lemma mapM_wrap_origin C P (comp : composite C P) l : forall ws,
  mapM (wrap2 comp) l = Ok ws -> map origin ws = l.
Proof.
  induction l as [|[i e] l IH]; intros ws H; cbn [mapM] in H; [inversion H; reflexivity|].
  inv_bind H. inv_bind H. inversion H; subst. cbn [map]. rewrite (wrap_origin _ _ _ Hm), (IH _ Hm0). reflexivity.
Qed.

Section ClientFacts.
  Variables C P : Type.
  Variable comp : composite C P.
  Variable R : nat -> C -> list (envelope P) -> Prop.
  Variable id0 : Z * Z * Z.
  Notation n := (List.length (children comp)).
  Hypothesis Hserves : forall i src, nth_error (children comp) i = Some src -> serves src (R i).
  Hypothesis Hn : (0 < n)%nat.
  Hypothesis Hwl : List.length (cw comp) = n.
  Hypothesis Hpos : Forall (fun w => 0 < w) (cw comp).
  Hypothesis Hcnt : counted (cw comp) (schedule comp).
  Hypothesis Hsched : Forall (fun i => i < n)%nat (schedule comp).
  Hypothesis Hshapes : List.length (child_shapes comp) = n.

  Lemma serve_spec qs : forall cur l, Forall request_ok qs -> CR comp R id0 cur l ->
    exists cur', serve comp cur qs = Ok (firstn (total_requested qs) l, cur')
      /\ CR comp R id0 cur' (skipn (total_requested qs) l).
  Proof.
    induction qs as [|q qs IH]; intros cur l Hq HC; cbn [serve total_requested fold_right].
    - exists cur. cbn. auto.
    - inversion Hq as [|? ? H1 H2]; subst. fold (total_requested qs).
      assert (Hone : exists cur1, match q with
          | NextOne => '(e, c) <- next_envelope comp cur ;;
                       Ok (match e with None => [] | Some x => [x] end, c)
          | NextMany k => next_envelopes comp cur k
          end = Ok (firstn (request_size q) l, cur1) /\ CR comp R id0 cur1 (skipn (request_size q) l)).
      { destruct q as [|k]; cbn [request_size].
        - destruct (next_envelope_spec Hserves Hn Hwl Hpos Hcnt Hsched Hshapes HC) as [c1 [E1 C1]].
          rewrite E1. cbn [bind]. exists c1. destruct l; cbn in *; auto.
        - apply (next_envelopes_spec Hserves Hn Hwl Hpos Hcnt Hsched Hshapes HC). exact H1. }
      destruct Hone as [cur1 [E1 C1]]. rewrite E1. cbn [bind].
      destruct (IH _ _ H2 C1) as [cur2 [E2 C2]]. rewrite E2. cbn [bind].
      exists cur2. rewrite skipn_skipn in C2.
      replace (total_requested qs + request_size q)%nat with (request_size q + total_requested qs)%nat in C2 by lia.
      split; auto. f_equal. f_equal.
      rewrite <- (firstn_skipn (request_size q) (firstn (request_size q + total_requested qs) l)).
      rewrite firstn_firstn, Nat.min_l by lia. f_equal. rewrite skipn_firstn_comm. f_equal. lia.
  Qed.
End ClientFacts.

(** make_composite establishes the side conditions. *)
Lemma make_composite_ok C P (cs : list (source C P)) ids ws sync shapes comp :
  make_composite cs ids ws sync shapes = Ok comp ->
  children comp = cs /\ cw comp = ws /\ sync_length comp = sync /\ child_ids comp = ids
  /\ child_shapes comp = shapes
  /\ weighted_cycle ws = Ok (schedule comp)
  /\ (0 < List.length cs)%nat /\ List.length ws = List.length cs /\ List.length shapes = List.length cs
  /\ List.length ids = List.length cs
  /\ Forall (fun w => 0 < w) ws /\ counted ws (schedule comp)
  /\ Forall (fun i => i < List.length cs)%nat (schedule comp)
  /\ has_dup zlist_eqb ids = false
  /\ forall m, In m shapes -> has_dup Z.eqb (map snd m) = false.
Proof.
  unfold make_composite. intros H. apply guard_Ok in H as [H1 H]. apply guard_Ok in H as [H2 H].
  inv_bind H. apply guard_Ok in H as [H3 H]. apply guard_Ok in H as [H4 H]. inversion H; subst. cbn.
  pose proof (weighted_cycle_Ok_inv _ Hm) as [Hne Hp].
  destruct (weighted_cycle_spec Hne Hp) as [sc [E [_ [F [Cn _]]]]]. rewrite Hm in E. inversion E; subst sc.
  repeat match goal with H : _ && _ = true |- _ => apply andb_true_iff in H; destruct H end.
  destruct cs; [discriminate|]. assert (Lw : List.length ws = List.length (s :: cs)) by lia.
  conj; auto; try lia.
  - cbn. lia.
  - rewrite <- Lw. exact F.
  - intros m Hin. rewrite forallb_forall in H4. specialize (H4 m Hin).
    apply negb_true_iff. exact H4.
Qed.

(** ** Shape codes *)
Lemma zlist_eqb_eq a : forall b, zlist_eqb a b = true <-> a = b.
Proof.
  induction a as [|x a IH]; intros [|y b]; cbn; split; try discriminate; auto; intros H.
  - apply andb_true_iff in H as [H1 H2]. apply IH in H2. f_equal; [lia|auto].
  - inversion H; subst. apply andb_true_iff. split; [lia|]. apply IH; auto.
Qed.
Lemma insert_shape_in s l : forall x, In x (insert_shape s l) <-> x = s \/ In x l.
Proof.
  induction l as [|t l IH]; intros x; cbn [insert_shape]; [cbn; intuition auto|].
  destruct (zlist_eqb s t) eqn:E.
  - apply zlist_eqb_eq in E. subst. cbn. intuition auto.
  - destruct (shape_ltb s t); cbn [In]; [intuition auto|]. rewrite IH. intuition auto.
Qed.
Lemma sorted_shapes_in l x : In x (sorted_shapes l) <-> In x l.
Proof.
  unfold sorted_shapes. induction l as [|s l IH]; cbn [fold_right]; [tauto|].
  rewrite insert_shape_in, IH. cbn. intuition auto.
Qed.
Lemma index_of_Some s l i : index_of s l = Some i -> nth_error l i = Some s.
Proof.
  revert i; induction l as [|t l IH]; intros i; cbn [index_of]; [discriminate|].
  destruct (zlist_eqb s t) eqn:E.
  - apply zlist_eqb_eq in E. subst. intros H; inversion H; reflexivity.
  - destruct (index_of s l) as [j|]; [|discriminate]. intros H; inversion H; subst. cbn. auto.
Qed.
Lemma index_of_In s l : In s l -> exists i, index_of s l = Some i.
Proof.
  induction l as [|t l IH]; cbn [index_of In]; [intros []|].
  intros H. destruct (zlist_eqb s t) eqn:E; [eauto|].
  destruct H as [->|H]; [rewrite (proj2 (zlist_eqb_eq s s) eq_refl) in E; discriminate|].
  destruct (IH H) as [i ->]. eauto.
Qed.
Lemma shape_of_code_In m c s : shape_of_code m c = Some s -> In s (map fst m).
Proof.
  induction m as [|[t d] m IH]; cbn; [discriminate|].
  destruct (d =? c); [intros H; inversion H; auto|auto].
Qed.

Lemma wrap_ok C P (comp : composite C P) i (e : envelope P) m s :
  nth_error (child_shapes comp) i = Some m -> (i < List.length (child_ids comp))%nat ->
  shape_of_code m (e_shape e) = Some s ->
  exists id code, nth_error (child_ids comp) i = Some id /\ nth_error (parent_shapes comp) code = Some s
    /\ wrap comp i e = Ok {| e_source_id := Z.of_nat i; e_key := KTuple [str "composite"; KStr id; e_key e];
                  e_shape := Z.of_nat code; e_payload := {| cp_child := i; cp_envelope := e |};
                  e_bytes := e_bytes e + 128 |}.
Proof.
  intros Hm Hi Hs. unfold wrap. rewrite (proj2 (py_get_Ok _ _ _) Hm). cbn [bind].
  destruct (nth_error (child_ids comp) i) as [id|] eqn:Eid; [|apply nth_error_None in Eid; lia].
  rewrite (proj2 (py_get_Ok _ _ _) Eid). cbn [bind]. rewrite Hs.
  destruct (@index_of_In s (parent_shapes comp)) as [code Ec].
  { unfold parent_shapes. apply sorted_shapes_in. apply in_concat. exists (map fst m). split.
    - apply in_map. eapply nth_error_In; eauto.
    - eapply shape_of_code_In; eauto. }
  rewrite Ec. exists id, code. conj; auto. apply index_of_Some; auto.
Qed.

(** Every child names its own records' shapes with codes it declares. *)
Definition shapes_declared {P} (shapes : list (list (shape * Z))) (records : list (list (envelope P))) : Prop :=
  forall i m e, nth_error shapes i = Some m -> In e (nth i records []) ->
    shape_of_code m (e_shape e) <> None.

Lemma shapes_known C P (cs : list (source C P)) ids ws sync shapes comp records :
  make_composite cs ids ws sync shapes = Ok comp -> List.length records = List.length cs ->
  shapes_declared shapes records -> known comp records.
Proof.
  intros Hmk Hr Hd i e He. apply make_composite_ok in Hmk.
  destruct Hmk as [E1 [E2 [E3 [E4 [E5 [_ [_ [L1 [L2 [L3 _]]]]]]]]]].
  assert (Hi : (i < List.length records)%nat).
  { destruct (Nat.ltb_spec i (List.length records)); auto. rewrite nth_overflow in He by lia. destruct He. }
  destruct (nth_error shapes i) as [m|] eqn:Em; [|apply nth_error_None in Em; lia].
  specialize (Hd i m e Em He). destruct (shape_of_code m (e_shape e)) as [s|] eqn:Es; [|congruence].
  rewrite <- E5 in Em. destruct (@wrap_ok C P comp i e m s Em) as [id [code [_ [_ H]]]]; auto.
  - rewrite E4. lia.
  - eauto.
Qed.

(** ** Specification-level consequences *)
Lemma deal_full E sched : forall rems : list (list E),
  (forall i, In i sched -> (count sched i <= List.length (nth i rems []))%nat) ->
  map fst (fst (deal sched rems)) = sched.
Proof.
  induction sched as [|c t IH]; intros rems H; cbn [deal]; [reflexivity|].
  destruct (nth c rems []) as [|x r] eqn:Ec.
  - specialize (H c ltac:(cbn; auto)). cbn [count_occ] in H. rewrite Ec in H. cbn in H.
    destruct (Nat.eq_dec c c); [lia|congruence].
  - assert (Hc : (c < List.length rems)%nat).
    { destruct (Nat.ltb_spec c (List.length rems)); auto. rewrite nth_overflow in Ec by lia. discriminate. }
    specialize (IH (upd rems c r)).
    destruct (deal t (upd rems c r)) as [o rs]. cbn [fst map] in *. f_equal. apply IH.
    intros i Hi. specialize (H i ltac:(cbn; auto)). cbn [count_occ] in H.
    rewrite nth_upd_list by auto. destruct (Nat.eqb_spec i c) as [->|Hn].
    + rewrite Ec in H. cbn [List.length] in H. destruct (Nat.eq_dec c c); [lia|congruence].
    + destruct (Nat.eq_dec c i); [congruence|lia].
Qed.

Lemma rounds_full E sched k : forall rems : list (list E), Forall (fun i => i < List.length rems)%nat sched ->
  (forall i, In i sched -> (k * count sched i <= List.length (nth i rems []))%nat) ->
  map fst (fst (rounds k sched rems)) = List.concat (repeat sched k).
Proof.
  induction k as [|k IH]; intros rems Hs H; cbn [rounds repeat List.concat]; [reflexivity|].
  pose proof (deal_full sched rems) as Hd. pose proof (deal_length sched rems) as Hl.
  pose proof (fun i Hi => @deal_child E sched rems i Hi) as Hc.
  destruct (deal sched rems) as [o rs]. cbn [fst snd] in *.
  specialize (IH rs). destruct (rounds k sched rs) as [o2 rs2]. cbn [fst] in *.
  rewrite map_app, Hd, IH; auto.
  - rewrite Hl. exact Hs.
  - intros i Hi. rewrite Forall_forall in Hs. destruct (Hc i (Hs i Hi)) as [_ ->].
    rewrite skipn_length. specialize (H i Hi). lia.
  - intros i Hi. specialize (H i Hi). lia.
Qed.

Lemma sync_stream_spec E ws sched (records : list (list E)) :
  weighted_cycle ws = Ok sched -> List.length records = List.length ws ->
  exists K,
    (forall k, (k <= K)%nat <-> forall i w, nth_error ws i = Some w ->
                                  Z.of_nat k * w <= zlen (nth i records []))
    /\ map fst (mixed_stream true ws sched records) = List.concat (repeat sched K)
    /\ forall i w, nth_error ws i = Some w ->
         from_child i (mixed_stream true ws sched records)
         = firstn (K * Z.to_nat w) (nth i records []).
Proof.
  intros Hw Hl. destruct (weighted_cycle_Ok_inv _ Hw) as [Hne Hp].
  destruct (weighted_cycle_spec Hne Hp) as [sc [Esc [_ [F [Cn _]]]]]. rewrite Hw in Esc. inversion Esc; subst sc.
  exists (complete_cycles ws records).
  assert (Hge : forall k, (k <= complete_cycles ws records)%nat <->
      forall i w, nth_error ws i = Some w -> (k * Z.to_nat w <= List.length (nth i records []))%nat).
  { intros k. apply complete_cycles_ge; auto. }
  assert (Hwp : forall i w, nth_error ws i = Some w -> 0 < w).
  { intros i w Ew. rewrite Forall_forall in Hp. apply Hp. eapply nth_error_In; eauto. }
  split; [|split].
  - intros k. rewrite Hge. unfold zlen. split; intros H i w Ew; specialize (H i w Ew); specialize (Hwp i w Ew); nia.
  - unfold mixed_stream. apply rounds_full.
    + rewrite Hl. exact F.
    + intros i Hi. rewrite Forall_forall in F. specialize (F i Hi).
      destruct (nth_error ws i) as [w|] eqn:Ew; [|apply nth_error_None in Ew; lia].
      pose proof (proj1 (Hge _) (le_n _) i w Ew). pose proof (Cn i w Ew). nia.
  - intros i w Ew. unfold mixed_stream.
    assert (Hi : (i < List.length records)%nat) by (rewrite Hl; apply nth_error_Some; congruence).
    destruct (rounds_child sched (complete_cycles ws records) records Hi) as [-> _].
    f_equal. pose proof (Cn i w Ew). nia.
Qed.

Lemma free_stream_spec E ws sched (records : list (list E)) :
  weighted_cycle ws = Ok sched -> List.length records = List.length ws ->
  forall i, from_child i (mixed_stream false ws sched records) = nth i records [].
Proof.
  intros Hw Hl i. destruct (weighted_cycle_Ok_inv _ Hw) as [Hne Hp].
  destruct (weighted_cycle_spec Hne Hp) as [sc [Esc [_ [F [Cn _]]]]]. rewrite Hw in Esc. inversion Esc; subst sc.
  destruct (Nat.ltb_spec i (List.length records)) as [Hi|Hi].
  - unfold mixed_stream. destruct (rounds_child sched (total_records records) records Hi) as [-> _].
    apply firstn_all2. pose proof (total_ge records i).
    destruct (nth_error ws i) as [w|] eqn:Ew; [|apply nth_error_None in Ew; lia].
    pose proof (Cn i w Ew). assert (0 < w) by (rewrite Forall_forall in Hp; apply Hp; eapply nth_error_In; eauto).
    nia.
  - rewrite (nth_overflow records) by lia.
    assert (G : forall k rems, List.length rems = List.length records -> (List.length records <= i)%nat ->
              from_child i (fst (rounds k sched rems)) = ([] : list E)).
    { assert (D : forall s rems, Forall (fun j => j < List.length records)%nat s ->
                 (List.length records <= i)%nat -> from_child i (fst (deal s rems)) = ([] : list E)).
      { induction s as [|c t IH]; intros rems Hf Hge; cbn [deal]; [reflexivity|].
        inversion Hf as [|? ? Hc Ht]; subst. destruct (nth c rems []) as [|x r]; [apply IH; auto|].
        specialize (IH (upd rems c r) Ht Hge). destruct (deal t (upd rems c r)) as [o rs].
        unfold from_child in *. cbn [fst filter] in *. replace (c =? i)%nat with false by lia. exact IH. }
      rewrite <- Hl in F.
      induction k as [|k IH]; intros rems Hlr Hge; cbn [rounds]; [reflexivity|].
      specialize (D sched rems F Hge). pose proof (deal_length sched rems) as Hdl.
      destruct (deal sched rems) as [o rs]. cbn [fst snd] in *. specialize (IH rs ltac:(lia) Hge).
      destruct (rounds k sched rs). cbn [fst] in *. rewrite from_child_app, D, IH. reflexivity. }
    apply G; auto.
Qed.

(** One complete pass, from construction to the end of any request sequence. *)
Lemma composite_delivers C P (cs : list (source C P)) ids ws sync shapes comp R id starts records qs :
  make_composite cs ids ws sync shapes = Ok comp ->
  (forall i src, nth_error cs i = Some src -> serves src (R i)) ->
  List.length starts = List.length cs -> List.length records = List.length cs ->
  (forall i c, nth_error starts i = Some c -> R i c (nth i records [])) ->
  shapes_declared shapes records -> Forall request_ok qs ->
  exists out cur, serve comp (start_cycle P id starts) qs = Ok (out, cur)
    /\ map origin out = firstn (total_requested qs) (mixed_stream sync ws (schedule comp) records)
    /\ exists l, CR comp R id cur l.
Proof.
  intros Hmk HS Hs Hr HR Hd Hq. pose proof (@shapes_known _ _ _ _ _ _ _ _ _ Hmk Hr Hd) as HK.
  apply make_composite_ok in Hmk.
  destruct Hmk as [E1 [E2 [E3 [E4 [E5 [Ew [L0 [L1 [L2 [L3 [Hp [Hc [Hf _]]]]]]]]]]]]].
  subst cs ws sync shapes ids.
  assert (HSt : exists wl, mapM (wrap2 comp) (mixed_stream (sync_length comp) (cw comp) (schedule comp) records) = Ok wl).
  { unfold mixed_stream. apply (@stream_known C P comp); auto. }
  destruct HSt as [wl Ewl].
  assert (C0 : CR comp R id (start_cycle P id starts) wl) by (eapply start_CR; eauto).
  destruct (@serve_spec C P comp R id HS L0 L1 Hp Hc Hf L2 qs _ _ Hq C0) as [cur [E C1]].
  exists (firstn (total_requested qs) wl), cur. split; auto. split; eauto.
  rewrite <- firstn_map. f_equal. apply mapM_wrap_origin in Ewl. exact Ewl.
Qed.
