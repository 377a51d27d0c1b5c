(** Property theorems about weighted composition: C09, C10, C34. *)
From Verif Require Import Base BaseFacts Rng Source Composite CompositeSpec WeightedFacts
  CompositeFacts CompositeSim.

(** C09: for positive weights one cycle exists, has length sum(weights), and
    contains child i exactly weight_i times. *)
Theorem C09_cycle_has_exact_counts :
  forall ws, ws <> [] -> Forall (fun w => 0 < w) ws ->
  exists sched, weighted_cycle ws = Ok sched
    /\ zlen sched = zsum ws
    /\ Forall (fun i => i < List.length ws)%nat sched
    /\ forall i w, nth_error ws i = Some w -> Z.of_nat (count_occ Nat.eq_dec sched i) = w.
Proof.
  intros ws Hn Hw. destruct (weighted_cycle_spec Hn Hw) as [sched [H1 [H2 [H3 [H4 _]]]]].
  exists sched. auto.
Qed.
Print Assumptions C09_cycle_has_exact_counts.

(** C09: no child is ever a full turn ahead of its share: after k slots child i
    was served fewer than k*w_i/total + 1 times. *)
Theorem C09_no_child_runs_ahead :
  forall ws sched k i w, weighted_cycle ws = Ok sched -> (k <= List.length sched)%nat ->
    nth_error ws i = Some w ->
    zsum ws * Z.of_nat (count_occ Nat.eq_dec (firstn k sched) i) < Z.of_nat k * w + zsum ws.
Proof.
  intros ws sched k i w H Hk Hi. destruct (weighted_cycle_Ok_inv _ H) as [Hn Hw].
  destruct (weighted_cycle_spec Hn Hw) as [s [H1 [_ [_ [_ H5]]]]]. rewrite H in H1. inversion H1; subst.
  apply H5; auto.
Qed.
Print Assumptions C09_no_child_runs_ahead.

(** C09: anything else is refused. *)
Theorem C09_bad_weights_are_rejected :
  forall ws, ws = [] \/ Exists (fun w => w <= 0) ws -> weighted_cycle ws = Err ValueError.
Proof. exact weighted_cycle_rejects. Qed.
Print Assumptions C09_bad_weights_are_rejected.

Example C09_example : weighted_cycle [3; 1; 2] = Ok [0; 2; 0; 1; 2; 0]%nat.
Proof. vm_compute. reflexivity. Qed.

(** C10: whatever mixture of single and bulk requests is made, the composite
    source delivers the next records of one fixed stream, namely the weighted mix
    of its children's records, and never fails.  [serves] is the source contract. *)
Theorem C10_composite_delivers_the_mixed_stream :
  forall C P (cs : list (source C P)) ids ws sync shapes comp R id starts records qs,
    make_composite cs ids ws sync shapes = Ok comp ->
    (forall i src, nth_error cs i = Some src -> serves src (R i)) ->
    List.length starts = List.length cs -> List.length records = List.length cs ->
    (forall i c, nth_error starts i = Some c -> R i c (nth i records [])) ->
    shapes_declared shapes records -> Forall request_ok qs ->
    exists out cur, serve comp (start_cycle P id starts) qs = Ok (out, cur)
      /\ map origin out = firstn (total_requested qs) (mixed_stream sync ws (schedule comp) records).
Proof.
  intros C P cs ids ws sync shapes comp R id starts records qs H1 H2 H3 H4 H5 H6 H7.
  destruct (@composite_delivers C P cs ids ws sync shapes comp R id starts records qs H1 H2 H3 H4 H5 H6 H7)
    as [out [cur [G1 [G2 _]]]]. eauto.
Qed.
Print Assumptions C10_composite_delivers_the_mixed_stream.

(** C10, sync_length: the stream is exactly K complete cycles, K the largest
    number of cycles every child can fill, each child's records in order. *)
Theorem C10_synchronised_stream_is_complete_cycles :
  forall E ws sched (records : list (list E)),
    weighted_cycle ws = Ok sched -> List.length records = List.length ws ->
    exists K,
      (forall k, (k <= K)%nat <-> forall i w, nth_error ws i = Some w ->
                                    Z.of_nat k * w <= zlen (nth i records []))
      /\ map fst (mixed_stream true ws sched records) = List.concat (repeat sched K)
      /\ forall i w, nth_error ws i = Some w ->
           from_child i (mixed_stream true ws sched records)
           = firstn (K * Z.to_nat w) (nth i records []).
Proof. exact sync_stream_spec. Qed.
Print Assumptions C10_synchronised_stream_is_complete_cycles.

(** C10, no sync_length: every child's records appear exactly once, in order. *)
Theorem C10_unsynchronised_stream_is_everything :
  forall E ws sched (records : list (list E)),
    weighted_cycle ws = Ok sched -> List.length records = List.length ws ->
    forall i, from_child i (mixed_stream false ws sched records) = nth i records [].
Proof. exact free_stream_spec. Qed.
Print Assumptions C10_unsynchronised_stream_is_everything.

(** C10: the composite source is itself a source in the sense of the contract
    (so composites can be nested and planned). *)
Theorem C10_composite_is_a_source :
  forall C P (cs : list (source C P)) ids ws sync shapes comp R id,
    make_composite cs ids ws sync shapes = Ok comp ->
    (forall i src, nth_error cs i = Some src -> serves src (R i)) ->
    serves (composite_source comp) (CR comp R id).
Proof.
  intros C P cs ids ws sync shapes comp R id Hmk HS. apply make_composite_ok in Hmk.
  destruct Hmk as [E1 [E2 [E3 [E4 [E5 [Ew [L0 [L1 [L2 [L3 [Hp [Hc [Hf _]]]]]]]]]]]]].
  subst cs ws sync shapes ids. apply composite_serves; auto.
Qed.
Print Assumptions C10_composite_is_a_source.

(** C10: a delivered envelope names its child, keeps the child's key and gets a
    shape code that identifies the shape across children. *)
Theorem C10_envelopes_are_namespaced :
  forall C P (comp : composite C P) i j e1 e2 w1 w2 m1 m2 s1 s2,
    List.length (child_ids comp) = List.length (child_shapes comp) ->
    nth_error (child_shapes comp) i = Some m1 -> nth_error (child_shapes comp) j = Some m2 ->
    shape_of_code m1 (e_shape e1) = Some s1 -> shape_of_code m2 (e_shape e2) = Some s2 ->
    wrap comp i e1 = Ok w1 -> wrap comp j e2 = Ok w2 ->
    (e_shape w1 = e_shape w2 <-> s1 = s2)
    /\ (e_key w1 = e_key w2 <->
        nth_error (child_ids comp) i = nth_error (child_ids comp) j /\ e_key e1 = e_key e2)
    /\ e_source_id w1 = Z.of_nat i /\ e_bytes w1 = e_bytes e1 + 128 /\ origin w1 = (i, e1).
Proof.
  intros C P comp i j e1 e2 w1 w2 m1 m2 s1 s2 Hl Hi Hj Hs1 Hs2 Hw1 Hw2.
  assert (Li : (i < List.length (child_ids comp))%nat) by (rewrite Hl; apply nth_error_Some; congruence).
  assert (Lj : (j < List.length (child_ids comp))%nat) by (rewrite Hl; apply nth_error_Some; congruence).
  destruct (@wrap_ok C P comp i e1 m1 s1 Hi Li Hs1) as [id1 [c1 [A1 [A2 A3]]]].
  destruct (@wrap_ok C P comp j e2 m2 s2 Hj Lj Hs2) as [id2 [c2 [B1 [B2 B3]]]].
  assert (Hinj : c1 = c2 <-> s1 = s2).
  { split; [intros ->; congruence|]. intros ->.
    revert Hw1 Hw2. unfold wrap. rewrite (proj2 (py_get_Ok _ _ _) Hi), (proj2 (py_get_Ok _ _ _) Hj).
    cbn [bind]. rewrite (proj2 (py_get_Ok _ _ _) A1), (proj2 (py_get_Ok _ _ _) B1). cbn [bind].
    rewrite Hs1, Hs2. destruct (index_of s2 (parent_shapes comp)) as [c|] eqn:Ec; [|discriminate].
    revert A3 B3. unfold wrap. rewrite (proj2 (py_get_Ok _ _ _) Hi), (proj2 (py_get_Ok _ _ _) Hj).
    cbn [bind]. rewrite (proj2 (py_get_Ok _ _ _) A1), (proj2 (py_get_Ok _ _ _) B1). cbn [bind].
    rewrite Hs1, Hs2, Ec. intros X Y _ _. inversion X; inversion Y. lia. }
  rewrite A3 in Hw1. rewrite B3 in Hw2. inversion Hw1; inversion Hw2; subst. cbn.
  rewrite A1, B1. conj; auto.
  - rewrite <- Hinj. lia.
  - split; [intros H; inversion H; auto|intros [H ->]; inversion H; reflexivity].
Qed.
Print Assumptions C10_envelopes_are_namespaced.

(** C34: after any requests, saving and restoring the composite cursor succeeds
    and all later requests get exactly what they would have got, provided the
    children's own cursors can be saved and restored. *)
Theorem C34_composite_cursor_resumes_exactly :
  forall C P CS (save_child : nat -> C -> CS) restore_child identity_ok own_rank
         (cs : list (source C P)) ids ws sync shapes comp R id starts records qs qs2 out cur,
    make_composite cs ids ws sync shapes = Ok comp ->
    (forall i src, nth_error cs i = Some src -> serves src (R i)) ->
    (forall i c r, R i c r -> exists c', restore_child i (save_child i c) = Ok c' /\ R i c' r
                                         /\ identity_ok i id c' = true) ->
    0 <= fst (fst id) -> 0 <= snd (fst id) -> snd id = own_rank ->
    List.length starts = List.length cs -> List.length records = List.length cs ->
    (forall i c, nth_error starts i = Some c -> R i c (nth i records [])) ->
    shapes_declared shapes records -> Forall request_ok qs -> Forall request_ok qs2 ->
    serve comp (start_cycle P id starts) qs = Ok (out, cur) ->
    exists cur' out2 c1 c2,
      restore_cursor comp restore_child identity_ok own_rank (save_cursor save_child cur) = Ok cur'
      /\ serve comp cur qs2 = Ok (out2, c1) /\ serve comp cur' qs2 = Ok (out2, c2).
Proof.
  intros C P CS save_child restore_child identity_ok own_rank cs ids ws sync shapes comp R id starts records
    qs qs2 out cur Hmk HS Hrt I1 I2 I3 Hs Hr HR Hd Hq Hq2 Hrun.
  destruct (@composite_delivers C P cs ids ws sync shapes comp R id starts records qs) as [o [c [G1 [_ [l Hl]]]]]; auto.
  rewrite Hrun in G1. inversion G1; subst o c. apply make_composite_ok in Hmk.
  destruct Hmk as [E1 [E2 [E3 [E4 [E5 [Ew [L0 [L1 [L2 [L3 [Hp [Hc [Hf _]]]]]]]]]]]]].
  subst cs ws sync shapes ids.
  assert (HRs : exists cur', restore_cursor comp restore_child identity_ok own_rank (save_cursor save_child cur) = Ok cur'
      /\ CR comp R id cur' l) by (eapply restore_spec; eauto).
  destruct HRs as [cur' [R1 R2]].
  destruct (@serve_spec C P comp R id HS L0 L1 Hp Hc Hf L2 qs2 cur l Hq2 Hl) as [c1 [S1 _]].
  destruct (@serve_spec C P comp R id HS L0 L1 Hp Hc Hf L2 qs2 cur' l Hq2 R2) as [c2 [S2 _]].
  exists cur', (firstn (total_requested qs2) l), c1, c2. auto.
Qed.
Print Assumptions C34_composite_cursor_resumes_exactly.

(** Non-vacuity: list-backed children satisfy the contract, one with bulk reads
    that return short chunks, one without bulk reads. *)
Definition list_source (bulk : bool) : source (list (envelope nat)) nat :=
  {| s_next := fun l => Ok (hd_error l, tl l);
     s_many := if bulk then Some (fun l k => Ok (firstn (Nat.min k 2) l, skipn (Nat.min k 2) l)) else None |}.
Lemma list_source_serves b : serves (list_source b) (fun c l => c = l).
Proof.
  constructor; cbn.
  - intros c l ->. eauto.
  - intros f c l limit Hf -> Hl. destruct b; [|discriminate]. inversion Hf; subst.
    exists (firstn (Nat.min limit 2) l), (skipn (Nat.min limit 2) l), (skipn (Nat.min limit 2) l).
    conj; auto.
    + symmetry; apply firstn_skipn.
    + rewrite firstn_length. lia.
    + destruct l; auto. destruct limit; [lia|]. discriminate.
Qed.
Definition ex_env (k : Z) : envelope nat :=
  {| e_source_id := 0; e_key := KInt k; e_shape := 0; e_payload := 0%nat; e_bytes := 8 |}.
Definition ex_children := [list_source true; list_source false].
Definition ex_records := [map ex_env [1; 2; 3; 4; 5]; map ex_env [10; 11]].
Example C10_example :
  exists comp out cur,
    make_composite ex_children [[97]; [98]] [2; 1] false [[([15; 15], 0)]; [([15; 15], 0); ([9; 9], 1)]] = Ok comp
    /\ serve comp (start_cycle nat (0, 0, 0) ex_records) [NextOne; NextMany 3; NextMany 50; NextOne] = Ok (out, cur)
    /\ map (fun e => (cp_child (e_payload e), e_key (cp_envelope (e_payload e)))) out
       = [(0, KInt 1); (1, KInt 10); (0, KInt 2); (0, KInt 3); (1, KInt 11); (0, KInt 4); (0, KInt 5)]%nat
    /\ shapes_declared [[([15; 15], 0)]; [([15; 15], 0); ([9; 9], 1)]] ex_records.
Proof.
  eexists _, _, _. split; [vm_compute; reflexivity|]. split; [vm_compute; reflexivity|].
  split; [vm_compute; reflexivity|].
  intros [|[|i]] m e Hm He; cbn in Hm; inversion Hm; subst; cbn in He.
  - repeat (destruct He as [<-|He]; [cbn; discriminate|]). destruct He.
  - repeat (destruct He as [<-|He]; [cbn; discriminate|]). destruct He.
  - destruct i; discriminate.
Qed.
