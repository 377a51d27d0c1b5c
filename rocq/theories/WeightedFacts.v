(** Facts about the smooth weighted round robin of composite_source.py. *)
From Verif Require Import Base BaseFacts Composite.
Set Implicit Arguments.

Lemma argmax_from_spec scores : forall i best bs j s,
  (best < i)%nat ->
  let r := argmax_from i best bs scores in
  (r = best \/ (i <= r < i + List.length scores)%nat) /\
  exists v, (r = best /\ v = bs \/ nth_error scores (r - i) = Some v /\ (i <= r)%nat)
            /\ bs <= v /\ (nth_error scores j = Some s -> s <= v).
Proof.
  induction scores as [|a t IH]; intros i best bs j s Hb; cbn [argmax_from]; cbv zeta.
  - split; [auto|]. exists bs. conj; auto; try lia. destruct j; discriminate.
  - destruct (Z.ltb_spec bs a) as [H|H].
    + destruct (IH (S i) i a (pred j) s) as [Hr [v [Hv [Hle Hj]]]]; [lia|].
      cbn [List.length]. split; [lia|]. exists v. conj; try lia.
      * right. destruct Hv as [[E ->]|[E Hi]].
        -- rewrite E, Nat.sub_diag. cbn. auto.
        -- replace (argmax_from (S i) i a t - i)%nat with (S (argmax_from (S i) i a t - S i)) by lia.
           cbn. split; auto. lia.
      * destruct j as [|j]; cbn; intros E; [inversion E; subst; lia|auto].
    + destruct (IH (S i) best bs (pred j) s) as [Hr [v [Hv [Hle Hj]]]]; [lia|].
      cbn [List.length]. split; [lia|]. exists v. conj; try lia.
      * destruct Hv as [[E ->]|[E Hi]]; [auto|]. right.
        replace (argmax_from (S i) best bs t - i)%nat with (S (argmax_from (S i) best bs t - S i)) by lia.
        cbn. split; auto. lia.
      * destruct j as [|j]; cbn; intros E; [inversion E; subst; lia|auto].
Qed.

Lemma argmax_spec scores : scores <> [] ->
  (argmax scores < List.length scores)%nat /\
  forall j, (j < List.length scores)%nat -> nth j scores 0 <= nth (argmax scores) scores 0.
Proof.
  destruct scores as [|a t]; [congruence|]. intros _. cbn [argmax].
  split.
  - destruct (@argmax_from_spec t 1 0 a 0 0) as [H _]; [lia|]. cbn [List.length]. lia.
  - intros j Hj. destruct (@argmax_from_spec t 1 0 a (pred j) (nth j (a :: t) 0)) as [Hr [v [Hv [Hle Hn]]]]; [lia|].
    assert (E : nth (argmax_from 1 0 a t) (a :: t) 0 = v).
    { destruct Hv as [[E ->]|[E Hi]]; [rewrite E; reflexivity|].
      destruct (argmax_from 1 0 a t) as [|r]; [lia|]. cbn. replace (S r - 1)%nat with r in E by lia.
      apply nth_error_nth. exact E. }
    rewrite E. destruct j as [|j]; [cbn; lia|]. apply Hn. cbn [pred nth].
    apply nth_error_nth'. cbn in Hj. lia.
Qed.

Lemma add_lists_length a : forall b, List.length a = List.length b ->
  List.length (add_lists a b) = List.length a.
Proof. induction a as [|x a IH]; intros [|y b]; cbn; intros; try lia. rewrite IH; lia. Qed.
Lemma add_lists_nth a : forall b i, List.length a = List.length b ->
  nth i (add_lists a b) 0 = nth i a 0 + nth i b 0.
Proof.
  induction a as [|x a IH]; intros [|y b] i; cbn; intros; try lia.
  - destruct i; lia.
  - destruct i; [lia|]. apply IH. lia.
Qed.
Lemma add_lists_sum a : forall b, List.length a = List.length b ->
  zsum (add_lists a b) = zsum a + zsum b.
Proof.
  induction a as [|x a IH]; intros [|y b]; cbn [List.length add_lists]; intros; try lia; try reflexivity.
  rewrite !zsum_cons, IH by lia. lia.
Qed.

Lemma upd_sum l : forall i x, (i < List.length l)%nat -> zsum (upd l i x) = zsum l - nth i l 0 + x.
Proof.
  induction l as [|a l IH]; intros i x Hi; cbn in Hi; [lia|].
  destruct i as [|i]; cbn [upd nth]; rewrite !zsum_cons; [lia|]. rewrite IH by lia. lia.
Qed.
Lemma upd_nth_Z (l : list Z) i j x : (i < List.length l)%nat ->
  nth j (upd l i x) 0 = if (j =? i)%nat then x else nth j l 0.
Proof.
  revert i j; induction l as [|a l IH]; intros i j Hi; cbn in Hi; [lia|].
  destruct i as [|i], j as [|j]; cbn [upd nth Nat.eqb]; auto. apply IH. lia.
Qed.

Lemma zsum_le_bound l b : (forall j, (j < List.length l)%nat -> nth j l 0 <= b) ->
  zsum l <= zlen l * b.
Proof.
  induction l as [|a l IH]; intros H; [change (zlen []) with 0; cbn; lia|].
  rewrite zsum_cons, zlen_cons.
  pose proof (H 0%nat ltac:(cbn; lia)) as H0. cbn in H0.
  assert (zsum l <= zlen l * b). { apply IH. intros j Hj. apply (H (S j)). cbn; lia. }
  lia.
Qed.

Notation count l i := (count_occ Nat.eq_dec l i).

Lemma weighted_loop_spec ws total n : forall s,
  List.length s = List.length ws -> ws <> [] -> zsum ws = total -> 0 < total -> zsum s = 0 ->
  Forall (fun w => 0 <= w) ws ->
  (forall i, (i < List.length ws)%nat -> - total < nth i s 0) ->
  exists sched, weighted_loop n ws total s = Ok sched
    /\ List.length sched = n
    /\ Forall (fun i => i < List.length ws)%nat sched
    /\ forall i, (i < List.length ws)%nat ->
         - total < nth i s 0 + Z.of_nat n * nth i ws 0 - total * Z.of_nat (count sched i).
Proof.
  induction n as [|n IH]; intros s Hl Hne Ht Hp Hs Hw Hlow.
  - exists []. cbn [weighted_loop]. conj; auto. intros i Hi. cbn [count_occ]. specialize (Hlow i Hi). lia.
  - cbn [weighted_loop]. cbv zeta. set (s1 := add_lists s ws).
    assert (L1 : List.length s1 = List.length ws) by (unfold s1; rewrite add_lists_length; lia).
    assert (S1 : zsum s1 = total) by (unfold s1; rewrite add_lists_sum; lia).
    assert (N1 : s1 <> []) by (intros E; rewrite E in L1; destruct ws; [congruence|discriminate]).
    destruct (argmax_spec N1) as [Hk Hmax]. set (k := argmax s1) in *.
    assert (Hpos : 0 < nth k s1 0).
    { destruct (Z.ltb_spec 0 (nth k s1 0)) as [|Hn]; [lia|].
      assert (zsum s1 <= zlen s1 * 0).
      { apply zsum_le_bound. intros j Hj. specialize (Hmax j Hj). lia. }
      lia. }
    unfold py_get. rewrite (@nth_error_nth' _ s1 k 0 Hk). cbn [bind].
    unfold py_set. replace (k <? List.length s1)%nat with true by lia. cbn [bind].
    set (s2 := upd s1 k (nth k s1 0 - total)).
    assert (Hn2 : forall i, nth i s2 0 = nth i s 0 + nth i ws 0 - (if (i =? k)%nat then total else 0)).
    { intros i. unfold s2. rewrite upd_nth_Z by lia.
      assert (E : nth i s1 0 = nth i s 0 + nth i ws 0) by (apply add_lists_nth; lia).
      destruct (Nat.eqb_spec i k) as [->|]; lia. }
    destruct (IH s2) as [sched [E [Hlen [Hin Hfin]]]]; auto.
    + unfold s2. rewrite upd_length. lia.
    + unfold s2. rewrite upd_sum by lia. lia.
    + intros i Hi. rewrite Hn2. specialize (Hlow i Hi).
      assert (0 <= nth i ws 0). { rewrite Forall_forall in Hw. apply Hw. apply nth_In. lia. }
      destruct (Nat.eqb_spec i k) as [->|]; [|lia].
      assert (nth k s1 0 = nth k s 0 + nth k ws 0) by (apply add_lists_nth; lia). lia.
    + rewrite E. cbn [bind]. exists (k :: sched). conj.
      * reflexivity.
      * cbn. lia.
      * constructor; [lia|auto].
      * intros i Hi. specialize (Hfin i Hi). rewrite Hn2 in Hfin. cbn [count_occ].
        destruct (Nat.eqb_spec i k) as [He|Hne'].
        -- destruct (Nat.eq_dec k i); [|congruence]. lia.
        -- destruct (Nat.eq_dec k i); [congruence|]. lia.
Qed.

Lemma weighted_loop_prefix ws total n : forall s sched k,
  weighted_loop n ws total s = Ok sched -> (k <= n)%nat ->
  weighted_loop k ws total s = Ok (firstn k sched).
Proof.
  induction n as [|n IH]; intros s sched k H Hk.
  - cbn in H. inversion H; subst. replace k with O by lia. reflexivity.
  - destruct k as [|k]; [reflexivity|]. cbn [weighted_loop] in *. cbv zeta in *.
    inv_bind H. rewrite Hm. cbn [bind]. inv_bind H. rewrite Hm0. cbn [bind].
    inv_bind H. inversion H; subst. erewrite IH; eauto; [|lia]. reflexivity.
Qed.

(** sum over children of their counts = length of the schedule *)
Lemma count_sum n sched : Forall (fun i => i < n)%nat sched ->
  zsum (map (fun i => Z.of_nat (count sched i)) (seq 0 n)) = zlen sched.
Proof.
  intros H. induction sched as [|a t IH].
  - cbn [count_occ]. change (zlen []) with 0.
    assert (G : forall b, zsum (map (fun _ : nat => Z.of_nat 0) (seq b n)) = 0);
      [|apply G]. clear. induction n as [|n IHn]; intros b; cbn [seq map]; [reflexivity|].
    rewrite zsum_cons, IHn. reflexivity.
  - inversion H as [|? ? Ha Ht]; subst. specialize (IH Ht). rewrite zlen_cons, <- IH.
    assert (G : forall b m, (b <= a < b + m)%nat \/ (a < b \/ b + m <= a)%nat ->
      zsum (map (fun i => Z.of_nat (count (a :: t) i)) (seq b m))
      = (if ((b <=? a) && (a <? b + m))%nat then 1 else 0)
        + zsum (map (fun i => Z.of_nat (count t i)) (seq b m))).
    { intros b m _. revert b. induction m as [|m IHm]; intros b.
      - cbn [seq map]. replace ((b <=? a) && (a <? b + 0))%nat with false by lia. reflexivity.
      - cbn [seq map]. rewrite !zsum_cons, IHm. cbn [count_occ].
        destruct (Nat.eq_dec a b) as [->|Hn].
        + replace ((b <=? b) && (b <? b + S m))%nat with true by lia.
          replace ((S b <=? b) && (b <? S b + m))%nat with false by lia. lia.
        + destruct (Nat.ltb_spec a b).
          * replace ((b <=? a) && (a <? b + S m))%nat with false by lia.
            replace ((S b <=? a) && (a <? S b + m))%nat with false by lia. lia.
          * replace ((S b <=? a) && (a <? S b + m))%nat with ((b <=? a) && (a <? b + S m))%nat by lia.
            lia. }
    rewrite G by lia. replace ((0 <=? a) && (a <? 0 + n))%nat with true by lia. reflexivity.
Qed.

Lemma sum_le_eq (f g : nat -> Z) n b :
  (forall i, (b <= i < b + n)%nat -> f i <= g i) ->
  zsum (map f (seq b n)) = zsum (map g (seq b n)) ->
  forall i, (b <= i < b + n)%nat -> f i = g i.
Proof.
  revert b; induction n as [|n IH]; intros b Hle Hs i Hi; [lia|].
  cbn [seq map] in Hs. rewrite !zsum_cons in Hs.
  pose proof (Hle b ltac:(lia)) as H0.
  assert (Hle' : forall m c, (forall i, (c <= i < c + m)%nat -> f i <= g i) ->
             zsum (map f (seq c m)) <= zsum (map g (seq c m))).
  { induction m as [|m IHm]; intros c Hc; [cbn; lia|]. cbn [seq map]. rewrite !zsum_cons.
    pose proof (Hc c ltac:(lia)). assert (zsum (map f (seq (S c) m)) <= zsum (map g (seq (S c) m))).
    { apply IHm. intros j Hj. apply Hc. lia. } lia. }
  pose proof (Hle' n (S b) ltac:(intros j Hj; apply Hle; lia)) as H1.
  destruct (Nat.eq_dec i b) as [->|]; [lia|].
  apply (IH (S b)); [intros j Hj; apply Hle; lia|lia|lia].
Qed.

Lemma map_nth_seq (l : list Z) : map (fun i => nth i l 0) (seq 0 (List.length l)) = l.
Proof.
  induction l as [|a l IH]; [reflexivity|]. cbn [List.length seq map nth]. f_equal.
  rewrite <- seq_shift, map_map. exact IH.
Qed.

Lemma zsum_pos ws : ws <> [] -> Forall (fun w => 0 < w) ws -> 0 < zsum ws.
Proof.
  intros Hn H. destruct H as [|w ws Hw Hf]; [congruence|]. rewrite zsum_cons.
  assert (0 <= zsum ws) by (apply zsum_nonneg; eapply Forall_impl; [|exact Hf]; cbn; lia). lia.
Qed.

Lemma weighted_cycle_spec ws : ws <> [] -> Forall (fun w => 0 < w) ws ->
  exists sched, weighted_cycle ws = Ok sched
    /\ zlen sched = zsum ws
    /\ Forall (fun i => i < List.length ws)%nat sched
    /\ (forall i w, nth_error ws i = Some w -> Z.of_nat (count sched i) = w)
    /\ (forall k i w, (k <= List.length sched)%nat -> nth_error ws i = Some w ->
          zsum ws * Z.of_nat (count (firstn k sched) i) < Z.of_nat k * w + zsum ws).
Proof.
  intros Hn Hw. pose proof (zsum_pos Hn Hw) as Hp.
  assert (Hw0 : Forall (fun w => 0 <= w) ws) by (eapply Forall_impl; [|exact Hw]; cbn; lia).
  assert (Z0 : forall i, nth i (map (fun _ : Z => 0) ws) 0 = 0).
  { clear. induction ws as [|a t IH]; intros [|i]; cbn; auto. }
  assert (ZS : zsum (map (fun _ : Z => 0) ws) = 0).
  { clear. induction ws as [|a t IH]; cbn [map]; [reflexivity|]. rewrite zsum_cons. lia. }
  unfold weighted_cycle.
  replace (negb (match ws with [] => true | _ => false end) && forallb (fun w => 0 <? w) ws) with true.
  2:{ destruct ws; [congruence|]. symmetry. cbn [negb andb]. apply forallb_forall.
      rewrite Forall_forall in Hw. intros x Hx. specialize (Hw x Hx). lia. }
  assert (Hgen : forall n, exists sched, weighted_loop n ws (zsum ws) (map (fun _ => 0) ws) = Ok sched
    /\ List.length sched = n
    /\ Forall (fun i => i < List.length ws)%nat sched
    /\ forall i, (i < List.length ws)%nat ->
         - zsum ws < Z.of_nat n * nth i ws 0 - zsum ws * Z.of_nat (count sched i)).
  { intros n. destruct (@weighted_loop_spec ws (zsum ws) n (map (fun _ => 0) ws)) as [sc [E [L [F B]]]]; auto.
    - apply map_length.
    - intros i Hi. rewrite Z0. lia.
    - exists sc. conj; auto. intros i Hi. specialize (B i Hi). rewrite Z0 in B. lia. }
  destruct (Hgen (Z.to_nat (zsum ws))) as [sched [E [L [F B]]]].
  exists sched. conj; auto.
  - unfold zlen. lia.
  - assert (Hc : forall i, (0 <= i < 0 + List.length ws)%nat -> Z.of_nat (count sched i) = nth i ws 0).
    { apply sum_le_eq.
      - intros i Hi. specialize (B i ltac:(lia)). rewrite Z2Nat.id in B by lia. nia.
      - rewrite count_sum by auto. rewrite map_nth_seq. unfold zlen. lia. }
    intros i w Hi. rewrite Hc.
    + apply nth_error_nth. exact Hi.
    + assert (i < List.length ws)%nat by (apply nth_error_Some; congruence). lia.
  - intros k i w Hk Hi. destruct (Hgen k) as [sk [Ek [_ [_ Bk]]]].
    rewrite (@weighted_loop_prefix _ _ _ _ sched k E) in Ek by lia. inversion Ek; subst.
    assert (i < List.length ws)%nat by (apply nth_error_Some; congruence).
    specialize (Bk i ltac:(lia)). apply nth_error_nth with (d := 0) in Hi. rewrite Hi in Bk. lia.
Qed.

Lemma weighted_cycle_rejects ws :
  (ws = [] \/ Exists (fun w => w <= 0) ws) -> weighted_cycle ws = Err ValueError.
Proof.
  intros H. unfold weighted_cycle.
  replace (negb (match ws with [] => true | _ => false end) && forallb (fun w => 0 <? w) ws) with false; auto.
  destruct H as [->|H]; [reflexivity|].
  symmetry. apply andb_false_intro2. induction H as [x t Hx|x t H IH]; cbn [forallb].
  - replace (0 <? x) with false by lia. reflexivity.
  - rewrite IH. apply andb_false_r.
Qed.

Lemma weighted_cycle_Ok_inv ws sched : weighted_cycle ws = Ok sched ->
  ws <> [] /\ Forall (fun w => 0 < w) ws.
Proof.
  unfold weighted_cycle. intros H. apply guard_Ok in H as [H _].
  apply andb_true_iff in H as [H1 H2]. split; [intros ->; discriminate|].
  apply Forall_forall. rewrite forallb_forall in H2. intros x Hx. specialize (H2 x Hx). lia.
Qed.
