(** Whole-cycle facts of the sequential source: construction, start of a cycle,
    the delivered stream, save and restore. *)
From Verif Require Import Base BaseFacts Rng RngFacts Source Composite CompositeSim NpzSpec NpzFacts NpzBuild NpzGlue.
From Verif Require Import Sequential SequentialShard SequentialSpec SequentialFacts SequentialKeys.
Set Implicit Arguments.
Unset Strict Implicit.

Record good_seq (s : seq_source) : Prop := {
  gs_rate : 0 < q_den s /\ 0 <= q_num s <= q_den s;
  gs_active : (0 < q_active s)%nat;
  gs_quantum : 0 < q_quantum s;
  gs_rank : 0 <= q_rank s < q_world s;
  gs_shard : q_sharded s = true -> q_world s <= zlen (q_files s)
}.

Lemma seq_built_good s : seq_built s -> good_seq s.
Proof.
  induction 1 as [files fmt seed shuffle num den act quantum shapes identity s H|s world rank sharded s' Hb IH H].
  - unfold make_sequential in H. repeat (apply guard_Ok in H as [? H]). inversion H; subst; clear H.
    constructor; cbn; lia.
  - unfold seq_configure in H. repeat (apply guard_Ok in H as [? H]). inversion H; subst; clear H.
    destruct IH. constructor; cbn; auto; try lia.
Qed.

Lemma NoDup_app_remove_l {A} (l l' : list A) : NoDup (l ++ l') -> NoDup l'.
Proof. induction l as [|x l IH]; cbn; [auto|]. intros H. inversion H; auto. Qed.
Lemma NoDup_app_remove_r {A} (l l' : list A) : NoDup (l ++ l') -> NoDup l.
Proof.
  induction l as [|x l IH]; cbn; [constructor|]. intros H. inversion H; subst. constructor; auto.
  intros Hx. apply H2. apply in_or_app. auto.
Qed.

Lemma tlv_i64 z : int64 z -> tlv (KInt z) = Ok (2 :: le_bytes 8 z).
Proof.
  unfold int64. intros H. cbn [tlv]. unfold two63.
  replace ((- 2 ^ 63 <=? z) && (z <? 2 ^ 63)) with true by lia. reflexivity.
Qed.

Lemma tlv_blob (x : bytes) : zlen x < 2 ^ 32 -> exists b1 b2, tlv (KBytes x) = Ok b1 /\ tlv (KStr x) = Ok b2.
Proof.
  intros H. cbn [tlv]. unfold pack_u32. pose proof (zlen_nonneg x).
  replace ((0 <=? zlen x) && (zlen x <? 2 ^ 32)) with true by lia. cbn [bind]. eauto.
Qed.

Lemma seq_key_tlv s f cycle k sub : zlen (f_id (q_format s)) < 2 ^ 32 -> zlen (q_key f) < 2 ^ 32 ->
  int64 cycle -> int64 k -> int64 sub -> exists b, tlv (seq_key s f cycle k sub) = Ok b.
Proof.
  intros H1 H2 H3 H4 H5. unfold seq_key. rewrite tlv_tuple.
  change (pack_u32 (zlen _)) with (Ok (le_bytes 4 4)). cbn [bind tlv_join].
  assert (E1 : exists b, tlv (str "sequential") = Ok b) by (eexists; reflexivity).
  destruct E1 as [b1 ->]. destruct (tlv_blob H2) as (b2 & ? & -> & _).
  destruct (tlv_blob H1) as (? & b3 & _ & ->). cbn [bind].
  destruct (f_count (q_format s)); destruct (cycle =? 0); rewrite tlv_tuple; cbn [tlv_join bind].
  - change (pack_u32 (zlen _)) with (Ok (le_bytes 4 2)). rewrite (tlv_i64 H4), (tlv_i64 H5). cbn. eauto.
  - change (pack_u32 (zlen _)) with (Ok (le_bytes 4 3)). rewrite (tlv_i64 H3), (tlv_i64 H4), (tlv_i64 H5). cbn. eauto.
  - change (pack_u32 (zlen _)) with (Ok (le_bytes 4 1)). rewrite (tlv_i64 H4). cbn. eauto.
  - change (pack_u32 (zlen _)) with (Ok (le_bytes 4 2)). rewrite (tlv_i64 H3), (tlv_i64 H4). cbn. eauto.
Qed.

(** *** Sampling decisions are defined *)
Section Adm.
  Variable header : bytes.
  Variable hash64 : bytes -> Z.

  Lemma augmentation_epoch_total s epoch cycle : int64 (q_seed s) -> int64 epoch -> int64 cycle ->
    exists a, augmentation_epoch header hash64 s epoch cycle = Ok a /\ int64 a.
  Proof.
    intros H1 H2 H3. unfold augmentation_epoch. destruct (cycle =? 0); [eauto|].
    unfold rng_u64. change ((0 <=? 0) && (0 <? two63)) with true. cbn match.
    rewrite tlv_tuple. change (pack_u32 (zlen _)) with (Ok (le_bytes 4 4)). cbn [bind tlv_join].
    assert (E1 : exists b, tlv (str "sequential_cycle_epoch") = Ok b) by (eexists; reflexivity).
    destruct E1 as [b1 ->]. rewrite (tlv_i64 H1). rewrite (tlv_tuple [KInt epoch; KInt cycle]).
    change (pack_u32 (zlen [KInt epoch; KInt cycle])) with (Ok (le_bytes 4 2)). cbn [bind tlv_join].
    rewrite (tlv_i64 H2), (tlv_i64 H3). cbn [bind]. rewrite tlv_i64 by (unfold int64; lia). cbn [bind].
    eexists. split; [reflexivity|]. unfold int64.
    match goal with |- context [?x mod 2 ^ 63] => pose proof (Z.mod_pos_bound x (2 ^ 63)) end. lia.
  Qed.

  Lemma sub_admitted_total s es epoch cycle a : good_seq s -> seq_sampling_ok s es epoch cycle -> int64 a ->
    forall i f k raw sub,
    nth_error (q_files s) i = Some f -> nth_error (es i) (Z.to_nat k) = Some raw -> 0 <= k ->
    0 <= sub < entry_count s raw ->
    exists b, sample_is_admitted header hash64 (q_num s) (q_den s) (q_seed s) a
                (seq_key s f cycle k sub) = Ok b.
  Proof.
    intros G (S1 & S2 & S3 & S4) Ha i f k raw sub Hf Hr Hk Hs.
    pose proof (gs_rate G) as Hrate. unfold sample_is_admitted.
    replace ((0 <=? q_num s) && (q_num s <=? q_den s)) with true by lia.
    destruct (Z.leb_spec (q_num s) 0); [eauto|]. destruct (Z.leb_spec (q_den s) (q_num s)); [eauto|].
    destruct S4 as [S4|[S4 S5]]; [lia|]. destruct (S5 i f Hf) as (S6 & S7 & S8).
    assert (Hlen : k < zlen (es i)).
    { assert (Z.to_nat k < List.length (es i))%nat by (apply nth_error_Some; congruence). unfold zlen. lia. }
    assert (Hcnt : entry_count s raw < 2 ^ 63) by (apply S8; eapply nth_error_In; eauto).
    destruct (@seq_key_tlv s f cycle k sub) as [bk Hbk]; auto; try (unfold int64; lia).
    unfold rng_u64. change ((0 <=? 0) && (0 <? two63)) with true. cbn match.
    rewrite tlv_tuple. change (pack_u32 (zlen _)) with (Ok (le_bytes 4 4)). cbn [bind tlv_join].
    assert (E1 : exists b, tlv (str "sample") = Ok b) by (eexists; reflexivity). destruct E1 as [b1 ->].
    rewrite (tlv_i64 S1). rewrite (tlv_tuple [KInt a; seq_key s f cycle k sub]).
    change (pack_u32 (zlen [KInt a; _])) with (Ok (le_bytes 4 2)). cbn [bind tlv_join].
    rewrite (tlv_i64 Ha), Hbk. cbn [bind]. rewrite tlv_i64 by (unfold int64; lia). cbn [bind]. eauto.
  Qed.

  (** *** The order names files of the source, each at most once *)
  Lemma NoDup_concat_nth {A} (ls : list (list A)) i l : NoDup (List.concat ls) -> nth_error ls i = Some l -> NoDup l.
  Proof.
    revert i; induction ls as [|x ls IH]; intros [|i] H E; cbn in *; try discriminate.
    - inversion E; subst. apply NoDup_app_remove_r in H. exact H.
    - apply NoDup_app_remove_l in H. eauto.
  Qed.

  Lemma seq_order_ok s epoch cycle rank order : good_seq s -> Forall (fun f => 0 <= q_size f) (q_files s) ->
    seq_file_order header hash64 s epoch cycle rank = Ok order ->
    NoDup order /\ Forall (fun g => (g < List.length (q_files s))%nat) order.
  Proof.
    intros G Hsz H.
    assert (Hrng : NoDup (range (List.length (q_files s)))
              /\ Forall (fun g => (g < List.length (q_files s))%nat) (range (List.length (q_files s)))).
    { split; [apply seq_NoDup|]. apply Forall_forall. intros x Hx. apply in_seq in Hx. lia. }
    destruct Hrng as [R1 R2].
    destruct (q_sharded s) eqn:Esh.
    - destruct (size_bound Hsz) as (M & HM0 & HM).
      destruct (@shard_files_spec (q_files s) (Z.to_nat (q_world s)) M HM) as (asg & loads & E & Hp & _).
      { pose proof (gs_rank G). lia. }
      destruct (seq_file_order_sharded Esh E H) as (a & Ha & Hpa).
      assert (Hnd : NoDup (List.concat asg)) by (eapply Permutation_NoDup; [symmetry; exact Hp|exact R1]).
      split.
      + eapply Permutation_NoDup; [exact Hpa|]. eapply NoDup_concat_nth; eauto.
      + apply Forall_forall. intros x Hx. rewrite Forall_forall in R2. apply R2.
        eapply Permutation_in; [exact Hp|]. apply in_concat. exists a. split; [eapply nth_error_In; eauto|].
        eapply Permutation_in; [symmetry; exact Hpa|exact Hx].
    - pose proof (seq_file_order_unsharded Esh H) as Hp. split.
      + eapply Permutation_NoDup; eauto.
      + eapply Permutation_Forall; eauto.
  Qed.
End Adm.

(** A source keeps yielding [l], then "end of cycle" for ever. *)
Inductive yields {C P} (src : source C P) : C -> list (envelope P) -> Prop :=
| yields_end c c' : s_next src c = Ok (None, c') -> s_next src c' = Ok (None, c') -> yields src c []
| yields_more c e c' l : s_next src c = Ok (Some e, c') -> yields src c' l -> yields src c (e :: l).

Lemma yields_serves {C P} (src : source C P) : s_many src = None -> serves src (yields src).
Proof.
  intros Hm. constructor.
  - intros c l H. inversion H as [c0 c' E1 E2|c0 e c' l' E1 E2]; subst.
    + exists c'. split; [exact E1|]. cbn. apply yields_end with c'; auto.
    + exists c'. auto.
  - intros f c l limit Hf. congruence.
Qed.

Lemma yields_serve {C P} (src : source C P) k : forall c l, yields src c l ->
  exists c', serve_source src c (repeat NextOne k) = Ok (firstn k l, c') /\ yields src c' (skipn k l).
Proof.
  induction k as [|k IH]; intros c l H; cbn [repeat serve_source].
  - exists c. auto.
  - inversion H as [c0 c' E1 E2|c0 e c' l' E1 E2]; subst; rewrite E1; cbn [bind].
    + destruct (IH c' []) as (c2 & E & Hy); [apply yields_end with c'; auto|].
      rewrite E. cbn [bind]. exists c2. rewrite firstn_nil. rewrite skipn_nil in Hy. auto.
    + destruct (IH c' l' E2) as (c2 & E & Hy). rewrite E. cbn. eauto.
Qed.

Section Cycle.
  Variable header : bytes.
  Variable hash64 : bytes -> Z.
  Variable s : seq_source.
  Variable es : nat -> list bytes.
  Variables epoch cycle a : Z.
  Hypothesis Hcontents : seq_contents s es.
  Hypothesis Ha : augmentation_epoch header hash64 s epoch cycle = Ok a.
  Hypothesis Hadm : forall i f k raw sub,
    nth_error (q_files s) i = Some f -> nth_error (es i) (Z.to_nat k) = Some raw -> 0 <= k ->
    0 <= sub < entry_count s raw ->
    exists b, sample_is_admitted header hash64 (q_num s) (q_den s) (q_seed s) a
                (seq_key s f cycle k sub) = Ok b.
  Hypothesis G : good_seq s.

  Local Notation inv := (seq_inv s es epoch cycle).
  Local Notation remn := (rem header hash64 s es cycle a).
  Local Notation src := (sequential_source header hash64 s).

  Lemma seq_step_ok c : inv c ->
    match seq_step header hash64 s c with
    | inl c' => quiet header hash64 s es epoch cycle a c c'
    | inr (Ok (None, c')) => c' = c /\ sc_active c = []
    | inr (Ok (Some e, c')) => emits header hash64 s es epoch cycle a c e c'
    | inr (Err _) => False
    end.
  Proof. intros H. apply seq_step_spec; auto. apply (gs_quantum G). Qed.

  Lemma same_id_trans c1 c2 c3 : same_id c1 c2 -> same_id c2 c3 -> same_id c1 c3.
  Proof. unfold same_id. intros (?&?&?&?) (?&?&?&?). conj; congruence. Qed.

  Lemma seq_loop_spec fuel : forall c, inv c -> (seq_measure s c < fuel)%nat ->
    match seq_loop header hash64 fuel s c with
    | Ok (None, c') => inv c' /\ same_id c c' /\ sc_active c' = [] /\ forall g, remn c g = []
    | Ok (Some e, c') => emits header hash64 s es epoch cycle a c e c'
    | Err _ => False
    end.
  Proof.
    induction fuel as [|fuel IH]; intros c H Hm; [lia|].
    cbn [seq_loop]. pose proof (seq_step_ok H) as Hs.
    destruct (seq_step header hash64 s c) as [c1|[[[e|] c1]|]]; auto.
    - destruct Hs as (H1 & H2 & H3 & H4). specialize (IH c1 H1 ltac:(lia)).
      destruct (seq_loop header hash64 fuel s c1) as [[[e|] c2]|]; auto.
      + destruct IH as (I1 & I2 & g & I3 & I4 & I5 & I6).
        split; [exact I1|]. split; [eapply same_id_trans; eauto|]. exists g.
        destruct H3 as (_ & _ & _ & Ho). rewrite Ho in I3. conj; auto.
        * rewrite <- H4. exact I5.
        * intros h Hh. rewrite <- H4. auto.
      + destruct IH as (I1 & I2 & I3 & I4). conj; auto.
        * eapply same_id_trans; eauto.
        * intros g. rewrite <- H4. auto.
    - destruct Hs as [-> Hact]. conj; auto.
      + unfold same_id; auto.
      + intros g. pose proof (iv_turn H) as Ht. rewrite Hact in Ht. destruct Ht as (_ & _ & Hn).
        unfold rem, streams. rewrite Hact, Hn, skipn_all. reflexivity.
  Qed.

  Lemma seq_next_spec c : inv c ->
    match seq_next header hash64 s c with
    | Ok (None, c') => inv c' /\ same_id c c' /\ sc_active c' = [] /\ forall g, remn c g = []
    | Ok (Some e, c') => emits header hash64 s es epoch cycle a c e c'
    | Err _ => False
    end.
  Proof. intros H. apply seq_loop_spec; auto. Qed.

  Definition total (c : seq_cursor) : nat := list_sum (map (fun g => List.length (remn c g)) (sc_order c)).

  Lemma list_sum_lt {A} (f h : A -> nat) l : (forall x, In x l -> (f x <= h x)%nat) ->
    (exists x, In x l /\ (f x < h x)%nat) -> (list_sum (map f l) < list_sum (map h l))%nat.
  Proof.
    induction l as [|y l IH]; intros H1 (x & Hx & H2); cbn in *; [contradiction|].
    change (fold_right Init.Nat.add 0%nat ?m) with (list_sum m).
    assert (Hle : forall m, (forall x, In x m -> (f x <= h x)%nat) -> (list_sum (map f m) <= list_sum (map h m))%nat).
    { induction m as [|z m IHm]; intros Hm; cbn; [lia|]. pose proof (Hm z (or_introl eq_refl)).
      assert (list_sum (map f m) <= list_sum (map h m))%nat by (apply IHm; intros; apply Hm; right; auto).
      unfold list_sum in *. lia. }
    destruct Hx as [->|Hx].
    - pose proof (Hle l ltac:(auto)). lia.
    - pose proof (H1 y (or_introl eq_refl)). pose proof (IH ltac:(auto) ltac:(eauto)). lia.
  Qed.

  (** The stream delivered from a cursor: every file's remaining records, in order. *)
  Lemma seq_yields n : forall c, inv c -> (total c < n)%nat ->
    exists l, yields src c l /\ (forall g, from_file g l = remn c g)
      /\ Forall (fun e => exists g, In g (sc_order c) /\ e_source_id e = Z.of_nat g) l.
  Proof.
    induction n as [|n IH]; intros c H Hn; [lia|].
    pose proof (seq_next_spec H) as Hs.
    destruct (seq_next header hash64 s c) as [[[e|] c1]|] eqn:E; [| |contradiction].
    - destruct Hs as (I1 & I2 & g & I3 & I4 & I5 & I6). pose proof (proj2 (proj2 (proj2 I2))) as Ho.
      destruct (IH c1 I1) as (l & Hy & Hf & Hl).
      { assert (total c1 < total c)%nat; [|lia]. unfold total. rewrite Ho.
        apply list_sum_lt.
        - intros h Hh. destruct (Nat.eq_dec h g) as [->|Hne]; [rewrite I5; cbn; lia|rewrite I6 by auto; lia].
        - exists g. split; [exact I3|]. rewrite I5. cbn. lia. }
      exists (e :: l). conj.
      + eapply yields_more; eauto.
      + intros h. unfold from_file. cbn [filter]. rewrite I4. fold (from_file h l). rewrite Hf.
        destruct (Z.eqb_spec (Z.of_nat g) (Z.of_nat h)) as [Ez|Ez].
        * assert (g = h) by lia. subst h. auto.
        * apply I6. intros ->. lia.
      + constructor; [eauto|]. rewrite Ho in Hl. exact Hl.
    - destruct Hs as (I1 & I2 & I3 & I4). exists []. conj.
      + eapply yields_end; [exact E|]. cbn. unfold seq_next. cbn [seq_loop]. unfold seq_step. rewrite I3. reflexivity.
      + intros g. rewrite I4. reflexivity.
      + constructor.
  Qed.

  (** Invariant along any number of reads. *)
  Lemma seq_serve_inv k : forall c out c', inv c ->
    serve_source src c (repeat NextOne k) = Ok (out, c') -> inv c' /\ same_id c c'.
  Proof.
    induction k as [|k IH]; intros c out c' H E; cbn [repeat serve_source] in E.
    - inversion E; subst. split; [exact H|]. unfold same_id; auto.
    - inv_bind E. destruct v as [chunk c1]. inv_bind Hm. destruct v as [e c2]. inversion Hm; subst.
      inv_bind E. destruct v as [more c3]. inversion E; subst.
      pose proof (seq_next_spec H) as Hs. cbn [s_next sequential_source] in Hm0. rewrite Hm0 in Hs.
      destruct e as [e|].
      + destruct Hs as (I1 & I2 & _). destruct (IH _ _ _ I1 Hm1) as [J1 J2]. split; [exact J1|].
        eapply same_id_trans; eauto.
      + destruct Hs as (I1 & I2 & _). destruct (IH _ _ _ I1 Hm1) as [J1 J2]. split; [exact J1|].
        eapply same_id_trans; eauto.
  Qed.

  (** *** Start *)
  Lemma mapM_open order : Forall (fun g => (g < List.length (q_files s))%nat) order ->
    forall count, (count <= List.length order)%nat ->
    mapM (fun i => f <- py_get order i ;; open_reader s f 0) (range count)
    = Ok (map (fun f => {| r_file := f; r_offset := 0; r_entry := 0; r_pending := None |}) (firstn count order)).
  Proof.
    intros HF. induction count as [|n IH]; intros Hn; [reflexivity|].
    destruct (nth_error order n) as [f|] eqn:E.
    2:{ apply nth_error_None in E. lia. }
    unfold range. rewrite seq_S, (firstn_S_nth E), map_app. fold (range n).
    rewrite mapM_app, IH by lia. cbn [bind mapM Nat.add].
    rewrite (proj2 (py_get_Ok _ _ _) E). cbn [bind]. unfold open_reader.
    assert (Hf : (f < List.length (q_files s))%nat).
    { rewrite Forall_forall in HF. apply HF. eapply nth_error_In; eauto. }
    destruct (nth_error (q_files s) f) as [fd|] eqn:Efd.
    2:{ apply nth_error_None in Efd. lia. }
    rewrite (proj2 (py_get_Ok _ _ _) Efd). reflexivity.
  Qed.

  Lemma seq_start_inv rank c : Forall (fun f => 0 <= q_size f) (q_files s) ->
    seq_start header hash64 s epoch cycle rank = Ok c ->
    inv c /\ sc_rank c = rank /\ seq_file_order header hash64 s epoch cycle rank = Ok (sc_order c)
    /\ (forall g, In g (sc_order c) -> remn c g = file_records header hash64 s cycle a es g).
  Proof.
    intros Hsz H. unfold seq_start in H. repeat (apply guard_Ok in H as [? H]).
    inv_bind H. rename v into order. pose proof (seq_order_ok G Hsz Hm) as [Hnd Hrng].
    set (count := Nat.min (q_active s) (List.length order)) in *.
    assert (Hc : (count <= List.length order)%nat) by (subst count; lia).
    rewrite (mapM_open Hrng Hc) in H. cbn [bind] in H.
    set (mk := fun f => {| r_file := f; r_offset := 0; r_entry := 0; r_pending := None |}) in *.
    assert (Hmk : map r_file (map mk (firstn count order)) = firstn count order).
    { rewrite map_map. apply map_id. }
    injection H as <-. conj.
    - constructor; cbn [sc_epoch sc_cycle sc_order sc_next sc_active sc_turn sc_quantum].
      + reflexivity.
      + reflexivity.
      + rewrite Hmk, firstn_skipn. exact Hnd.
      + exact Hrng.
      + apply Forall_map. apply Forall_forall. intros x Hx. exact Hx.
      + apply Forall_map. apply Forall_forall. intros x Hx. apply in_firstn in Hx.
        rewrite Forall_forall in Hrng. specialize (Hrng x Hx).
        destruct (nth_error (q_files s) x) as [f|] eqn:Ef.
        2:{ apply nth_error_None in Ef. lia. }
        destruct (Hcontents Ef) as [He _]. constructor; cbn.
        * exists f. auto.
        * lia.
        * lia.
        * discriminate.
      + exact Hc.
      + destruct (firstn count order) as [|x xs] eqn:E; cbn [map].
        * assert (Hz : count = 0%nat).
          { assert (Hl : List.length (firstn count order) = 0%nat) by (rewrite E; reflexivity).
            rewrite firstn_length in Hl. lia. }
          pose proof (gs_active G). conj; auto. subst count. lia.
        * cbn. lia.
      + pose proof (gs_quantum G). lia.
      + rewrite map_length, firstn_length. subst count. lia.
    - reflexivity.
    - exact Hm.
    - intros g Hg. cbn [sc_order] in Hg. unfold rem, streams.
      cbn [sc_order sc_next sc_active]. rewrite map_map.
      assert (E : map (fun x => (r_file (mk x), reader_records header hash64 s es cycle a (mk x)))
                    (firstn count order)
                  = map (fun x => (x, file_records header hash64 s cycle a es x)) (firstn count order)).
      { apply map_ext. intros x. unfold reader_records, file_records. cbn. destruct (nth_error (q_files s) x); reflexivity. }
      rewrite E, <- map_app, firstn_skipn. clear -Hg.
      induction order as [|x l IH]; cbn; [destruct Hg|].
      destruct (Nat.eqb_spec g x) as [->|Hne]; [reflexivity|]. apply IH. destruct Hg; congruence.
  Qed.

  (** *** Save and restore *)
  Lemma zlist_eqb_refl l : zlist_eqb l l = true.
  Proof. apply zlist_eqb_eq. reflexivity. Qed.

  Lemma has_dup_NoDup (l : list nat) : NoDup l -> has_dup (map Z.of_nat l) = false.
  Proof.
    induction 1 as [|x l Hx Hl IH]; cbn; [reflexivity|]. rewrite IH, orb_false_r.
    destruct (existsb (Z.eqb (Z.of_nat x)) (map Z.of_nat l)) eqn:E; [|reflexivity].
    apply existsb_exists in E as (y & Hy & E). apply in_map_iff in Hy as (z & <- & Hz).
    apply Z.eqb_eq in E. assert (x = z) by lia. congruence.
  Qed.

  Lemma restore_reader_save r : reader_ok s es r -> restore_reader s (save_reader r) = Ok r.
  Proof.
    intros H. destruct (ro_file H) as (f & Hf & _).
    assert (Hlt : (r_file r < List.length (q_files s))%nat) by (apply nth_error_Some; congruence).
    pose proof (ro_entry H) as He.
    unfold restore_reader, save_reader. cbn [rs_file rs_entry rs_offset rs_pending].
    replace ((0 <=? Z.of_nat (r_file r)) && (Z.of_nat (r_file r) <? zlen (q_files s))) with true
      by (unfold zlen; lia).
    replace ((0 <=? r_entry r) && (0 <=? Z.of_nat (r_offset r))) with true by lia.
    unfold open_reader. rewrite !Nat2Z.id. rewrite (proj2 (py_get_Ok _ _ _) Hf). cbn [bind].
    destruct (r_pending r) as [p|] eqn:Ep; cbn [option_map].
    - destruct (ro_pending H Ep) as (P1 & P2 & P3 & P4 & P5 & P6 & P7 & P8).
      unfold restore_pending, save_pending. cbn [ps_raw ps_entry ps_shape ps_next ps_count].
      destruct (f_count (q_format s)) as [cnt|] eqn:Ecnt; [|congruence].
      destruct (Hcontents Hf) as [Hent Hgood]. rewrite Forall_forall in Hgood.
      assert (Hok : entry_ok s (p_raw p)) by (apply Hgood; eapply nth_error_In; eauto).
      assert (Hne : p_raw p <> []).
      { apply nth_error_In in P3. clear -Hent P3. induction Hent as [|rest n t H1 H2 H3 H4 IH]; [destruct P3|].
        destruct P3 as [<-|P3]; [exact H3|auto]. }
      destruct Hok as [Hdec Hok].
      destruct (f_shape (q_format s) (p_raw p)) as [[sh|]|] eqn:Esh; [|congruence|contradiction].
      destruct Hok as [Hin Hcnt]. rewrite Ecnt in Hcnt. destruct Hcnt as (n & En & Hn).
      assert (Hcount : p_count p = n) by (rewrite P6; unfold entry_count; rewrite Esh, Ecnt, En; reflexivity).
      destruct (index_of sh (q_shapes s)) as [code|] eqn:Ecode.
      2:{ exfalso. apply (index_of_None Ecode Hin). }
      assert (Hcode : p_shape p = Z.of_nat code) by (rewrite P5; unfold entry_code; rewrite Esh, Ecode; reflexivity).
      assert (Hcl : (code < List.length (q_shapes s))%nat).
      { apply nth_error_Some. rewrite (index_of_Some _ _ Ecode). discriminate. }
      assert (Hnb : negb (match p_raw p with [] => true | _ => false end) = true)
        by (destruct (p_raw p); [congruence|reflexivity]).
      rewrite Hnb. cbn [andb].
      replace ((p_entry p =? r_entry r - 1) && (0 <=? p_shape p) && (p_shape p <? zlen (q_shapes s))
               && (0 <? p_next p) && (p_next p <? p_count p)) with true by (unfold zlen; lia).
      rewrite Hdec. cbn [bind]. try rewrite Esh. cbn [bind]. rewrite En. cbn [bind]. try rewrite Ecode.
      replace ((Z.of_nat code =? p_shape p) && (n =? p_count p)) with true by lia.
      cbn [bind r_file r_entry]. destruct r as [rf ro re rp]; cbn in *. rewrite Ep.
      destruct p; reflexivity.
    - cbn [bind]. destruct r as [rf ro re rp]; cbn in *. rewrite Ep. reflexivity.
  Qed.

  Lemma mapM_inverse {A B} (f : A -> B) (g : B -> res A) l :
    Forall (fun x => g (f x) = Ok x) l -> mapM g (map f l) = Ok l.
  Proof.
    induction 1 as [|x l Hx Hl IH]; cbn [map mapM]; [reflexivity|].
    rewrite Hx. cbn [bind]. rewrite IH. reflexivity.
  Qed.

  Lemma seq_restore_save c init : inv c -> seq_resumable s = true ->
    seq_start header hash64 s epoch cycle (sc_rank c) = Ok init -> sc_order init = sc_order c ->
    exists st, seq_save s c = Ok st /\ seq_restore header hash64 s st = Ok c.
  Proof.
    intros H Hres Hinit Hord. unfold seq_save. rewrite Hres. eexists. split; [reflexivity|].
    unfold seq_restore. rewrite Hres. cbn [cs_epoch cs_cycle cs_rank cs_order cs_next cs_turn cs_quantum cs_active].
    rewrite (iv_epoch H), (iv_cycle H), Hinit. cbn [bind]. rewrite Hord, zlist_eqb_refl.
    pose proof (iv_next H) as Hn. pose proof (iv_turn H) as Ht. pose proof (iv_quantum H) as Hq.
    replace ((0 <=? Z.of_nat (sc_next c)) && (Z.of_nat (sc_next c) <=? zlen (sc_order c))) with true
      by (unfold zlen; lia).
    destruct (sc_active c) as [|r0 rs] eqn:Ea.
    - cbn [map]. destruct Ht as (T1 & T2 & T3). rewrite T1, T2, T3.
      replace ((Z.of_nat 0 =? 0) && (0 =? 0) && (Z.of_nat (List.length (sc_order c)) =? zlen (sc_order c)))
        with true by (unfold zlen; lia).
      rewrite Nat2Z.id. f_equal. pose proof (iv_epoch H). pose proof (iv_cycle H).
      destruct c as [c1 c2 c3 c4 c5 c6 c7 c8]; cbn in *. congruence.
    - rewrite <- Ea in *. destruct (map save_reader (sc_active c)) as [|m ms] eqn:Em.
      { rewrite Ea in Em. discriminate. }
      rewrite <- Em. clear m ms Em.
      assert (Hl : zlen (map save_reader (sc_active c)) = zlen (sc_active c)) by (unfold zlen; rewrite map_length; reflexivity).
      pose proof (iv_width H) as Hw.
      replace ((0 <=? Z.of_nat (sc_turn c)) && (Z.of_nat (sc_turn c) <? zlen (map save_reader (sc_active c)))) with true
        by (rewrite Hl; unfold zlen; lia).
      replace ((0 <=? sc_quantum c) && (sc_quantum c <? q_quantum s)) with true by lia.
      replace (zlen (map save_reader (sc_active c)) <=? Z.of_nat (q_active s)) with true
        by (rewrite Hl; unfold zlen; lia).
      assert (Hfiles : map rs_file (map save_reader (sc_active c)) = map Z.of_nat (map r_file (sc_active c)))
        by (rewrite !map_map; reflexivity).
      rewrite Hfiles. rewrite has_dup_NoDup.
      2:{ pose proof (iv_nodup H) as Hd. apply NoDup_app_remove_r in Hd. exact Hd. }
      assert (Hsch : forallb (fun i => existsb (Z.eqb i)
                        (firstn (Z.to_nat (Z.of_nat (sc_next c))) (map Z.of_nat (sc_order c))))
                      (map Z.of_nat (map r_file (sc_active c))) = true).
      { apply forallb_forall. intros x Hx. apply in_map_iff in Hx as (g & <- & Hg).
        apply in_map_iff in Hg as (r & <- & Hr). pose proof (iv_sched H) as F. rewrite Forall_forall in F.
        apply existsb_exists. exists (Z.of_nat (r_file r)). split; [|apply Z.eqb_refl].
        rewrite Nat2Z.id, firstn_map. apply in_map. apply F. exact Hr. }
      rewrite Hsch. cbn [negb andb].
      rewrite (mapM_inverse (f := save_reader)).
      2:{ pose proof (iv_readers H) as F. eapply Forall_impl; [|exact F]. intros; apply restore_reader_save; auto. }
      cbn [bind]. rewrite !Nat2Z.id. f_equal. pose proof (iv_epoch H). pose proof (iv_cycle H).
      destruct c as [c1 c2 c3 c4 c5 c6 c7 c8]; cbn in *. congruence.
  Qed.
End Cycle.

(** ** Packaged statements *)
Section Package.
  Variable header : bytes.
  Variable hash64 : bytes -> Z.

  Lemma seq_start_order s epoch cycle rank cur : seq_start header hash64 s epoch cycle rank = Ok cur ->
    seq_file_order header hash64 s epoch cycle rank = Ok (sc_order cur)
    /\ sc_epoch cur = epoch /\ sc_cycle cur = cycle /\ sc_rank cur = rank.
  Proof.
    unfold seq_start. intros H. repeat (apply guard_Ok in H as [? H]). inv_bind H. inv_bind H.
    inversion H; subst; cbn. auto.
  Qed.

  Lemma unsharded_order s epoch cycle rank cur : q_sharded s = false ->
    seq_start header hash64 s epoch cycle rank = Ok cur ->
    Permutation (sc_order cur) (seq 0 (List.length (q_files s))).
  Proof.
    intros Hs H. apply seq_start_order in H as [H _]. symmetry. eapply seq_file_order_unsharded; eauto.
  Qed.

  Definition rank_orders (s : seq_source) (world : nat) epoch cycle (orders : nat -> list nat) : Prop :=
    forall r, (r < world)%nat -> exists sr cur,
      seq_configure s (Z.of_nat world) (Z.of_nat r) true = Ok sr
      /\ seq_start header hash64 sr epoch cycle (Z.of_nat r) = Ok cur
      /\ sc_order cur = orders r.

  Lemma configure_fields s world rank sharded sr : seq_configure s world rank sharded = Ok sr ->
    sr = {| q_files := q_files s; q_format := q_format s; q_seed := q_seed s;
            q_shuffle := q_shuffle s; q_num := q_num s; q_den := q_den s;
            q_active := q_active s; q_quantum := q_quantum s; q_shapes := q_shapes s;
            q_identity := q_identity s; q_world := world; q_rank := rank; q_sharded := sharded |}
    /\ (sharded = true -> world <= zlen (q_files s)).
  Proof.
    unfold seq_configure. intros H. repeat (apply guard_Ok in H as [? H]). inversion H; subst.
    split; [reflexivity|]. intros ->. destruct (Z.ltb_spec (zlen (q_files s)) world); [discriminate|lia].
  Qed.

  Lemma orders_assignments s world epoch cycle orders asg loads :
    rank_orders s world epoch cycle orders -> shard_files (q_files s) world = Ok (asg, loads) ->
    forall r, (r < world)%nat -> exists a, nth_error asg r = Some a /\ Permutation a (orders r).
  Proof.
    intros Ho E r Hr. destruct (Ho r Hr) as (sr & cur & H1 & H2 & H3).
    apply configure_fields in H1 as [-> _]. apply seq_start_order in H2 as [H2 _].
    eapply seq_file_order_sharded in H2; [|reflexivity|cbn; rewrite Nat2Z.id; exact E].
    rewrite Nat2Z.id, H3 in H2. exact H2.
  Qed.

  Lemma flat_map_concat_nth {A} (asg : list (list A)) (f : nat -> list A) :
    (forall r, (r < List.length asg)%nat -> exists a, nth_error asg r = Some a /\ Permutation a (f r)) ->
    Permutation (flat_map f (seq 0 (List.length asg))) (List.concat asg).
  Proof.
    revert f. induction asg as [|a asg IH]; intros f H; cbn [List.length seq flat_map List.concat]; [constructor|].
    destruct (H 0%nat) as (a0 & E0 & P0); [cbn; lia|]. inversion E0; subst a0.
    rewrite <- P0. apply Permutation_app_head.
    rewrite <- seq_shift, flat_map_concat_map, map_map, <- flat_map_concat_map.
    apply IH. intros r Hr. apply (H (S r)). cbn. lia.
  Qed.

  Lemma shard_orders_partition s world epoch cycle orders :
    seq_built s -> Forall (fun f => 0 <= q_size f) (q_files s) -> (0 < world)%nat ->
    rank_orders s world epoch cycle orders ->
    Permutation (flat_map orders (seq 0 world)) (seq 0 (List.length (q_files s)))
    /\ forall r, (r < world)%nat -> orders r <> [].
  Proof.
    intros Hb Hsz Hw Ho. destruct (size_bound Hsz) as (M & HM0 & HM).
    destruct (@shard_files_spec (q_files s) world M HM Hw) as (asg & loads & E & Hp & Hi).
    pose proof (orders_assignments Ho E) as Ha. split.
    - rewrite <- (si_asg Hi). rewrite (@flat_map_concat_nth nat asg orders).
      + exact Hp.
      + intros r Hr. apply Ha. rewrite (si_asg Hi) in Hr. exact Hr.
    - intros r Hr Hnil. destruct (Ha r Hr) as (a & E1 & P1).
      destruct (Ho r Hr) as (sr & cur & H1 & _). apply configure_fields in H1 as [_ H1].
      specialize (H1 eq_refl). unfold zlen in H1.
      apply (si_used Hi E1); [lia|]. rewrite Hnil in P1. symmetry in P1. apply Permutation_nil in P1. exact P1.
  Qed.

  Lemma zsum_map_perm {A} (f : A -> Z) l m : Permutation l m -> zsum (map f l) = zsum (map f m).
  Proof. intros H. apply zsum_perm. apply Permutation_map. exact H. Qed.

  Lemma shard_orders_balanced s world epoch cycle orders M :
    seq_built s -> Forall (fun f => 0 <= q_size f <= M) (q_files s) -> (0 < world)%nat ->
    rank_orders s world epoch cycle orders ->
    forall r1 r2, (r1 < world)%nat -> (r2 < world)%nat ->
      zsum (map (size_of (q_files s)) (orders r1)) <= zsum (map (size_of (q_files s)) (orders r2)) + M.
  Proof.
    intros Hb Hsz Hw Ho r1 r2 Hr1 Hr2.
    assert (HM : forall i, 0 <= size_of (q_files s) i <= M).
    { assert (HM0 : 0 <= M).
      { destruct (Ho r1 Hr1) as (sr & cur & H1 & _). apply configure_fields in H1 as [_ H1].
        specialize (H1 eq_refl). destruct (q_files s) as [|f fs]; [unfold zlen in H1; cbn in H1; lia|].
        inversion Hsz; lia. }
      intros i. unfold size_of. destruct (nth_error (q_files s) i) as [f|] eqn:Ef; [|lia].
      rewrite Forall_forall in Hsz. apply Hsz. eapply nth_error_In; eauto. }
    destruct (@shard_files_spec (q_files s) world M HM Hw) as (asg & loads & E & Hp & Hi).
    destruct (orders_assignments Ho E Hr1) as (a1 & E1 & P1).
    destruct (orders_assignments Ho E Hr2) as (a2 & E2 & P2).
    assert (L1 : exists l1, nth_error loads r1 = Some l1).
    { destruct (nth_error loads r1) eqn:X; [eauto|]. apply nth_error_None in X. pose proof (si_loads Hi). lia. }
    assert (L2 : exists l2, nth_error loads r2 = Some l2).
    { destruct (nth_error loads r2) eqn:X; [eauto|]. apply nth_error_None in X. pose proof (si_loads Hi). lia. }
    destruct L1 as [l1 L1], L2 as [l2 L2].
    rewrite <- (zsum_map_perm _ P1), <- (zsum_map_perm _ P2).
    rewrite <- (si_sum Hi E1 L1), <- (si_sum Hi E2 L2). eapply (si_bal Hi); eauto.
  Qed.

  (** Everything about one cycle. *)
  Lemma seq_cycle_yields s es epoch cycle rank cur :
    seq_built s -> Forall (fun f => 0 <= q_size f) (q_files s) ->
    seq_contents s es -> seq_sampling_ok s es epoch cycle ->
    seq_start header hash64 s epoch cycle rank = Ok cur ->
    exists a l, augmentation_epoch header hash64 s epoch cycle = Ok a
      /\ yields (sequential_source header hash64 s) cur l
      /\ (forall g, In g (sc_order cur) -> from_file g l = file_records header hash64 s cycle a es g)
      /\ Permutation l (flat_map (file_records header hash64 s cycle a es) (sc_order cur)).
  Proof.
    intros Hb Hsz Hc HS Hst. pose proof (seq_built_good Hb) as G.
    destruct HS as (S1 & S2 & S3 & S4).
    destruct (augmentation_epoch_total header hash64 S1 S2 S3) as (a & Ha & Hai).
    assert (Hadm := sub_admitted_total header hash64 G (conj S1 (conj S2 (conj S3 S4))) Hai).
    destruct (seq_start_inv Hc Hadm G Hsz Hst) as (Hi & Hr & Hord & Hrem).
    destruct (@seq_yields header hash64 s es epoch cycle a Hc Ha Hadm G _ cur Hi (Nat.lt_succ_diag_r _))
      as (l & Hy & Hf & Hl).
    exists a, l. conj; auto.
    - intros g Hg. rewrite Hf. auto.
    - destruct (seq_order_ok G Hsz Hord) as [Hnd _].
      rewrite (split_by_file Hnd Hl) at 1.
      assert (E : flat_map (fun g => from_file g l) (sc_order cur)
                  = flat_map (file_records header hash64 s cycle a es) (sc_order cur)).
      { rewrite !flat_map_concat_map. f_equal. apply map_ext_in. intros g Hg. rewrite Hf. auto. }
      rewrite E. reflexivity.
  Qed.

  Lemma yields_done {C P} (src : source C P) c : yields src c [] -> exists c', s_next src c = Ok (None, c').
  Proof. intros H. inversion H; eauto. Qed.

  Lemma seq_cycle_spec s es epoch cycle rank cur :
    seq_built s -> Forall (fun f => 0 <= q_size f) (q_files s) ->
    seq_contents s es -> seq_sampling_ok s es epoch cycle ->
    seq_start header hash64 s epoch cycle rank = Ok cur ->
    exists a l,
      augmentation_epoch header hash64 s epoch cycle = Ok a
      /\ (forall g, In g (sc_order cur) -> from_file g l = file_records header hash64 s cycle a es g)
      /\ Permutation l (flat_map (file_records header hash64 s cycle a es) (sc_order cur))
      /\ (forall k, exists c, serve_source (sequential_source header hash64 s) cur (repeat NextOne k)
                              = Ok (firstn k l, c)
            /\ ((List.length l <= k)%nat ->
                exists c', s_next (sequential_source header hash64 s) c = Ok (None, c'))).
  Proof.
    intros Hb Hsz Hc HS Hst. destruct (seq_cycle_yields Hb Hsz Hc HS Hst) as (a & l & H1 & H2 & H3 & H4).
    exists a, l. conj; auto. intros k. destruct (yields_serve k H2) as (c & E & Hy). exists c.
    split; [exact E|]. intros Hk. rewrite skipn_all2 in Hy by exact Hk. apply yields_done. exact Hy.
  Qed.

  Lemma seq_is_source s es epoch cycle rank cur :
    seq_built s -> Forall (fun f => 0 <= q_size f) (q_files s) ->
    seq_contents s es -> seq_sampling_ok s es epoch cycle ->
    seq_start header hash64 s epoch cycle rank = Ok cur ->
    exists l (R : seq_cursor -> list (envelope seq_payload) -> Prop),
      serves (sequential_source header hash64 s) R /\ R cur l
      /\ forall a, augmentation_epoch header hash64 s epoch cycle = Ok a ->
         Permutation l (flat_map (file_records header hash64 s cycle a es) (sc_order cur)).
  Proof.
    intros Hb Hsz Hc HS Hst. destruct (seq_cycle_yields Hb Hsz Hc HS Hst) as (a & l & H1 & H2 & H3 & H4).
    exists l, (yields (sequential_source header hash64 s)). conj; auto.
    - apply yields_serves. reflexivity.
    - intros a' Ha'. rewrite H1 in Ha'. inversion Ha'; subst. exact H4.
  Qed.

  Lemma yields_det {C P} (src : source C P) c l : yields src c l -> forall k out c1 c2,
    serve_source src c (repeat NextOne k) = Ok (out, c1) -> s_next src c1 = Ok (None, c2) -> out = l.
  Proof.
    intros H k out c1 c2 E1 E2. destruct (yields_serve k H) as (c1' & E & Hy). rewrite E in E1.
    inversion E1; subst. inversion Hy as [c0 c' X1 X2 Hn|c0 e c' l' X1 X2 Hn]; subst.
    - rewrite <- (firstn_skipn k l) at 2. rewrite <- H0, app_nil_r. reflexivity.
    - rewrite X1 in E2. discriminate.
  Qed.

  Lemma flat_map_flat_map {A B C} (f : A -> list B) (g : B -> list C) l :
    flat_map g (flat_map f l) = flat_map (fun x => flat_map g (f x)) l.
  Proof. induction l as [|x l IH]; cbn; [reflexivity|]. rewrite flat_map_app, IH. reflexivity. Qed.

  Lemma flat_map_perm_fun {A B} (f g : A -> list B) l :
    (forall x, In x l -> Permutation (f x) (g x)) -> Permutation (flat_map f l) (flat_map g l).
  Proof.
    induction l as [|x l IH]; intros H; cbn; [constructor|]. apply Permutation_app; [apply H; left; auto|].
    apply IH. intros; apply H; right; auto.
  Qed.

  Lemma ranks_partition_records s es world epoch cycle (outs : nat -> list (envelope seq_payload)) :
    seq_built s -> Forall (fun f => 0 <= q_size f) (q_files s) ->
    seq_contents s es -> seq_sampling_ok s es epoch cycle -> (0 < world)%nat ->
    (forall r, (r < world)%nat -> exists sr cur k c c',
       seq_configure s (Z.of_nat world) (Z.of_nat r) true = Ok sr
       /\ seq_start header hash64 sr epoch cycle (Z.of_nat r) = Ok cur
       /\ serve_source (sequential_source header hash64 sr) cur (repeat NextOne k) = Ok (outs r, c)
       /\ s_next (sequential_source header hash64 sr) c = Ok (None, c')) ->
    exists a, augmentation_epoch header hash64 s epoch cycle = Ok a
      /\ Permutation (flat_map outs (seq 0 world))
           (flat_map (file_records header hash64 s cycle a es) (seq 0 (List.length (q_files s)))).
  Proof.
    intros Hb Hsz Hc HS Hw Hout. pose proof HS as (S1 & S2 & S3 & S4).
    destruct (augmentation_epoch_total header hash64 S1 S2 S3) as (a & Ha & Hai).
    exists a. split; [exact Ha|].
    assert (Hrank : forall r, exists order, (r < world)%nat ->
      (exists sr cur, seq_configure s (Z.of_nat world) (Z.of_nat r) true = Ok sr
        /\ seq_start header hash64 sr epoch cycle (Z.of_nat r) = Ok cur /\ sc_order cur = order)
      /\ Permutation (outs r) (flat_map (file_records header hash64 s cycle a es) order)).
    { intros r. destruct (Nat.lt_ge_cases r world) as [Hr|Hr]; [|exists []; lia].
      destruct (Hout r Hr) as (sr & cur & k & c & c' & H1 & H2 & H3 & H4).
      exists (sc_order cur). intros _. split; [eauto 6|].
      pose proof (seq_built_configured Hb H1) as Hbr.
      destruct (configure_fields H1) as [-> _].
      edestruct (@seq_cycle_yields _ es epoch cycle (Z.of_nat r) cur Hbr) as (a' & l & X1 & X2 & X3 & X4);
        [exact Hsz|exact Hc|exact HS|exact H2|].
      change (augmentation_epoch header hash64 s epoch cycle = Ok a') in X1.
      rewrite Ha in X1. inversion X1; subst a'.
      rewrite (yields_det X2 H3 H4). exact X4. }
    assert (Hch : exists orders, rank_orders s world epoch cycle orders
              /\ forall r, (r < world)%nat -> Permutation (outs r)
                   (flat_map (file_records header hash64 s cycle a es) (orders r))).
    { clear -Hrank. unfold rank_orders. induction world as [|w IH].
      - exists (fun _ => []). split; intros; lia.
      - assert (Hgen : forall n, exists orders, forall r, (r < n)%nat -> (r < S w)%nat ->
          (exists sr cur, seq_configure s (Z.of_nat (S w)) (Z.of_nat r) true = Ok sr
            /\ seq_start header hash64 sr epoch cycle (Z.of_nat r) = Ok cur /\ sc_order cur = orders r)
          /\ Permutation (outs r) (flat_map (file_records header hash64 s cycle a es) (orders r))).
        { induction n as [|n (orders & Hn)]; [exists (fun _ => []); intros; lia|].
          destruct (Hrank n) as (order & Hor).
          exists (fun r => if (r =? n)%nat then order else orders r). intros r Hr Hrw.
          destruct (Nat.eqb_spec r n) as [->|Hne]; [apply Hor; exact Hrw|]. apply Hn; [lia|exact Hrw]. }
        destruct (Hgen (S w)) as (orders & Hn). exists orders. split; intros r Hr; apply (Hn r Hr Hr). }
    destruct Hch as (orders & Ho & Hp).
    destruct (shard_orders_partition Hb Hsz Hw Ho) as [Hpart _].
    rewrite (@flat_map_perm_fun _ _ outs
               (fun r => flat_map (file_records header hash64 s cycle a es) (orders r)))
      by (intros r Hr; apply Hp; apply in_seq in Hr; lia).
    rewrite <- flat_map_flat_map. apply Permutation_flat_map. exact Hpart.
  Qed.

  Lemma seq_resume s es epoch cycle rank cur k out c :
    seq_built s -> Forall (fun f => 0 <= q_size f) (q_files s) ->
    seq_contents s es -> seq_sampling_ok s es epoch cycle ->
    seq_resumable s = true ->
    seq_start header hash64 s epoch cycle rank = Ok cur ->
    serve_source (sequential_source header hash64 s) cur (repeat NextOne k) = Ok (out, c) ->
    exists st, seq_save s c = Ok st /\ seq_restore header hash64 s st = Ok c.
  Proof.
    intros Hb Hsz Hc HS Hres Hst Hserve. pose proof (seq_built_good Hb) as G.
    destruct HS as (S1 & S2 & S3 & S4).
    destruct (augmentation_epoch_total header hash64 S1 S2 S3) as (a & Ha & Hai).
    assert (Hadm := sub_admitted_total header hash64 G (conj S1 (conj S2 (conj S3 S4))) Hai).
    destruct (seq_start_inv Hc Hadm G Hsz Hst) as (Hi & Hr & Hord & Hrem).
    destruct (seq_serve_inv Hc Ha Hadm G Hi Hserve) as (Hi' & I1 & I2 & I3 & I4).
    eapply seq_restore_save with (init := cur); eauto. rewrite I3, Hr. exact Hst.
  Qed.

  (** *** What restore accepts *)
  Lemma has_dup_sound (l : list Z) : has_dup l = false -> NoDup l.
  Proof.
    induction l as [|x l IH]; cbn; [constructor|]. intros H. apply orb_false_iff in H as [H1 H2].
    constructor; [|auto]. intros Hx. assert (existsb (Z.eqb x) l = true); [|congruence].
    apply existsb_exists. exists x. split; [exact Hx|apply Z.eqb_refl].
  Qed.

  Lemma restore_reader_sound s st r : restore_reader s st = Ok r ->
    rs_file st = Z.of_nat (r_file r) /\ (r_file r < List.length (q_files s))%nat
    /\ forall p, r_pending r = Some p ->
         f_decode (q_format s) (p_raw p) = Ok tt /\ p_entry p = r_entry r - 1
         /\ p_shape p = entry_code s (p_raw p) /\ p_count p = entry_count s (p_raw p)
         /\ 0 < p_next p < p_count p.
  Proof.
    unfold restore_reader. intros H. apply guard_Ok in H as [G1 H]. apply guard_Ok in H as [G2 H].
    inv_bind H. unfold open_reader in Hm. inv_bind Hm. inversion Hm; subst v. clear Hm.
    inv_bind H. injection H as <-. cbn [r_file r_entry r_pending].
    conj.
    - lia.
    - apply py_get_Ok in Hm0. apply nth_error_Some. congruence.
    - intros p ->. destruct (rs_pending st) as [ps|]; [|discriminate]. inv_bind Hm. inversion Hm; subst v.
      unfold restore_pending in Hm1. destruct (f_count (q_format s)) as [cnt|] eqn:Ec; [|discriminate].
      apply guard_Ok in Hm1 as [G3 Hm1]. inv_bind Hm1. inv_bind Hm1. inv_bind Hm1.
      apply guard_Ok in Hm1 as [G4 Hm1]. injection Hm1 as <-. cbn.
      apply andb_true_iff in G4 as [G4 G5].
      destruct v1 as [sh|]; [|discriminate]. destruct (index_of sh (q_shapes s)) as [code|] eqn:Ei; [|discriminate].
      unfold entry_code, entry_count. rewrite Hm3, Ei, Ec, Hm4. destruct v. conj; auto; lia.
  Qed.

  Lemma seq_restore_sound s st c : seq_restore header hash64 s st = Ok c ->
    seq_file_order header hash64 s (sc_epoch c) (sc_cycle c) (sc_rank c) = Ok (sc_order c)
    /\ (sc_next c <= List.length (sc_order c))%nat
    /\ (sc_active c = [] -> sc_next c = List.length (sc_order c))
    /\ (List.length (sc_active c) <= q_active s)%nat
    /\ NoDup (map r_file (sc_active c))
    /\ (forall r, In r (sc_active c) ->
          (r_file r < List.length (q_files s))%nat
          /\ In (r_file r) (firstn (sc_next c) (sc_order c))
          /\ forall p, r_pending r = Some p ->
               f_decode (q_format s) (p_raw p) = Ok tt /\ p_entry p = r_entry r - 1
               /\ p_shape p = entry_code s (p_raw p) /\ p_count p = entry_count s (p_raw p)
               /\ 0 < p_next p < p_count p).
  Proof.
    unfold seq_restore. intros H. apply guard_Ok in H as [G1 H]. inv_bind H. rename v into init.
    apply seq_start_order in Hm as (Hord & H1 & H2 & H3).
    apply guard_Ok in H as [G2 H]. apply zlist_eqb_eq in G2. apply guard_Ok in H as [G3 H].
    destruct (cs_active st) as [|r0 rs] eqn:Ea.
    - apply guard_Ok in H as [G4 H]. injection H as <-. cbn. conj; auto.
      + unfold zlen in *; lia.
      + unfold zlen in *; lia.
      + lia.
      + constructor.
      + intros r [].
    - rewrite <- Ea in *. apply guard_Ok in H as [G4 H]. apply guard_Ok in H as [G5 H].
      apply guard_Ok in H as [G6 H]. apply guard_Ok in H as [G7 H]. inv_bind H.
      injection H as <-. cbn [sc_epoch sc_cycle sc_rank sc_order sc_next sc_active].
      pose proof (mapM_Ok_length _ _ Hm) as Hlen.
      assert (HF : Forall2 (fun x y => restore_reader s x = Ok y) (cs_active st) v) by (eapply mapM_Ok_Forall2; eauto).
      apply andb_true_iff in G7 as [G7 G8]. apply negb_true_iff in G7. apply has_dup_sound in G7.
      assert (Hfiles : map rs_file (cs_active st) = map Z.of_nat (map r_file v)).
      { clear -HF header hash64. induction HF as [|x y l m Hx Hl IH]; cbn; [reflexivity|]. f_equal; [|exact IH].
        apply restore_reader_sound in Hx. apply Hx. }
      conj; auto.
      + unfold zlen in *; lia.
      + intros ->. rewrite Ea in Hlen. discriminate.
      + unfold zlen in *. lia.
      + rewrite Hfiles in G7. apply NoDup_map_inv in G7. exact G7.
      + intros r Hr. assert (Hx : exists x, In x (cs_active st) /\ restore_reader s x = Ok r).
        { clear -HF Hr. induction HF as [|x y l m Hx Hl IH]; [destruct Hr|].
          destruct Hr as [<-|Hr]; [exists x; split; [left; reflexivity|exact Hx]|].
          destruct (IH Hr) as (z & Hz & E). exists z. split; [right; exact Hz|exact E]. }
        destruct Hx as (x & Hx & E). apply restore_reader_sound in E as (E1 & E2 & E3). conj; auto.
        rewrite forallb_forall in G8. specialize (G8 (rs_file x)). cbn beta in G8.
        assert (Hin : In (rs_file x) (map rs_file (cs_active st))) by (apply in_map; exact Hx).
        specialize (G8 Hin). apply existsb_exists in G8 as (y & Hy & E4). apply Z.eqb_eq in E4. subst y.
        rewrite E1, G2, firstn_map in Hy. apply in_map_iff in Hy as (z & Hz & Hy).
        assert (z = r_file r) by lia. congruence.
  Qed.
End Package.
