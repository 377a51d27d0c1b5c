(** Interleaved reading of the sequential source: the loop invariant. *)
From Verif Require Import Base BaseFacts Rng RngFacts Source Composite CompositeSim NpzSpec NpzFacts.
From Verif Require Import Sequential SequentialSpec.
Set Implicit Arguments.
Unset Strict Implicit.

(** ** Association lists with default [] *)
Fixpoint look {B} (l : list (nat * list B)) (g : nat) : list B :=
  match l with
  | [] => []
  | (k, v) :: t => if (g =? k)%nat then v else look t g
  end.

Lemma look_notin {B} (l : list (nat * list B)) g : ~ In g (map fst l) -> look l g = [].
Proof.
  induction l as [|[k v] l IH]; cbn; [reflexivity|]. intros H.
  destruct (Nat.eqb_spec g k) as [->|E]; [tauto|]. apply IH. tauto.
Qed.

Lemma look_app {B} (l m : list (nat * list B)) g :
  look (l ++ m) g = if existsb (fun p => (g =? fst p)%nat) l then look l g else look m g.
Proof.
  induction l as [|[k v] l IH]; cbn; [reflexivity|].
  destruct (Nat.eqb_spec g k) as [E|E]; cbn; [reflexivity|exact IH].
Qed.

Lemma look_mid {B} (l1 : list (nat * list B)) k v l2 g :
  NoDup (map fst (l1 ++ (k, v) :: l2)) ->
  look (l1 ++ (k, v) :: l2) g = if (g =? k)%nat then v else look (l1 ++ l2) g.
Proof.
  induction l1 as [|[k1 v1] l1 IH]; intros H.
  - reflexivity.
  - cbn [app look]. cbn [app map] in H. inversion H as [|x xs Hn Hd]; subst. cbn in Hn.
    destruct (Nat.eqb_spec g k1) as [E|E].
    + destruct (Nat.eqb_spec g k) as [E'|E']; [|reflexivity].
      exfalso. apply Hn. rewrite map_app. apply in_or_app. right. left. cbn. congruence.
    + apply IH. exact Hd.
Qed.

Lemma look_mid_nil {B} (l1 : list (nat * list B)) k l2 g :
  NoDup (map fst (l1 ++ (k, []) :: l2)) ->
  look (l1 ++ (k, []) :: l2) g = look (l1 ++ l2) g.
Proof.
  intros H. rewrite look_mid by exact H. destruct (Nat.eqb_spec g k) as [->|]; [|reflexivity].
  rewrite look_notin; [reflexivity|]. rewrite map_app. rewrite map_app in H. cbn in H.
  apply NoDup_remove_2 in H. exact H.
Qed.

Lemma skipn_firstn_length {A} (n : nat) (l : list A) : skipn (List.length (firstn n l)) l = skipn n l.
Proof.
  rewrite firstn_length. destruct (Nat.min_spec n (List.length l)) as [[H ->]|[H ->]]; [reflexivity|].
  rewrite !skipn_all2 by lia. reflexivity.
Qed.

Lemma zrows_step (p c : Z) : p < c -> zrows p c = p :: zrows (p + 1) c.
Proof. intros H. apply zrows_cons. exact H. Qed.

Lemma skipn_cons_nth {A} (l : list A) p x :
  nth_error l p = Some x -> skipn p l = x :: skipn (S p) l.
Proof. intros H. apply (skipn_nth _ _ x H). Qed.

Lemma firstn_S_nth {A} (l : list A) p x :
  nth_error l p = Some x -> firstn (S p) l = firstn p l ++ [x].
Proof.
  revert p; induction l as [|y l IH]; intros [|p] H; cbn in *; try discriminate.
  - inversion H; reflexivity.
  - f_equal. apply IH. exact H.
Qed.

Lemma nth_error_skipn {A} (l : list A) k i : nth_error (skipn k l) i = nth_error l (k + i).
Proof. revert l; induction k as [|k IH]; intros [|x l]; cbn; auto. destruct i; reflexivity. Qed.

Lemma index_of_None x l : index_of x l = None -> ~ In x l.
Proof.
  induction l as [|y l IH]; cbn; [auto|]. destruct (zlist_eqb x y) eqn:E; [discriminate|].
  destruct (index_of x l) eqn:E2; [discriminate|]. intros _ [H|H].
  - subst y. assert (zlist_eqb x x = true) by (apply zlist_eqb_eq; reflexivity). congruence.
  - apply IH; auto.
Qed.

Section Read.
  Variable header : bytes.
  Variable hash64 : bytes -> Z.
  Variable s : seq_source.
  Variable es : nat -> list bytes.
  Variables epoch cycle a : Z.

  Hypothesis Hcontents : seq_contents s es.
  Hypothesis Ha : augmentation_epoch header hash64 s epoch cycle = Ok a.
  (** admission of every existing subrecord can be decided *)
  Hypothesis Hadm : forall i f k raw sub,
    nth_error (q_files s) i = Some f -> nth_error (es i) (Z.to_nat k) = Some raw -> 0 <= k ->
    0 <= sub < entry_count s raw ->
    exists b, sample_is_admitted header hash64 (q_num s) (q_den s) (q_seed s) a
                (seq_key s f cycle k sub) = Ok b.
  Hypothesis Hquantum : 0 < q_quantum s.

  Local Notation recs := (entry_records header hash64 s cycle a).
  Local Notation all_recs := (entries_records header hash64 s cycle a).
  Local Notation frecs := (file_records header hash64 s cycle a es).

  (** A reader is at an entry boundary of its file; its pending entry is the
      entry just read. *)
  Record reader_ok (r : reader) : Prop := {
    ro_file : exists f, nth_error (q_files s) (r_file r) = Some f
      /\ entries (q_format s) (skipn (r_offset r) (q_content f))
           (skipn (Z.to_nat (r_entry r)) (es (r_file r)));
    ro_entry : 0 <= r_entry r;
    ro_offset : (r_offset r <= List.length (content_of s (r_file r)))%nat;
    ro_pending : forall p, r_pending r = Some p ->
      p_entry p = r_entry r - 1 /\ 0 <= p_entry p
      /\ nth_error (es (r_file r)) (Z.to_nat (p_entry p)) = Some (p_raw p)
      /\ f_shape (q_format s) (p_raw p) <> Ok None
      /\ p_shape p = entry_code s (p_raw p) /\ p_count p = entry_count s (p_raw p)
      /\ 0 < p_next p < p_count p
      /\ f_count (q_format s) <> None
  }.

  (** The records still to come from a reader. *)
  Definition reader_records (r : reader) : list (envelope seq_payload) :=
    match nth_error (q_files s) (r_file r) with
    | None => []
    | Some f =>
        match r_pending r with
        | None => []
        | Some p => recs (r_file r) f (p_raw p) (p_entry p) (p_next p)
        end ++ all_recs (r_file r) f (r_entry r) (skipn (Z.to_nat (r_entry r)) (es (r_file r)))
    end.

  Definition streams (c : seq_cursor) : list (nat * list (envelope seq_payload)) :=
    map (fun r => (r_file r, reader_records r)) (sc_active c)
    ++ map (fun g => (g, frecs g)) (skipn (sc_next c) (sc_order c)).
  Definition rem (c : seq_cursor) (g : nat) : list (envelope seq_payload) := look (streams c) g.

  Record seq_inv (c : seq_cursor) : Prop := {
    iv_epoch : sc_epoch c = epoch;
    iv_cycle : sc_cycle c = cycle;
    iv_nodup : NoDup (map r_file (sc_active c) ++ skipn (sc_next c) (sc_order c));
    iv_range : Forall (fun g => (g < List.length (q_files s))%nat) (sc_order c);
    iv_sched : Forall (fun r => In (r_file r) (firstn (sc_next c) (sc_order c))) (sc_active c);
    iv_readers : Forall reader_ok (sc_active c);
    iv_next : (sc_next c <= List.length (sc_order c))%nat;
    iv_turn : match sc_active c with
              | [] => sc_turn c = 0%nat /\ sc_quantum c = 0 /\ sc_next c = List.length (sc_order c)
              | _ => (sc_turn c < List.length (sc_active c))%nat
              end;
    iv_quantum : 0 <= sc_quantum c < q_quantum s;
    iv_width : (List.length (sc_active c) <= q_active s)%nat
  }.

  Definition same_id (c c' : seq_cursor) : Prop :=
    sc_epoch c' = sc_epoch c /\ sc_cycle c' = sc_cycle c /\ sc_rank c' = sc_rank c
    /\ sc_order c' = sc_order c.

  Lemma streams_keys c :
    map fst (streams c) = map r_file (sc_active c) ++ skipn (sc_next c) (sc_order c).
  Proof. unfold streams. rewrite map_app, !map_map. cbn. rewrite map_id. reflexivity. Qed.

  (** *** The pending loop *)
  Lemma next_pending_spec i f raw k code : nth_error (q_files s) i = Some f ->
    nth_error (es i) (Z.to_nat k) = Some raw -> 0 <= k -> code = entry_code s raw ->
    forall fuel p,
    p_raw p = raw -> p_entry p = k -> p_shape p = code -> p_count p = entry_count s raw ->
    0 <= p_next p < p_count p -> fuel = Z.to_nat (p_count p - p_next p) ->
    exists env leftover,
      next_pending header hash64 fuel s epoch cycle i f p = Ok (env, leftover)
      /\ recs i f raw k (p_next p)
         = match env with Some e => [e] | None => [] end
           ++ match leftover with Some q => recs i f raw k (p_next q) | None => [] end
      /\ (env = None -> leftover = None)
      /\ (forall e, env = Some e -> e_source_id e = Z.of_nat i)
      /\ (forall q, leftover = Some q ->
            p_raw q = raw /\ p_entry q = k /\ p_shape q = code /\ p_count q = entry_count s raw
            /\ 0 < p_next q < p_count q).
  Proof.
    intros Hf Hraw Hk Hcode. induction fuel as [|fuel IH]; intros p Hr He Hs Hc Hn Hfuel; [lia|].
    cbn [next_pending]. rewrite Ha. cbn [bind]. rewrite He.
    destruct (@Hadm i f k raw (p_next p) Hf Hraw Hk) as [b Hb]; [lia|].
    rewrite Hb. cbn [bind].
    assert (Hz : recs i f raw k (p_next p)
      = (if b then [seq_envelope s i f cycle a raw k code (p_next p)] else [])
        ++ recs i f raw k (p_next p + 1)).
    { unfold entry_records. rewrite (@zrows_step (p_next p)) by lia. cbn [filter].
      unfold sub_admitted at 1. rewrite Hb. destruct b; cbn; rewrite <- ?Hcode; reflexivity. }
    destruct (Z.eqb_spec (p_next p + 1) (p_count p)) as [E|E].
    - assert (Hz2 : recs i f raw k (p_next p + 1) = []).
      { unfold entry_records. rewrite E, Hc. rewrite zrows_nil by lia. reflexivity. }
      rewrite Hz2, app_nil_r in Hz.
      destruct b.
      + eexists _, _. split; [reflexivity|]. rewrite Hr, Hs. conj.
        * rewrite Hz. rewrite app_nil_r. reflexivity.
        * discriminate.
        * intros e H; inversion H; reflexivity.
        * discriminate.
      + eexists _, _. split; [reflexivity|]. conj; try discriminate; auto.
    - destruct b.
      + eexists _, _. split; [reflexivity|]. rewrite Hr, Hs. conj.
        * rewrite Hz. reflexivity.
        * discriminate.
        * intros e H; inversion H; reflexivity.
        * intros q H; inversion H; subst q; cbn. conj; auto; lia.
      + edestruct IH as (env & lo & H1 & H2 & H3 & H4 & H5);
          [| | | | | |exists env, lo; split; [exact H1|]]; cbn [p_raw p_entry p_shape p_count p_next]; auto; try lia.
        cbn [p_next] in H2. rewrite Hz. cbn [app]. conj; auto.
  Qed.

  (** *** Replacing one reader *)
  Lemma active_split (c : seq_cursor) r : nth_error (sc_active c) (sc_turn c) = Some r ->
    exists A1 A2, sc_active c = A1 ++ r :: A2 /\ List.length A1 = sc_turn c.
  Proof. intros H. apply nth_error_split in H. exact H. Qed.

  Definition active_streams (l : list reader) : list (nat * list (envelope seq_payload)) :=
    map (fun r => (r_file r, reader_records r)) l.
  Definition unopened_streams (l : list nat) : list (nat * list (envelope seq_payload)) :=
    map (fun g => (g, frecs g)) l.
  Lemma streams_mid c A1 r A2 : sc_active c = A1 ++ r :: A2 ->
    streams c = active_streams A1 ++ (r_file r, reader_records r)
                :: active_streams A2 ++ unopened_streams (skipn (sc_next c) (sc_order c)).
  Proof.
    intros E. unfold streams, active_streams, unopened_streams. rewrite E, map_app, <- app_assoc.
    reflexivity.
  Qed.

  Lemma rem_with_reader c c' A1 A2 r r' :
    sc_active c = A1 ++ r :: A2 -> sc_active c' = A1 ++ r' :: A2 -> r_file r' = r_file r ->
    sc_next c' = sc_next c -> sc_order c' = sc_order c ->
    NoDup (map r_file (sc_active c) ++ skipn (sc_next c) (sc_order c)) ->
    rem c (r_file r) = reader_records r
    /\ rem c' (r_file r) = reader_records r'
    /\ forall h, h <> r_file r -> rem c' h = rem c h.
  Proof.
    intros Ea Ea' Hf Hn Ho Hd.
    assert (Hd' : NoDup (map r_file (sc_active c') ++ skipn (sc_next c') (sc_order c'))).
    { rewrite Hn, Ho, Ea'. rewrite Ea in Hd. rewrite map_app in *. cbn in *. rewrite Hf. exact Hd. }
    rewrite <- streams_keys in Hd. rewrite <- streams_keys in Hd'.
    unfold rem. rewrite (streams_mid Ea) in *. rewrite (streams_mid Ea') in *. rewrite Hn, Ho, Hf in *.
    conj.
    - rewrite look_mid by exact Hd. rewrite Nat.eqb_refl. reflexivity.
    - rewrite look_mid by exact Hd'. rewrite Nat.eqb_refl. reflexivity.
    - intros h Hh. rewrite !look_mid by assumption.
      apply Nat.eqb_neq in Hh. rewrite Hh. reflexivity.
  Qed.

  Lemma upd_split {A} (A1 : list A) r A2 x t : List.length A1 = t ->
    upd (A1 ++ r :: A2) t x = A1 ++ x :: A2.
  Proof. intros <-. apply upd_app. Qed.

  (** Putting a good reader of the same file in place keeps the invariant, for
      any legal turn and quantum. *)
  Lemma inv_with_reader c c' A1 A2 r r' :
    seq_inv c -> sc_active c = A1 ++ r :: A2 -> sc_active c' = A1 ++ r' :: A2 ->
    r_file r' = r_file r -> reader_ok r' ->
    same_id c c' -> sc_next c' = sc_next c ->
    (sc_turn c' < List.length (sc_active c'))%nat -> 0 <= sc_quantum c' < q_quantum s ->
    seq_inv c'.
  Proof.
    intros H Ea Ea' Hf Hr (H1 & H2 & H3 & H4) Hn Ht Hq. destruct H.
    constructor; try congruence.
    - rewrite Hn, H4, Ea'. rewrite Ea in iv_nodup0. rewrite map_app in *. cbn in *.
      rewrite Hf. exact iv_nodup0.
    - rewrite Hn, H4, Ea'. rewrite Ea in iv_sched0. apply Forall_app in iv_sched0.
      destruct iv_sched0 as [F1 F2]. inversion F2; subst. apply Forall_app. split; [exact F1|].
      constructor; [rewrite Hf; assumption|assumption].
    - rewrite Ea'. rewrite Ea in iv_readers0. apply Forall_app in iv_readers0.
      destruct iv_readers0 as [F1 F2]. inversion F2; subst. apply Forall_app. split; auto.
    - destruct (sc_active c') eqn:E; [|exact Ht]. destruct A1; discriminate.
    - rewrite Ea'. rewrite Ea in iv_width0. rewrite app_length in *. cbn in *. exact iv_width0.
  Qed.

  Lemma measure_with_reader c c' A1 A2 r r' :
    sc_active c = A1 ++ r :: A2 -> sc_active c' = A1 ++ r' :: A2 ->
    sc_order c' = sc_order c -> sc_next c' = sc_next c ->
    (reader_measure s r' < reader_measure s r)%nat -> (seq_measure s c' < seq_measure s c)%nat.
  Proof.
    intros Ea Ea' Ho Hn H. unfold seq_measure. rewrite Ho, Hn, Ea, Ea'.
    rewrite !map_app, !list_sum_app. cbn [map list_sum fold_right].
    change (fold_right Init.Nat.add 0 ?l)%nat with (list_sum l). lia.
  Qed.

  Definition quiet (c c' : seq_cursor) : Prop :=
    seq_inv c' /\ (seq_measure s c' < seq_measure s c)%nat /\ same_id c c'
    /\ forall g, rem c' g = rem c g.

  Definition emits (c : seq_cursor) (e : envelope seq_payload) (c' : seq_cursor) : Prop :=
    seq_inv c' /\ same_id c c'
    /\ exists g, In g (sc_order c) /\ e_source_id e = Z.of_nat g
       /\ rem c g = e :: rem c' g /\ forall h, h <> g -> rem c' h = rem c h.

  Lemma records_order_in c r : seq_inv c -> In r (sc_active c) -> In (r_file r) (sc_order c).
  Proof.
    intros H Hr. pose proof (iv_sched H) as F. rewrite Forall_forall in F.
    eapply in_firstn. apply F. exact Hr.
  Qed.

  Lemma nth_content r f : nth_error (q_files s) (r_file r) = Some f ->
    content_of s (r_file r) = q_content f.
  Proof. unfold content_of. intros ->. reflexivity. Qed.

  (** *** One iteration *)
  Lemma seq_step_spec c : seq_inv c ->
    match seq_step header hash64 s c with
    | inl c' => quiet c c'
    | inr (Ok (None, c')) => c' = c /\ sc_active c = []
    | inr (Ok (Some e, c')) => emits c e c'
    | inr (Err _) => False
    end.
  Proof.
    intros H. unfold seq_step. pose proof (iv_turn H) as Ht.
    destruct (sc_active c) as [|r0 rs] eqn:Eact; [auto|].
    rewrite <- Eact in *. assert (Hne : sc_active c <> []) by (rewrite Eact; discriminate).
    clear r0 rs Eact.
    destruct (nth_error (sc_active c) (sc_turn c)) as [r|] eqn:Er.
    2:{ apply nth_error_None in Er. lia. }
    assert (Hrok : reader_ok r).
    { pose proof (iv_readers H) as F. rewrite Forall_forall in F. apply F. eapply nth_error_In; eauto. }
    assert (Hin : In (r_file r) (sc_order c)).
    { apply records_order_in; [exact H|]. eapply nth_error_In; eauto. }
    destruct (active_split Er) as (A1 & A2 & Ea & Hlen).
    destruct (ro_file Hrok) as (f & Hf & Hent). rewrite Hf.
    destruct (r_pending r) as [p|] eqn:Ep.
    - (* pending subrecords *)
      destruct (ro_pending Hrok Ep) as (P1 & P2 & P3 & P4 & P5 & P6 & P7 & P8).
      edestruct (@next_pending_spec (r_file r) f (p_raw p) (p_entry p) (p_shape p) Hf P3 P2 P5
                   (pending_fuel p) p) as (env & lo & E & Hrec & Hnone & Hsrc & Hlo); auto; try lia.
      rewrite (iv_epoch H), (iv_cycle H), E.
      assert (Ea' : sc_active (set_active c (upd (sc_active c) (sc_turn c) (set_pending r lo)))
                    = A1 ++ set_pending r lo :: A2).
      { cbn. rewrite Ea. apply upd_split. exact Hlen. }
      set (c1 := set_active c _) in *.
      assert (Hrok' : reader_ok (set_pending r lo)).
      { constructor; cbn.
        - exists f. auto.
        - apply (ro_entry Hrok).
        - apply (ro_offset Hrok).
        - intros q Hq. destruct (Hlo q Hq) as (L1 & L2 & L3 & L4 & L5 & L6). rewrite L1, L2.
          conj; auto; try lia; congruence. }
      assert (Hi' : seq_inv c1).
      { eapply inv_with_reader with (c := c); eauto.
        - unfold same_id; auto.
        - rewrite Ea'. cbn. rewrite Ea in Ht. destruct A1; cbn in *; rewrite ?app_length in *; cbn in *; lia.
        - apply (iv_quantum H). }
      destruct (@rem_with_reader c c1 A1 A2 r (set_pending r lo)) as (R1 & R2 & R3);
        auto; [apply (iv_nodup H)|].
      assert (Hsplit : reader_records r = match env with Some e => [e] | None => [] end
                         ++ reader_records (set_pending r lo)).
      { unfold reader_records. cbn. rewrite Hf, Ep, Hrec. rewrite <- app_assoc. f_equal. f_equal.
        destruct lo as [q|]; [|reflexivity].
        destruct (Hlo q eq_refl) as (L1 & L2 & _). rewrite L1, L2. reflexivity. }
      destruct env as [e|].
      + split; [exact Hi'|]. split; [unfold same_id; auto|]. exists (r_file r). conj; auto.
        rewrite R1, R2, Hsplit. reflexivity.
      + rewrite (Hnone eq_refl) in *. split; [exact Hi'|]. split.
        { eapply measure_with_reader; eauto. unfold reader_measure. cbn. rewrite Ep. lia. }
        split; [unfold same_id; auto|].
        intros g. destruct (Nat.eq_dec g (r_file r)) as [->|Hg]; [|auto].
        rewrite R1, R2, Hsplit. reflexivity.
    - destruct (skipn (r_offset r) (q_content f)) as [|b0 bs] eqn:Erest.
      + (* end of file *)
        assert (Hskip : skipn (Z.to_nat (r_entry r)) (es (r_file r)) = []).
        { inversion Hent as [E1 E2|]; [reflexivity|congruence]. }
        assert (Hrr : reader_records r = []).
        { unfold reader_records. rewrite Hf, Ep, Hskip. reflexivity. }
        unfold replace_or_remove. rewrite (proj2 (py_get_Ok _ _ _) Er). cbn [bind]. rewrite Ep.
        pose proof (iv_nodup H) as Hd.
        destruct (Nat.ltb_spec (sc_next c) (List.length (sc_order c))) as [Hlt|Hge].
        * (* open the next file *)
          destruct (nth_error (sc_order c) (sc_next c)) as [h|] eqn:Eh.
          2:{ apply nth_error_None in Eh. lia. }
          rewrite (proj2 (py_get_Ok _ _ _) Eh). cbn [bind].
          assert (Hh : (h < List.length (q_files s))%nat).
          { pose proof (iv_range H) as F. rewrite Forall_forall in F. apply F. eapply nth_error_In; eauto. }
          destruct (nth_error (q_files s) h) as [fh|] eqn:Efh.
          2:{ apply nth_error_None in Efh. lia. }
          unfold open_reader. rewrite (proj2 (py_get_Ok _ _ _) Efh). cbn [bind].
          rewrite py_set_lt by lia. cbn [bind].
          set (rd := {| r_file := h; r_offset := 0; r_entry := 0; r_pending := None |}).
          set (c1 := set_turn _ _ _).
          assert (Ea' : sc_active c1 = A1 ++ rd :: A2).
          { subst c1. cbn. rewrite Ea. apply upd_split. exact Hlen. }
          assert (Hsk : skipn (sc_next c) (sc_order c) = h :: skipn (S (sc_next c)) (sc_order c)).
          { apply skipn_cons_nth. exact Eh. }
          assert (Hrd : reader_ok rd).
          { destruct (Hcontents Efh) as [He _]. constructor; cbn.
            - exists fh. auto.
            - lia.
            - lia.
            - discriminate. }
          assert (Hrdr : reader_records rd = frecs h).
          { unfold reader_records, file_records. cbn. rewrite Efh. reflexivity. }
          assert (Hd' : NoDup (map r_file (sc_active c1) ++ skipn (sc_next c1) (sc_order c1))).
          { rewrite Ea'. cbn [sc_next sc_order c1 set_turn set_active set_next].
            rewrite Ea, Hsk in Hd. rewrite map_app in *. cbn [map] in *. rewrite <- app_assoc in *.
            cbn [app] in *. apply NoDup_remove_1 in Hd. rewrite app_assoc in Hd.
            eapply Permutation_NoDup; [|exact Hd]. cbn [r_file rd].
            rewrite <- app_assoc. apply Permutation_app_head.
            symmetry. apply Permutation_middle. }
          split; [|split; [|split]].
          -- constructor.
             ++ apply (iv_epoch H).
             ++ apply (iv_cycle H).
             ++ exact Hd'.
             ++ apply (iv_range H).
             ++ rewrite Ea'. change (sc_order c1) with (sc_order c). change (sc_next c1) with (S (sc_next c)).
                pose proof (iv_sched H) as F. rewrite Ea in F. apply Forall_app in F.
                destruct F as [F1 F2]. inversion F2 as [|x xs F3 F4]; subst x xs.
                assert (Hsub : forall x, In x (firstn (sc_next c) (sc_order c)) ->
                                 In x (firstn (S (sc_next c)) (sc_order c))).
                { intros x Hx. rewrite (firstn_S_nth Eh). apply in_or_app. auto. }
                apply Forall_app. split; [|constructor].
                ** eapply Forall_impl; [|exact F1]. cbn. auto.
                ** change (r_file rd) with h. rewrite (firstn_S_nth Eh). apply in_or_app. right. left. reflexivity.
                ** eapply Forall_impl; [|exact F4]. cbn. auto.
             ++ rewrite Ea'. pose proof (iv_readers H) as F. rewrite Ea in F. apply Forall_app in F.
                destruct F as [F1 F2]. inversion F2; subst. apply Forall_app. split; auto.
             ++ cbn. lia.
             ++ rewrite Ea'. change (sc_turn c1) with (sc_turn c). rewrite <- Hlen.
                destruct A1; cbn; [lia|]. rewrite app_length. cbn. lia.
             ++ cbn. lia.
             ++ rewrite Ea'. pose proof (iv_width H) as W. rewrite Ea in W. rewrite app_length in *.
                cbn in *. lia.
          -- unfold seq_measure. change (sc_order c1) with (sc_order c).
             change (sc_next c1) with (S (sc_next c)). rewrite Ea', Ea, Hsk.
             rewrite !map_app, !list_sum_app. cbn [map list_sum fold_right].
             change (fold_right Init.Nat.add 0 ?l)%nat with (list_sum l).
             unfold reader_measure at 2 5, file_measure at 2. cbn [r_file r_offset r_pending rd].
             rewrite Ep. lia.
          -- unfold same_id. auto.
          -- intros g. rewrite <- streams_keys in Hd. rewrite <- streams_keys in Hd'.
             unfold rem. rewrite (streams_mid Ea) in *. rewrite (streams_mid Ea') in *.
             change (sc_order c1) with (sc_order c) in *. change (sc_next c1) with (S (sc_next c)) in *.
             rewrite Hsk in *. rewrite Hrdr, Hrr in *. cbn [r_file rd] in *.
             rewrite look_mid_nil by exact Hd.
             rewrite look_mid by exact Hd'.
             unfold unopened_streams in *. cbn [map] in *.
             rewrite (app_assoc _ _ ((h, frecs h) :: _)). rewrite look_mid.
             ++ rewrite <- app_assoc. reflexivity.
             ++ rewrite <- app_assoc. rewrite map_app in Hd |- *. cbn [map] in Hd.
                apply NoDup_remove_1 in Hd. exact Hd.
        * (* drop the reader *)
          set (c1 := set_turn _ _ _).
          assert (Ea' : sc_active c1 = A1 ++ A2).
          { subst c1. cbn. unfold remove_at. rewrite Ea, <- Hlen.
            rewrite firstn_app, Nat.sub_diag, firstn_all, firstn_O, app_nil_r. f_equal.
            rewrite skipn_app. rewrite skipn_all2 by lia. cbn [app].
            replace (S (List.length A1) - List.length A1)%nat with 1%nat by lia. reflexivity. }
          assert (Hnext : sc_next c = List.length (sc_order c)) by (pose proof (iv_next H); lia).
          assert (Hsk : skipn (sc_next c) (sc_order c) = []) by (apply skipn_all2; lia).
          split; [|split; [|split]].
          -- constructor.
             ++ apply (iv_epoch H).
             ++ apply (iv_cycle H).
             ++ rewrite Ea'. cbn [sc_next sc_order c1 set_turn set_active]. rewrite Hsk in *.
                rewrite app_nil_r in *. rewrite Ea in Hd. rewrite map_app in *. cbn in Hd.
                apply NoDup_remove_1 in Hd. exact Hd.
             ++ apply (iv_range H).
             ++ rewrite Ea'. pose proof (iv_sched H) as F. rewrite Ea in F. apply Forall_app in F.
                destruct F as [F1 F2]. inversion F2; subst. apply Forall_app. auto.
             ++ rewrite Ea'. pose proof (iv_readers H) as F. rewrite Ea in F. apply Forall_app in F.
                destruct F as [F1 F2]. inversion F2; subst. apply Forall_app. auto.
             ++ apply (iv_next H).
             ++ destruct (sc_active c1) as [|x xs] eqn:E1.
                ** assert (A1 = [] /\ A2 = []) as [-> ->] by (apply app_eq_nil; congruence).
                   cbn in Hlen. subst c1. cbn. cbn in E1. rewrite E1. auto.
                ** rewrite <- E1. subst c1. cbn in *. rewrite E1. apply Nat.mod_upper_bound. discriminate.
             ++ cbn. lia.
             ++ rewrite Ea'. pose proof (iv_width H) as W. rewrite Ea in W. rewrite app_length in *.
                cbn in *. lia.
          -- unfold seq_measure. change (sc_order c1) with (sc_order c).
             change (sc_next c1) with (sc_next c). rewrite Ea', Ea.
             rewrite !map_app, !list_sum_app. cbn [map list_sum fold_right].
             change (fold_right Init.Nat.add 0 ?l)%nat with (list_sum l).
             unfold reader_measure at 4. lia.
          -- unfold same_id. auto.
          -- intros g. rewrite <- streams_keys in Hd. unfold rem. rewrite (streams_mid Ea) in *.
             rewrite Hrr in *. rewrite look_mid_nil by exact Hd.
             unfold streams, active_streams, unopened_streams. rewrite Ea', map_app, <- app_assoc.
             reflexivity.
      + (* read one entry *)
        rewrite <- Erest in *. remember (skipn (r_offset r) (q_content f)) as rest eqn:Hrest.
        inversion Hent as [E1 E2|rest0 n t Hnz Hread Hraw Ht' E1 E2]; [congruence|].
        subst rest0. destruct rest as [|b1 bs1]; [congruence|]. remember (b1 :: bs1) as rest eqn:Hr1.
        rewrite Hread. remember (firstn n rest) as raw eqn:Eraw.
        destruct raw as [|b2 bs2]; [congruence|]. remember (b2 :: bs2) as raw eqn:Hr2.
        clear Hr1 Hr2 b1 bs1 b2 bs2 Erest b0 bs Hnz.
        assert (Hk : nth_error (es (r_file r)) (Z.to_nat (r_entry r)) = Some raw).
        { rewrite <- (Nat.add_0_r (Z.to_nat (r_entry r))). rewrite <- nth_error_skipn.
          rewrite <- E2. reflexivity. }
        assert (Ht2 : t = skipn (Z.to_nat (r_entry r + 1)) (es (r_file r))).
        { rewrite (skipn_cons_nth Hk) in E2. inversion E2 as [[E3]].
          replace (Z.to_nat (r_entry r + 1)) with (S (Z.to_nat (r_entry r)))
            by (pose proof (ro_entry Hrok); lia). reflexivity. }
        assert (Hrawlen : (0 < List.length raw)%nat) by (destruct raw; [congruence|cbn; lia]).
        assert (Hoff : (r_offset r + List.length raw <= List.length (q_content f))%nat).
        { rewrite Eraw, firstn_length, Hrest, skipn_length. pose proof (ro_offset Hrok) as Ho.
          rewrite (nth_content Hf) in Ho. lia. }
        remember {| r_file := r_file r; r_offset := (r_offset r + List.length raw)%nat;
               r_entry := r_entry r + 1; r_pending := None |} as r1 eqn:Er1.
        assert (Hent1 : entries (q_format s) (skipn (r_offset r1) (q_content f))
                  (skipn (Z.to_nat (r_entry r1)) (es (r_file r)))).
        { subst r1. cbn. rewrite <- Ht2. rewrite Nat.add_comm, <- skipn_skipn, <- Hrest.
          rewrite Eraw, skipn_firstn_length. exact Ht'. }
        assert (Hr1 : forall p, (forall q, p = Some q ->
                  p_entry q = r_entry r /\ p_raw q = raw /\ f_shape (q_format s) raw <> Ok None
                  /\ p_shape q = entry_code s raw /\ p_count q = entry_count s raw
                  /\ 0 < p_next q < p_count q /\ f_count (q_format s) <> None) ->
                reader_ok (set_pending r1 p)).
        { intros p Hp. subst r1. constructor; cbn.
          - exists f. auto.
          - pose proof (ro_entry Hrok). lia.
          - unfold content_of. rewrite Hf. exact Hoff.
          - intros q Hq. destruct (Hp q Hq) as (L1 & L2 & L3 & L4 & L5 & L6 & L7). rewrite L1, L2.
            pose proof (ro_entry Hrok). conj; auto; lia. }
        remember (set_turn (set_active c (upd (sc_active c) (sc_turn c) r1)) (sc_turn c)
                    (sc_quantum c + 1)) as c1 eqn:Ec1.
        assert (Ea1 : sc_active c1 = A1 ++ r1 :: A2).
        { subst c1. cbn. rewrite Ea. apply upd_split. exact Hlen. }
        remember (if q_quantum s <=? sc_quantum c1 then advance_turn c1 else c1) as c2 eqn:Ec2.
        assert (Hc2 : sc_active c2 = A1 ++ r1 :: A2 /\ same_id c c2 /\ sc_next c2 = sc_next c
                  /\ (sc_turn c2 < List.length (sc_active c))%nat /\ 0 <= sc_quantum c2 < q_quantum s).
        { pose proof (iv_quantum H) as Hq.
          assert (Hl1 : List.length (sc_active c1) = List.length (sc_active c)).
          { rewrite Ea1, Ea, !app_length. reflexivity. }
          destruct (Z.leb_spec (q_quantum s) (sc_quantum c1)) as [Hle|Hgt].
          - assert (Hs2 : sc_active c2 = sc_active c1) by (subst c2; reflexivity).
            conj.
            + rewrite Hs2. exact Ea1.
            + subst c2 c1. unfold same_id. auto.
            + subst c2 c1. reflexivity.
            + subst c2. unfold advance_turn. cbn [sc_turn set_turn]. rewrite <- Hl1.
              destruct (sc_active c1) eqn:E3; [destruct A1; discriminate|]. rewrite <- E3.
              apply Nat.mod_upper_bound. rewrite E3. discriminate.
            + subst c2. cbn. lia.
            + subst c2. cbn. lia.
          - rewrite Ec2. conj; auto.
            + subst c1. unfold same_id. auto.
            + subst c1. reflexivity.
            + subst c1. cbn. destruct (sc_active c); [congruence|exact Ht].
            + subst c1. cbn. lia. }
        clear Ec2. destruct Hc2 as (C1 & C2 & C3 & C4 & C5).
        assert (Hrecs : reader_records r = recs (r_file r) f raw (r_entry r) 0
                  ++ all_recs (r_file r) f (r_entry r + 1)
                       (skipn (Z.to_nat (r_entry r + 1)) (es (r_file r)))).
        { unfold reader_records. rewrite Hf, Ep, <- E2, <- Ht2. reflexivity. }
        assert (Hr1f : r_file r1 = r_file r) by (subst r1; reflexivity).
        assert (Hr1e : r_entry r1 = r_entry r + 1) by (subst r1; reflexivity).
        assert (Hmeas : forall p, (reader_measure s (set_pending r1 p) + 1 <=
                  reader_measure s r + match p with Some _ => 1 | None => 0 end)%nat).
        { intros p. unfold reader_measure. cbn. rewrite Hr1f, (nth_content Hf), Ep. subst r1. cbn.
          destruct p; lia. }
        assert (Hskip : forall c3, sc_active c3 = A1 ++ r1 :: A2 -> same_id c c3 ->
                  sc_next c3 = sc_next c -> (sc_turn c3 < List.length (sc_active c))%nat ->
                  0 <= sc_quantum c3 < q_quantum s ->
                  recs (r_file r) f raw (r_entry r) 0 = [] -> quiet c c3).
        { intros c3 K1 K2 K3 K4 K5 K6.
          assert (Hr1' : r1 = set_pending r1 None) by (subst r1; reflexivity).
          split; [|split; [|split]].
          - eapply inv_with_reader with (c := c); eauto.
            + rewrite Hr1'. apply Hr1. discriminate.
            + rewrite K1. rewrite Ea in K4. rewrite app_length in *. exact K4.
          - eapply measure_with_reader; eauto; [apply K2|]. specialize (Hmeas None).
            rewrite <- Hr1' in Hmeas. lia.
          - exact K2.
          - destruct (@rem_with_reader c c3 A1 A2 r r1) as (R1 & R2 & R3); auto; [apply K2|apply (iv_nodup H)|].
            intros g. destruct (Nat.eq_dec g (r_file r)) as [->|Hg]; [|auto].
            rewrite R1, R2, Hrecs, K6. unfold reader_records. rewrite Hr1f, Hf, Hr1e. subst r1. reflexivity. }
        destruct (Hcontents Hf) as [_ Hgood]. rewrite Forall_forall in Hgood.
        assert (Hok : entry_ok s raw) by (apply Hgood; eapply nth_error_In; eauto).
        destruct Hok as [_ Hok].
        destruct (f_shape (q_format s) raw) as [[sh|]|] eqn:Esh; [| |contradiction].
        2:{ apply Hskip; auto. unfold entry_records, entry_count. rewrite Esh.
            rewrite zrows_nil by lia. reflexivity. }
        destruct Hok as [Hsh Hcnt].
        destruct (index_of sh (q_shapes s)) as [code|] eqn:Ecode.
        2:{ exfalso. apply (index_of_None Ecode Hsh). }
        assert (Hcode : entry_code s raw = Z.of_nat code).
        { unfold entry_code. rewrite Esh, Ecode. reflexivity. }
        assert (Hcount : exists n0, match f_count (q_format s) with None => Ok 1 | Some cnt => cnt raw end
                   = Ok n0 /\ 0 <= n0 /\ entry_count s raw = n0).
        { unfold entry_count. rewrite Esh. destruct (f_count (q_format s)) as [cnt|].
          - destruct Hcnt as (n0 & E0 & H0). exists n0. rewrite E0. auto.
          - exists 1. conj; auto; lia. }
        destruct Hcount as (cnt0 & Ecnt & Hcnt0 & Hec). rewrite Ecnt.
        destruct (Z.ltb_spec cnt0 0) as [Hneg|_]; [lia|].
        destruct (Z.eqb_spec cnt0 0) as [Hz|Hnz2].
        { apply Hskip; auto. unfold entry_records. rewrite Hec, Hz. rewrite zrows_nil by lia. reflexivity. }
        remember {| p_raw := raw; p_entry := r_entry r; p_shape := Z.of_nat code;
                    p_next := 0; p_count := cnt0 |} as p eqn:Ep0.
        edestruct (@next_pending_spec (r_file r) f raw (r_entry r) (Z.of_nat code) Hf Hk (ro_entry Hrok)
                     (eq_sym Hcode) (pending_fuel p) p)
          as (env & lo & E & Hrec & Hnone & Hsrc & Hlo); try (subst p; cbn; auto; lia).
        rewrite (iv_epoch H), (iv_cycle H), E.
        remember (set_active c2 (upd (sc_active c2) (sc_turn c) (set_pending r1 lo))) as c3 eqn:Ec3.
        assert (Ea3 : sc_active c3 = A1 ++ set_pending r1 lo :: A2).
        { subst c3. cbn. rewrite C1. apply upd_split. exact Hlen. }
        assert (Hid3 : same_id c c3) by (subst c3; exact C2).
        assert (Hnx3 : sc_next c3 = sc_next c) by (subst c3; exact C3).
        assert (Hsub : forall q, lo = Some q -> f_count (q_format s) <> None).
        { intros q Hq Hn. destruct (Hlo q Hq) as (_ & _ & _ & L4 & L5). rewrite Hn in Ecnt.
          inversion Ecnt. lia. }
        assert (Hok3 : reader_ok (set_pending r1 lo)).
        { apply Hr1. intros q Hq. destruct (Hlo q Hq) as (L1 & L2 & L3 & L4 & L5 & L6).
          conj; auto; try congruence; try lia. eapply Hsub; eauto. }
        assert (Hi3 : seq_inv c3).
        { eapply inv_with_reader with (c := c); eauto.
          - rewrite Ea3. subst c3. cbn. rewrite Ea in C4. rewrite app_length in *. exact C4.
          - subst c3. exact C5. }
        destruct (@rem_with_reader c c3 A1 A2 r (set_pending r1 lo)) as (R1 & R2 & R3);
          auto; [apply Hid3|apply (iv_nodup H)|].
        assert (Hsplit : reader_records r = match env with Some e => [e] | None => [] end
                           ++ reader_records (set_pending r1 lo)).
        { rewrite Hrecs. unfold reader_records. cbn. rewrite Hr1f, Hf, Hr1e.
          replace 0 with (p_next p) by (subst p; reflexivity).
          rewrite Hrec. rewrite <- app_assoc. f_equal. f_equal.
          destruct lo as [q|]; [|reflexivity].
          destruct (Hlo q eq_refl) as (L1 & L2 & _). rewrite L1, L2. reflexivity. }
        destruct env as [e|].
        * split; [exact Hi3|]. split; [exact Hid3|]. exists (r_file r). conj; auto.
          rewrite R1, R2, Hsplit. reflexivity.
        * rewrite (Hnone eq_refl) in *. split; [exact Hi3|]. split.
          { apply (@measure_with_reader c c3 A1 A2 r (set_pending r1 None)); auto; [apply Hid3|].
            assert (Hmn : (reader_measure s (set_pending r1 None) + 1 <= reader_measure s r + 0)%nat)
              by exact (Hmeas None). lia. }
          split; [exact Hid3|].
          intros g. destruct (Nat.eq_dec g (r_file r)) as [->|Hg]; [|auto].
          rewrite R1, R2, Hsplit. reflexivity.
  Qed.
End Read.
