(** The order in which the sequential source reads: turns of [quantum] entries. *)
From Verif Require Import Base BaseFacts Rng RngFacts Source Composite CompositeSim NpzSpec NpzFacts.
From Verif Require Import Sequential SequentialSpec SequentialFacts SequentialGlue.
Set Implicit Arguments.
Unset Strict Implicit.

(** ** Specification *)
Section Spec.
  Variable A : Type.
  Variable quantum : Z.
  (** An open file: the records still due from the entry read last, and the records of
      each of its unread entries. *)
  Definition open_file : Type := (list A * list (list A))%type.
  (** [reads open waiting turn used out]: with these open files, waiting files, the file
      whose turn it is, and the number of entries it has used of its turn, reading delivers
      [out]. *)
  Inductive reads : list open_file -> list (list (list A)) -> nat -> Z -> list A -> Prop :=
  | R_end turn used : reads [] [] turn used []
  | R_due l1 x due rest l2 waiting used out :
      reads (l1 ++ (due, rest) :: l2) waiting (List.length l1) used out ->
      reads (l1 ++ (x :: due, rest) :: l2) waiting (List.length l1) used (x :: out)
  | R_entry_same_turn l1 entry rest l2 waiting used out :
      used + 1 < quantum ->
      reads (l1 ++ (tl entry, rest) :: l2) waiting (List.length l1) (used + 1) out ->
      reads (l1 ++ ([], entry :: rest) :: l2) waiting (List.length l1) used (firstn 1 entry ++ out)
  | R_entry_next_turn l1 entry rest l2 waiting used out :
      quantum <= used + 1 ->
      reads (l1 ++ (tl entry, rest) :: l2) waiting (match l2 with [] => 0 | _ => S (List.length l1) end)%nat 0 out ->
      reads (l1 ++ ([], entry :: rest) :: l2) waiting (List.length l1) used (firstn 1 entry ++ out)
  | R_replace l1 file l2 waiting used out :
      reads (l1 ++ ([], file) :: l2) waiting (List.length l1) 0 out ->
      reads (l1 ++ ([], []) :: l2) (file :: waiting) (List.length l1) used out
  | R_close l1 l2 used out :
      reads (l1 ++ l2) [] (match l2 with [] => 0 | _ => List.length l1 end)%nat 0 out ->
      reads (l1 ++ ([], []) :: l2) [] (List.length l1) used out.

  (** The specification determines the order. *)
  Lemma reads_length open waiting turn used out : reads open waiting turn used out ->
    open = [] \/ (turn < List.length open)%nat.
  Proof. destruct 1; [auto|right..]; rewrite app_length; cbn; lia. Qed.
  Lemma mid_inv (B : Type) (l1 l1' : list B) x x' l2 l2' : l1 ++ x :: l2 = l1' ++ x' :: l2' -> List.length l1 = List.length l1' ->
    l1 = l1' /\ x = x' /\ l2 = l2'.
  Proof.
    intros E L. apply app_inj_length in E; [|exact L].
    destruct E as [-> E]. injection E as -> ->. auto.
  Qed.
  Lemma reads_unique open waiting turn used out : reads open waiting turn used out ->
    forall out', reads open waiting turn used out' -> out = out'.
  Proof.
    induction 1 as [turn used|l1 x due rest l2 w u out _ IH|l1 e rest l2 w u out Hu _ IH|l1 e rest l2 w u out Hu _ IH|l1 file l2 w u out _ IH|l1 l2 u out _ IH];
      intros out' H'; inversion H' as [t0 u0 E1|l1' x' due' rest' l2' w' u' o' H1 E1 E2 E3|l1' e' rest' l2' w' u' o' Hu' H1 E1 E2 E3|l1' e' rest' l2' w' u' o' Hu' H1 E1 E2 E3
        |l1' file' l2' w' u' o' H1 E1 E2 E3|l1' l2' u' o' H1 E1 E2 E3]; subst;
      try reflexivity; try (destruct l1; discriminate); try (destruct l1'; discriminate);
      try (apply mid_inv in E1; [|assumption || (symmetry; assumption)]; destruct E1 as (E1 & E4 & E5); inversion E4; subst);
      try lia; try discriminate.
    all: try (rewrite (IH _ H1); reflexivity).
    all: try (f_equal; apply IH; exact H1).
  Qed.
End Spec.

(** The records of each of consecutive entries, the first of which has index [entry]. *)
Fixpoint per_entry (header : bytes) (hash64 : bytes -> Z) (s : seq_source) (cycle a : Z)
    (file : nat) (f : seq_file) (entry : Z) (es : list bytes) : list (list (envelope seq_payload)) :=
  match es with
  | [] => []
  | raw :: t => entry_records header hash64 s cycle a file f raw entry 0
                :: per_entry header hash64 s cycle a file f (entry + 1) t
  end.
Definition file_entries (header : bytes) (hash64 : bytes -> Z) (s : seq_source) (cycle a : Z)
    (es : nat -> list bytes) (file : nat) : list (list (envelope seq_payload)) :=
  match nth_error (q_files s) file with
  | Some f => per_entry header hash64 s cycle a file f 0 (es file)
  | None => []
  end.

Section Turns.
  Variable header : bytes.
  Variable hash64 : bytes -> Z.
  Variable s : seq_source.
  Variable es : nat -> list bytes.
  Variables epoch cycle a : Z.
  Hypothesis Hcontents : seq_contents s es.
  Hypothesis Ha : augmentation_epoch header hash64 s epoch cycle = Ok a.
  Hypothesis Hadm : forall i f k raw sub,
    nth_error (q_files s) i = Some f -> nth_error (es i) (Z.to_nat k) = Some raw -> 0 <= k ->
    0 <= sub < entry_count s raw ->
    exists b, sample_is_admitted header hash64 (q_num s) (q_den s) (q_seed s) a
                (seq_key s f cycle k sub) = Ok b.
  Hypothesis G : good_seq s.

  Local Notation inv := (seq_inv s es epoch cycle).
  Local Notation recs := (entry_records header hash64 s cycle a).
  Local Notation per := (per_entry header hash64 s cycle a).

  Definition opened (r : reader) : open_file (envelope seq_payload) :=
    match nth_error (q_files s) (r_file r) with
    | None => ([], [])
    | Some f =>
        (match r_pending r with
         | None => []
         | Some p => recs (r_file r) f (p_raw p) (p_entry p) (p_next p)
         end,
         per (r_file r) f (r_entry r) (skipn (Z.to_nat (r_entry r)) (es (r_file r))))
    end.
  Definition will_read (c : seq_cursor) (out : list (envelope seq_payload)) : Prop :=
    reads (q_quantum s) (map opened (sc_active c))
      (map (file_entries header hash64 s cycle a es) (skipn (sc_next c) (sc_order c)))
      (sc_turn c) (sc_quantum c) out.

  Lemma entry_step used l1 entry rest l2 waiting turn' used' out env lo :
    entry = match env with Some e => [e] | None => [] end ++ lo ->
    (env = None -> lo = []) ->
    (if q_quantum s <=? used + 1
     then turn' = (match l2 with [] => 0 | _ => S (List.length l1) end)%nat /\ used' = 0
     else turn' = List.length l1 /\ used' = used + 1) ->
    reads (q_quantum s) (l1 ++ (lo, rest) :: l2) waiting turn' used' out ->
    reads (q_quantum s) (l1 ++ ([], entry :: rest) :: l2) waiting (List.length l1) used
      (match env with Some e => [e] | None => [] end ++ out : list (envelope seq_payload)).
  Proof.
    intros He Hn Ht H.
    assert (E1 : firstn 1 entry = match env with Some e => [e] | None => [] end).
    { rewrite He. destruct env; [reflexivity|]. rewrite (Hn eq_refl). reflexivity. }
    assert (E2 : tl entry = lo).
    { rewrite He. destruct env; [reflexivity|]. rewrite (Hn eq_refl). reflexivity. }
    rewrite <- E1. destruct (Z.leb_spec (q_quantum s) (used + 1)) as [L|L]; destruct Ht as [-> ->].
    - apply R_entry_next_turn; [exact L|]. rewrite E2. exact H.
    - apply R_entry_same_turn; [exact L|]. rewrite E2. exact H.
  Qed.

  Lemma step_turns c : inv c ->
    match seq_step header hash64 s c with
    | inl c' => forall l, will_read c' l -> will_read c l
    | inr (Ok (None, c')) => will_read c []
    | inr (Ok (Some e, c')) => forall l, will_read c' l -> will_read c (e :: l)
    | inr (Err _) => True
    end.
  Proof.
    intros H. unfold seq_step. pose proof (iv_turn H) as Ht.
    destruct (sc_active c) as [|r0 rs] eqn:Eact.
    { unfold will_read. rewrite Eact. destruct Ht as (_ & _ & Hn). rewrite Hn, skipn_all.
      apply R_end. }
    rewrite <- Eact in *. assert (Hne : sc_active c <> []) by (rewrite Eact; discriminate).
    clear r0 rs Eact.
    destruct (nth_error (sc_active c) (sc_turn c)) as [r|] eqn:Er; [|exact I].
    assert (Hrok : reader_ok s es r).
    { pose proof (iv_readers H) as F. rewrite Forall_forall in F. apply F. eapply nth_error_In; eauto. }
    destruct (active_split Er) as (A1 & A2 & Ea & Hlen).
    destruct (ro_file Hrok) as (f & Hf & Hent). rewrite Hf.
    assert (Hcur : map opened (sc_active c) = map opened A1 ++ opened r :: map opened A2).
    { rewrite Ea, map_app. reflexivity. }
    assert (Hlm : List.length (map opened A1) = sc_turn c) by (rewrite map_length; exact Hlen).
    destruct (r_pending r) as [p|] eqn:Ep.
    - destruct (ro_pending Hrok Ep) as (P1 & P2 & P3 & P4 & P5 & P6 & P7 & P8).
      edestruct (@next_pending_spec header hash64 s es epoch cycle a Ha Hadm (r_file r) f (p_raw p) (p_entry p) (p_shape p) Hf P3 P2 P5
                   (pending_fuel p) p) as (env & lo & E & Hrec & Hnone & Hsrc & Hlo); auto; try lia.
      rewrite (iv_epoch H), (iv_cycle H), E.
      assert (Ea' : sc_active (set_active c (upd (sc_active c) (sc_turn c) (set_pending r lo)))
                    = A1 ++ set_pending r lo :: A2).
      { cbn. rewrite Ea. apply upd_split. exact Hlen. }
      assert (Ho : opened r = (match env with Some e => [e] | None => [] end ++ fst (opened (set_pending r lo)),
                               snd (opened (set_pending r lo)))).
      { unfold opened. cbn [set_pending r_file r_pending r_entry]. rewrite Hf, Ep, Hrec. cbn [fst snd]. f_equal. f_equal.
        destruct lo as [q|]; [|reflexivity]. destruct (Hlo q eq_refl) as (L1 & L2 & _). rewrite L1, L2. reflexivity. }
      assert (Hgo : forall l, will_read (set_active c (upd (sc_active c) (sc_turn c) (set_pending r lo))) l ->
                will_read c (match env with Some e => [e] | None => [] end ++ l)).
      { intros l Hw. unfold will_read in *. rewrite Ea' in Hw. rewrite Hcur, Ho. rewrite map_app in Hw.
        cbn [map sc_next sc_order sc_turn sc_quantum set_active] in Hw.
        destruct (opened (set_pending r lo)) as [due rest]. cbn [fst snd].
        destruct env as [e|].
        - rewrite <- Hlm in *. cbn [app]. apply R_due. exact Hw.
        - exact Hw. }
      destruct env as [e|]; exact Hgo.
    - destruct (skipn (r_offset r) (q_content f)) as [|b0 bs] eqn:Erest.
      + assert (Hend : skipn (Z.to_nat (r_entry r)) (es (r_file r)) = []).
        { inversion Hent as [E1 E2|rest0 n t Hnz Hread Hraw Ht' E1 E2]; [reflexivity|congruence]. }
        assert (Ho : opened r = ([], [])).
        { unfold opened. rewrite Hf, Ep, Hend. reflexivity. }
        unfold replace_or_remove. rewrite (proj2 (py_get_Ok _ _ _) Er). cbn [bind]. rewrite Ep.
        destruct (Nat.ltb_spec (sc_next c) (List.length (sc_order c))) as [Hlt|Hge].
        * destruct (nth_error (sc_order c) (sc_next c)) as [h|] eqn:Eh; [|apply nth_error_None in Eh; lia].
          rewrite (proj2 (py_get_Ok _ _ _) Eh). cbn [bind]. unfold open_reader.
          destruct (nth_error (q_files s) h) as [fh|] eqn:Efh.
          2:{ unfold py_get. rewrite Efh. exact I. }
          rewrite (proj2 (py_get_Ok _ _ _) Efh). cbn [bind].
          set (rd := {| r_file := h; r_offset := 0; r_entry := 0; r_pending := None |}).
          destruct (py_set (sc_active c) (sc_turn c) rd) as [act|] eqn:Eset; [|exact I]. cbn [bind].
          assert (Eact : act = A1 ++ rd :: A2).
          { unfold py_set in Eset. rewrite Ea in Eset.
            destruct (sc_turn c <? _)%nat in Eset; [|discriminate]. injection Eset as <-. apply upd_split. exact Hlen. }
          intros l Hw. unfold will_read in *. cbn [sc_active sc_next sc_order sc_turn sc_quantum set_turn set_active set_next] in Hw.
          rewrite Hcur, Ho. rewrite (skipn_cons_nth Eh). cbn [map]. rewrite <- Hlm. apply R_replace.
          rewrite Eact, map_app in Hw. cbn [map] in Hw.
          assert (Hrd : opened rd = ([], file_entries header hash64 s cycle a es h)).
          { unfold opened, file_entries. cbn [rd r_file r_pending r_entry]. rewrite Efh. reflexivity. }
          rewrite Hrd in Hw. rewrite <- Hlm in Hw. exact Hw.
        * intros l Hw. unfold will_read in *.
          assert (Hsk : skipn (sc_next c) (sc_order c) = []) by (apply skipn_all2; lia).
          cbn [sc_active sc_next sc_order sc_turn sc_quantum set_turn set_active set_next] in Hw.
          rewrite Hsk in *. cbn [map] in *.
          assert (Ea' : remove_at (sc_active c) (sc_turn c) = A1 ++ A2).
          { unfold remove_at. rewrite Ea, <- Hlen.
            rewrite firstn_app, Nat.sub_diag, firstn_all, firstn_O, app_nil_r. f_equal.
            rewrite skipn_app. rewrite skipn_all2 by lia. cbn [app].
            replace (S (List.length A1) - List.length A1)%nat with 1%nat by lia. reflexivity. }
          rewrite Ea' in Hw. rewrite map_app in Hw. rewrite Hcur, Ho, <- Hlm. apply R_close.
          assert (Et : (match A1 ++ A2 with [] => sc_turn c | _ => (sc_turn c mod List.length (A1 ++ A2))%nat end)
                       = match map opened A2 with [] => 0%nat | _ => List.length (map opened A1) end).
          { rewrite Hlm. destruct A2 as [|x A2].
            - cbn [map]. rewrite app_nil_r. destruct A1 as [|y A1]; [symmetry; exact Hlen|]. rewrite Hlen.
              apply Nat.mod_same. cbn in Hlen. lia.
            - cbn [map]. destruct (A1 ++ x :: A2) eqn:E; [destruct A1; discriminate|]. rewrite <- E.
              apply Nat.mod_small. rewrite app_length. cbn. lia. }
          rewrite <- Et. exact Hw.
      + rewrite <- Erest in *. remember (skipn (r_offset r) (q_content f)) as rest eqn:Hrest.
        inversion Hent as [E1 E2|rest0 n t Hnz Hread Hraw Ht' E1 E2]; [congruence|].
        subst rest0. destruct rest as [|b1 bs1]; [congruence|]. remember (b1 :: bs1) as rest eqn:Hr1.
        rewrite Hread. remember (firstn n rest) as raw eqn:Eraw.
        destruct raw as [|b2 bs2]; [congruence|]. remember (b2 :: bs2) as raw eqn:Hr2.
        clear Hr1 Hr2 b1 bs1 b2 bs2 Erest b0 bs Hnz.
        assert (Hk : nth_error (es (r_file r)) (Z.to_nat (r_entry r)) = Some raw).
        { rewrite <- (Nat.add_0_r (Z.to_nat (r_entry r))). rewrite <- nth_error_skipn.
          rewrite <- E2. reflexivity. }
        assert (Ht2 : t = skipn (Z.to_nat (r_entry r + 1)) (es (r_file r))).
        { rewrite (skipn_cons_nth Hk) in E2. inversion E2 as [[E3]].
          replace (Z.to_nat (r_entry r + 1)) with (S (Z.to_nat (r_entry r)))
            by (pose proof (ro_entry Hrok); lia). reflexivity. }
        remember {| r_file := r_file r; r_offset := (r_offset r + List.length raw)%nat;
               r_entry := r_entry r + 1; r_pending := None |} as r1 eqn:Er1.
        remember (set_turn (set_active c (upd (sc_active c) (sc_turn c) r1)) (sc_turn c)
                    (sc_quantum c + 1)) as c1 eqn:Ec1.
        assert (Ea1 : sc_active c1 = A1 ++ r1 :: A2).
        { subst c1. cbn. rewrite Ea. apply upd_split. exact Hlen. }
        remember (if q_quantum s <=? sc_quantum c1 then advance_turn c1 else c1) as c2 eqn:Ec2.
        assert (Hc2 : sc_active c2 = A1 ++ r1 :: A2 /\ sc_order c2 = sc_order c /\ sc_next c2 = sc_next c
          /\ if q_quantum s <=? sc_quantum c + 1
             then sc_turn c2 = (match map opened A2 with [] => 0 | _ => S (List.length (map opened A1)) end)%nat /\ sc_quantum c2 = 0
             else sc_turn c2 = List.length (map opened A1) /\ sc_quantum c2 = sc_quantum c + 1).
        { assert (Eq : sc_quantum c1 = sc_quantum c + 1) by (subst c1; reflexivity). rewrite Eq in Ec2.
          destruct (Z.leb_spec (q_quantum s) (sc_quantum c + 1)) as [L|L]; subst c2.
          - unfold advance_turn. cbn [sc_active sc_next sc_order sc_turn sc_quantum set_turn].
            conj; auto; try (subst c1; reflexivity). rewrite Ea1.
            assert (Et : sc_turn c1 = List.length A1) by (subst c1; cbn; congruence).
            rewrite Et, map_length. rewrite app_length. cbn [List.length].
            destruct (A1 ++ r1 :: A2) eqn:E; [destruct A1; discriminate|].
            destruct A2 as [|y A2]; cbn [map List.length].
            + rewrite Nat.mod_same by lia. reflexivity.
            + rewrite Nat.mod_small by lia. lia.
          - conj; auto; try (subst c1; reflexivity). subst c1. cbn [sc_turn set_turn]. congruence. }
        clear Ec2. destruct Hc2 as (C1 & C2 & C3 & C4).
        assert (Hop : forall q, opened (set_pending r1 q) =
           (match q with None => [] | Some p => recs (r_file r) f (p_raw p) (p_entry p) (p_next p) end,
            per (r_file r) f (r_entry r + 1) t)).
        { intros q. unfold opened. subst r1. cbn [set_pending r_file r_pending r_entry]. rewrite Hf, Ht2. reflexivity. }
        assert (Hor : opened r = ([], recs (r_file r) f raw (r_entry r) 0 :: per (r_file r) f (r_entry r + 1) t)).
        { unfold opened. rewrite Hf, Ep, <- E2. reflexivity. }
        assert (Hgo : forall env lo c3, sc_active c3 = A1 ++ set_pending r1 lo :: A2 ->
                  sc_order c3 = sc_order c -> sc_next c3 = sc_next c -> sc_turn c3 = sc_turn c2 -> sc_quantum c3 = sc_quantum c2 ->
                  recs (r_file r) f raw (r_entry r) 0 = match env with Some e => [e] | None => [] end ++ fst (opened (set_pending r1 lo)) ->
                  (env = None -> fst (opened (set_pending r1 lo)) = []) ->
                  forall l, will_read c3 l -> will_read c (match env with Some e => [e] | None => [] end ++ l)).
        { intros env lo c3 K1 K2 K3 K4 K5 K6 K7 l Hw. unfold will_read in *.
          rewrite K1, K2, K3, K4, K5 in Hw. rewrite map_app in Hw. cbn [map] in Hw.
          rewrite Hcur, Hor, <- Hlm.
          eapply entry_step; [exact K6|exact K7|exact C4|].
          rewrite Hop in *. exact Hw. }
        assert (Hr1' : r1 = set_pending r1 None) by (subst r1; reflexivity).
        assert (Hskip : recs (r_file r) f raw (r_entry r) 0 = [] -> forall l, will_read c2 l -> will_read c l).
        { intros Hz l Hw. apply (Hgo None None c2); auto.
          - rewrite <- Hr1'. exact C1.
          - rewrite Hop. exact Hz.
          - rewrite Hop. reflexivity. }
        destruct (Hcontents Hf) as [_ Hgood]. rewrite Forall_forall in Hgood.
        assert (Hok : entry_ok s raw) by (apply Hgood; eapply nth_error_In; eauto).
        destruct Hok as [_ Hok].
        destruct (f_shape (q_format s) raw) as [[sh|]|] eqn:Esh; [| |exact I].
        2:{ apply Hskip. unfold entry_records, entry_count. rewrite Esh.
            rewrite zrows_nil by lia. reflexivity. }
        destruct Hok as [Hsh Hcnt].
        destruct (index_of sh (q_shapes s)) as [code|] eqn:Ecode; [|exact I].
        assert (Hcode : entry_code s raw = Z.of_nat code).
        { unfold entry_code. rewrite Esh, Ecode. reflexivity. }
        assert (Hcount : exists n0, match f_count (q_format s) with None => Ok 1 | Some cnt => cnt raw end
                   = Ok n0 /\ 0 <= n0 /\ entry_count s raw = n0).
        { unfold entry_count. rewrite Esh. destruct (f_count (q_format s)) as [cnt|].
          - destruct Hcnt as (n0 & E0 & H0). exists n0. rewrite E0. auto.
          - exists 1. conj; auto; lia. }
        destruct Hcount as (cnt0 & Ecnt & Hcnt0 & Hec). rewrite Ecnt.
        destruct (Z.ltb_spec cnt0 0) as [Hneg|_]; [lia|].
        destruct (Z.eqb_spec cnt0 0) as [Hz|Hnz2].
        { apply Hskip; auto. unfold entry_records. rewrite Hec, Hz. rewrite zrows_nil by lia. reflexivity. }
        remember {| p_raw := raw; p_entry := r_entry r; p_shape := Z.of_nat code;
                    p_next := 0; p_count := cnt0 |} as p eqn:Ep0.
        edestruct (@next_pending_spec header hash64 s es epoch cycle a Ha Hadm (r_file r) f raw (r_entry r) (Z.of_nat code) Hf Hk (ro_entry Hrok)
                     (eq_sym Hcode) (pending_fuel p) p)
          as (env & lo & E & Hrec & Hnone & Hsrc & Hlo); try (subst p; cbn; auto; lia).
        rewrite (iv_epoch H), (iv_cycle H), E.
        remember (set_active c2 (upd (sc_active c2) (sc_turn c) (set_pending r1 lo))) as c3 eqn:Ec3.
        assert (Hgo3 : forall l, will_read c3 l -> will_read c (match env with Some e => [e] | None => [] end ++ l)).
        { apply (Hgo env lo c3); try (subst c3; cbn; auto; fail).
          - subst c3. cbn. rewrite C1. apply upd_split. exact Hlen.
          - rewrite Hop. cbn [fst]. replace 0 with (p_next p) by (subst p; reflexivity). rewrite Hrec. f_equal.
            destruct lo as [q|]; [|reflexivity]. destruct (Hlo q eq_refl) as (L1 & L2 & _). rewrite L1, L2. reflexivity.
          - intros Hn. rewrite Hop, (Hnone Hn). reflexivity. }
        destruct env as [e|]; exact Hgo3.
  Qed.

  Lemma loop_turns fuel : forall c, inv c -> (seq_measure s c < fuel)%nat ->
    match seq_loop header hash64 fuel s c with
    | Ok (None, c') => will_read c []
    | Ok (Some e, c') => forall l, will_read c' l -> will_read c (e :: l)
    | Err _ => True
    end.
  Proof.
    induction fuel as [|fuel IH]; intros c H Hm; [lia|].
    cbn [seq_loop]. pose proof (step_turns H) as Hs. pose proof (seq_step_ok Hcontents Ha Hadm G H) as Hq.
    destruct (seq_step header hash64 s c) as [c1|[[[e|] c1]|]]; auto.
    destruct Hq as (Q1 & Q2 & _). specialize (IH c1 Q1 ltac:(lia)).
    destruct (seq_loop header hash64 fuel s c1) as [[[e|] c2]|]; auto.
  Qed.

  Lemma yields_turns l : forall c, inv c -> yields (sequential_source header hash64 s) c l -> will_read c l.
  Proof.
    induction l as [|e l IH]; intros c H Hy; inversion Hy as [c0 c' E1 E2|c0 e0 c' l' E1 E2]; subst;
      cbn [s_next sequential_source] in E1; unfold seq_next in E1;
      pose proof (loop_turns H (Nat.lt_succ_diag_r _)) as Hl; rewrite E1 in Hl.
    - exact Hl.
    - apply Hl. apply IH; [|exact E2].
      pose proof (seq_next_spec Hcontents Ha Hadm G H) as Hs. unfold seq_next in Hs. rewrite E1 in Hs. apply Hs.
  Qed.
End Turns.
