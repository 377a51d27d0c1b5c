(** Facts about the sampler of Sampler.v. *)
From Verif Require Import Base BaseFacts Sampler.
Set Implicit Arguments.
Unset Strict Implicit.

(** ** Specification vocabulary *)
(** The part of an index list that belongs to rank [r] of [w]: elements r, r+w,
    r+2w, ... of the first (length / w) * w ones. *)
Definition rank_share (w r : nat) (l : list nat) : list nat :=
  map (fun k => nth (k * w + r) l 0%nat) (seq 0 (List.length l / w)).

(** Cut into batches of [b]; a shorter rest is a batch unless [drop]. *)
Fixpoint cut (fuel b : nat) (drop : bool) (l : list nat) : list (list nat) :=
  match fuel with
  | 0%nat => []
  | S f =>
      if (List.length l <? b)%nat
      then if drop || match l with [] => true | _ => false end then [] else [l]
      else firstn b l :: cut f b drop (skipn b l)
  end.
Definition batches_of (b : nat) (drop : bool) (l : list nat) : list (list nat) := cut (S (List.length l)) b drop l.

(** What happened, as seen from the training loop. *)
Inductive sevent :=
| Fetched (x : sbatch)     (* a batch was delivered *)
| CommittedS (n : nat)     (* the n oldest uncommitted batches became durable *)
| RolledBack               (* a failed step: uncommitted batches are void *)
| Restarted.               (* checkpoint, new process, resume *)

(** Durable and open batches after a history. *)
Fixpoint ledger (evs : list sevent) (durable opened : list sbatch) : list sbatch * list sbatch :=
  match evs with
  | [] => (durable, opened)
  | Fetched x :: t => ledger t durable (opened ++ [x])
  | CommittedS n :: t => ledger t (durable ++ firstn n opened) (skipn n opened)
  | RolledBack :: t => ledger t durable []
  | Restarted :: t => ledger t durable []
  end.

Section Facts.
  Variable randperm : Z -> nat -> list nat.
  Variable cf : sampler_config.
  Variable b : nat.
  Variable drop : bool.
  Hypothesis Hlen : forall g n, List.length (randperm g n) = n.
  Hypothesis Hn : 0 <= sm_length cf.
  Hypothesis Hw : 0 < sm_world cf.
  Hypothesis Hr : 0 <= sm_rank cf < sm_world cf.
  Hypothesis Hb : (0 < b)%nat.

  Notation L := (local_length cf).
  Notation idx := (epoch_indices randperm cf).

  Definition share (e : Z) : list nat := rank_share (Z.to_nat (sm_world cf)) (Z.to_nat (sm_rank cf)) (idx e).
  Definition plan (e : Z) : list sbatch := map (fun l => (e, l)) (batches_of b drop (share e)).

  (** Batches left at a position. *)
  Definition left (p : Z * Z) : list sbatch :=
    map (fun l => (fst p, l)) (batches_of b drop (skipn (Z.to_nat (snd p)) (share (fst p)))).

  Lemma left_zero e : left (e, 0) = plan e.
  Proof. reflexivity. Qed.

  Lemma L_nonneg : 0 <= L.
  Proof. unfold local_length. apply Z.div_pos; lia. Qed.

  Lemma idx_length e : List.length (idx e) = Z.to_nat (sm_length cf).
  Proof. unfold epoch_indices. destruct (sm_shuffle cf); [apply Hlen|]. unfold range. apply seq_length. Qed.

  Lemma share_length e : List.length (share e) = Z.to_nat L.
  Proof.
    unfold share, rank_share. rewrite map_length, seq_length, idx_length. unfold local_length.
    rewrite Z2Nat.inj_div by lia. reflexivity.
  Qed.

  Lemma share_nth e k : (k < Z.to_nat L)%nat ->
    nth_error (idx e) (k * Z.to_nat (sm_world cf) + Z.to_nat (sm_rank cf)) = nth_error (share e) k.
  Proof.
    intros Hk. unfold share, rank_share.
    assert (Hk' : (k < List.length (idx e) / Z.to_nat (sm_world cf))%nat).
    { rewrite idx_length. unfold local_length in Hk. rewrite Z2Nat.inj_div in Hk by lia. exact Hk. }
    rewrite nth_error_map.
    rewrite (nth_error_nth' (seq 0 _) 0%nat) by (rewrite seq_length; exact Hk').
    rewrite seq_nth by exact Hk'. cbn [option_map Nat.add].
    apply nth_error_nth'.
    set (w := Z.to_nat (sm_world cf)) in *. set (r := Z.to_nat (sm_rank cf)) in *.
    assert (r < w)%nat by (subst r w; lia).
    assert ((k + 1) * w <= List.length (idx e))%nat.
    { pose proof (Nat.mul_div_le (List.length (idx e)) w). nia. }
    nia.
  Qed.

  (** ** Cutting *)
  Lemma cut_fuel l : forall f g, (List.length l < f)%nat -> (List.length l < g)%nat -> cut f b drop l = cut g b drop l.
  Proof.
    remember (List.length l) as n eqn:En. revert l En.
    induction n as [n IH] using lt_wf_ind. intros l En f g Hf Hg.
    destruct f as [|f]; [lia|]. destruct g as [|g]; [lia|]. cbn [cut].
    destruct (Nat.ltb_spec (List.length l) b) as [H|H]; [reflexivity|].
    f_equal. apply (IH (List.length (skipn b l))).
    - rewrite skipn_length. lia.
    - reflexivity.
    - rewrite skipn_length. lia.
    - rewrite skipn_length. lia.
  Qed.

  Lemma batches_full l : (b <= List.length l)%nat ->
    batches_of b drop l = firstn b l :: batches_of b drop (skipn b l).
  Proof.
    intros H. unfold batches_of at 1. cbn [cut].
    destruct (Nat.ltb_spec (List.length l) b); [lia|]. f_equal.
    apply cut_fuel; rewrite ?skipn_length; lia.
  Qed.

  Lemma batches_short l : (List.length l < b)%nat ->
    batches_of b drop l = if drop || match l with [] => true | _ => false end then [] else [l].
  Proof.
    intros H. unfold batches_of. cbn [cut]. destruct (Nat.ltb_spec (List.length l) b); [reflexivity|lia].
  Qed.

  Lemma batches_nil : batches_of b drop [] = [].
  Proof. rewrite batches_short by (cbn; lia). rewrite orb_true_r. reflexivity. Qed.

  (** ** Positions and paths *)
  Definition pos_ok (p : Z * Z) : Prop := 0 <= snd p <= L.

  (** [step p x q]: the batch [x] follows at position [p] and leads to [q]. *)
  Definition step (p : Z * Z) (x : sbatch) (q : Z * Z) : Prop :=
    pos_ok q /\
    ((fst q = fst p /\ left p = x :: left q)
     \/ (fst q = fst p + 1 /\ left p = [] /\ plan (fst q) = x :: left q)).
  Inductive path : Z * Z -> list sbatch -> Z * Z -> Prop :=
  | path_nil p : path p [] p
  | path_cons p x q l r : step p x q -> path q l r -> path p (x :: l) r.

  Lemma path_app p l q m r : path p l q -> path q m r -> path p (l ++ m) r.
  Proof. induction 1; intros H2; cbn; [exact H2|]. econstructor; eauto. Qed.

  Lemma path_snoc p l q x r : path p l q -> step q x r -> path p (l ++ [x]) r.
  Proof. intros H1 H2. eapply path_app; [exact H1|]. econstructor; [exact H2|constructor]. Qed.

  (** Batches of epochs e, e+1, ..., e+n-1. *)
  Fixpoint plans (n : nat) (e : Z) : list sbatch :=
    match n with 0%nat => [] | S k => plan e ++ plans k (e + 1) end.

  Lemma path_plans p l q : path p l q ->
    exists n rest, left p ++ plans n (fst p + 1) = l ++ rest
      /\ exists m, rest = left q ++ plans m (fst q + 1) /\ fst q + 1 + Z.of_nat m = fst p + 1 + Z.of_nat n.
  Proof.
    induction 1 as [p|p x q l r [Hq Hs] Hp (n & rest & E & m & Er & En)].
    - exists 0%nat, (left p). cbn [plans]. rewrite app_nil_r. split; [reflexivity|].
      exists 0%nat. cbn [plans]. rewrite app_nil_r. split; [reflexivity|lia].
    - destruct Hs as [[Hf Hl]|(Hf & Hl & Hpl)].
      + exists n, rest. rewrite Hl, <- Hf. cbn [app]. rewrite E. split; [reflexivity|].
        exists m. split; [exact Er|lia].
      + exists (S n), rest. rewrite Hl. cbn [plans app]. rewrite <- Hf, Hpl. cbn [app]. rewrite E.
        split; [reflexivity|]. exists m. split; [exact Er|lia].
  Qed.

  (** ** Reading *)
  Definition iter_ok (s : sampler) (it : siter) : Prop :=
    match it with
    | INew => True
    | ILive e l => e = sp_yield_epoch s /\ l = idx e
    | IDone e => e = sp_yield_epoch s /\ sp_yielded s = L
    end.

  Lemma iter_epoch_ok s it : iter_ok s it -> iter_epoch s it = sp_yield_epoch s.
  Proof. destruct it; cbn; tauto. Qed.

  Definition at_yield (s : sampler) (v : Z) : Prop := 0 <= v <= L /\ sp_yielded s = v.

  Lemma iter_next_spec s it : 0 <= sp_yielded s <= L -> iter_ok s it ->
    exists o it1 s1 e, iter_next randperm cf s it = Ok (o, e, it1, s1)
      /\ match skipn (Z.to_nat (sp_yielded s)) (share (sp_yield_epoch s)) with
         | [] => o = None /\ s1 = s
         | i :: _ => o = Some i /\ s1 = set_yielded s (sp_yielded s + 1) /\ sp_yielded s < L
         end
      /\ iter_ok s1 it1 /\ (o = None -> sp_yielded s = L).
  Proof.
    intros Hy Hit.
    assert (Hsk : sp_yielded s < L -> exists i r, skipn (Z.to_nat (sp_yielded s)) (share (sp_yield_epoch s)) = i :: r
                    /\ nth_error (share (sp_yield_epoch s)) (Z.to_nat (sp_yielded s)) = Some i).
    { intros Hlt. destruct (nth_error (share (sp_yield_epoch s)) (Z.to_nat (sp_yielded s))) as [i|] eqn:E.
      - apply nth_error_split in E. destruct E as (l1 & l2 & E & E1).
        exists i, l2. split; [|reflexivity]. rewrite E, <- E1, skipn_app, Nat.sub_diag, skipn_all. reflexivity.
      - apply nth_error_None in E. rewrite share_length in E. lia. }
    assert (Hend : sp_yielded s = L -> skipn (Z.to_nat (sp_yielded s)) (share (sp_yield_epoch s)) = []).
    { intros ->. apply skipn_all2. rewrite share_length. lia. }
    assert (Hlive : forall e, e = sp_yield_epoch s ->
      exists o it1 s1 e', (if sp_yielded s <? L then
          i <- py_get (idx e) (Z.to_nat (sp_yielded s * sm_world cf + sm_rank cf)) ;;
          Ok (Some i, e, ILive e (idx e), set_yielded s (sp_yielded s + 1))
        else Ok (None, e, IDone e, s)) = Ok (o, e', it1, s1)
      /\ match skipn (Z.to_nat (sp_yielded s)) (share (sp_yield_epoch s)) with
         | [] => o = None /\ s1 = s
         | i :: _ => o = Some i /\ s1 = set_yielded s (sp_yielded s + 1) /\ sp_yielded s < L
         end
      /\ iter_ok s1 it1 /\ (o = None -> sp_yielded s = L)).
    { intros e He. destruct (Z.ltb_spec (sp_yielded s) L) as [Hlt|Hge].
      - destruct (Hsk Hlt) as (i & r & Es & En). rewrite Es.
        assert (Eg : py_get (idx e) (Z.to_nat (sp_yielded s * sm_world cf + sm_rank cf)) = Ok i).
        { unfold py_get.
          replace (Z.to_nat (sp_yielded s * sm_world cf + sm_rank cf))
            with (Z.to_nat (sp_yielded s) * Z.to_nat (sm_world cf) + Z.to_nat (sm_rank cf))%nat by nia.
          rewrite share_nth by lia. subst e. rewrite En. reflexivity. }
        rewrite Eg. cbn [bind]. do 4 eexists. split; [reflexivity|].
        split; [auto|]. split; [|discriminate]. cbn. auto.
      - rewrite Hend by lia. do 4 eexists. split; [reflexivity|]. split; [auto|].
        split; [cbn; split; [auto|lia]|lia]. }
    destruct it as [|e l|e]; cbn [iter_next].
    - apply Hlive. reflexivity.
    - destruct Hit as [He ->]. apply Hlive. exact He.
    - destruct Hit as [He Hd]. rewrite Hend by exact Hd. do 4 eexists. split; [reflexivity|].
      split; [auto|]. split; [cbn; auto|auto].
  Qed.

  Lemma set_yielded_epoch s v : sp_yield_epoch (set_yielded s v) = sp_yield_epoch s.
  Proof. reflexivity. Qed.

  Lemma grab_spec n : forall s it, 0 <= sp_yielded s <= L -> iter_ok s it ->
    exists it1 s1, grab randperm cf n s it
        = Ok (firstn n (skipn (Z.to_nat (sp_yielded s)) (share (sp_yield_epoch s))), it1, s1)
      /\ s1 = set_yielded s (Z.min (sp_yielded s + Z.of_nat n) L)
      /\ iter_ok s1 it1.
  Proof.
    induction n as [|n IH]; intros s it Hy Hit.
    - cbn [grab]. exists it, s. split; [reflexivity|]. split; [|exact Hit].
      replace (Z.min (sp_yielded s + Z.of_nat 0) L) with (sp_yielded s) by lia. destruct s; reflexivity.
    - cbn [grab]. destruct (iter_next_spec Hy Hit) as (o & it1 & s1 & e & E & Hm & Hi & Hnone).
      rewrite E. cbn [bind].
      destruct (skipn (Z.to_nat (sp_yielded s)) (share (sp_yield_epoch s))) as [|i r] eqn:Es.
      + destruct Hm as [-> ->]. exists it1, s. split; [reflexivity|]. split; [|exact Hi].
        replace (Z.min (sp_yielded s + Z.of_nat (S n)) L) with (sp_yielded s).
        * destruct s; reflexivity.
        * rewrite (Hnone eq_refl). lia.
      + destruct Hm as (-> & -> & Hlt).
        destruct (IH (set_yielded s (sp_yielded s + 1)) it1) as (it2 & s2 & E2 & Hs2 & Hi2).
        * cbn. lia.
        * exact Hi.
        * rewrite E2. cbn [bind]. exists it2, s2.
          assert (Er : skipn (Z.to_nat (sp_yielded s + 1)) (share (sp_yield_epoch s)) = r).
          { replace (Z.to_nat (sp_yielded s + 1)) with (1 + Z.to_nat (sp_yielded s))%nat by lia.
            rewrite <- skipn_skipn, Es. reflexivity. }
          cbn [set_yielded sp_yielded sp_yield_epoch] in *. rewrite Er. split; [reflexivity|]. split; [|exact Hi2].
          subst s2. unfold set_yielded. cbn. f_equal. lia.
  Qed.

  (** ** Positions *)
  Lemma left_cons p x rest : pos_ok p -> left p = x :: rest ->
    let d := Z.min (Z.of_nat b) (L - snd p) in
    0 < d /\ zlen (snd x) = d /\ fst x = fst p /\ rest = left (fst p, snd p + d).
  Proof.
    intros Hp H. unfold pos_ok in Hp. cbn zeta. unfold left in *. cbn [fst snd].
    set (l := skipn (Z.to_nat (snd p)) (share (fst p))) in *.
    assert (Hl : List.length l = (Z.to_nat L - Z.to_nat (snd p))%nat).
    { subst l. rewrite skipn_length, share_length. reflexivity. }
    destruct (Nat.lt_ge_cases (List.length l) b) as [Hs|Hs].
    - rewrite batches_short in H by exact Hs.
      destruct (drop || match l with [] => true | _ => false end) eqn:Ed; [discriminate|].
      cbn in H. inversion H; subst x rest. cbn [fst snd].
      assert (Hl0 : List.length l <> 0%nat).
      { intros E. destruct l; [|discriminate]. rewrite orb_true_r in Ed. discriminate. }
      split; [lia|]. split; [unfold zlen; lia|]. split; [reflexivity|].
      rewrite skipn_all2; [rewrite batches_nil; reflexivity|]. rewrite share_length. lia.
    - rewrite batches_full in H by exact Hs. cbn [map] in H. inversion H; subst x rest. cbn [fst snd].
      split; [lia|]. split; [unfold zlen; rewrite firstn_length; lia|]. split; [reflexivity|].
      f_equal. f_equal. subst l. rewrite skipn_skipn. f_equal. lia.
  Qed.

  Lemma left_end e : left (e, L) = [].
  Proof. unfold left. cbn [fst snd]. rewrite skipn_all2 by (rewrite share_length; lia). rewrite batches_nil. reflexivity. Qed.

  Lemma loader_next_spec s it : 0 <= sp_yielded s <= L -> iter_ok s it ->
    exists o it1 s1, loader_next randperm cf b drop s it = Ok (o, it1, s1)
      /\ s1 = set_yielded s (Z.min (sp_yielded s + Z.of_nat b) L)
      /\ iter_ok s1 it1
      /\ left (sp_yield_epoch s, sp_yielded s)
         = match o with None => [] | Some x => [x] end ++ left (sp_yield_epoch s, sp_yielded s1)
      /\ (o = None -> sp_yielded s1 = L)
      /\ (forall x, o = Some x -> sp_yielded s + zlen (snd x) <= sp_yielded s1).
  Proof.
    intros Hy Hit. unfold loader_next. rewrite (iter_epoch_ok Hit).
    destruct (grab_spec b Hy Hit) as (it1 & s1 & E & Hs1 & Hi1). rewrite E. cbn [bind].
    set (e := sp_yield_epoch s) in *. set (l := skipn (Z.to_nat (sp_yielded s)) (share e)) in *.
    assert (Hl : List.length l = (Z.to_nat L - Z.to_nat (sp_yielded s))%nat).
    { subst l. rewrite skipn_length, share_length. reflexivity. }
    assert (Hy1 : sp_yielded s1 = Z.min (sp_yielded s + Z.of_nat b) L) by (subst s1; reflexivity).
    do 3 eexists. split; [reflexivity|]. split; [exact Hs1|]. split; [exact Hi1|].
    rewrite firstn_length. rewrite Hy1.
    destruct (Nat.lt_ge_cases (List.length l) b) as [Hs|Hs].
    - replace (Nat.min b (List.length l)) with (List.length l) by lia.
      destruct (Nat.eqb_spec (List.length l) b); [lia|]. rewrite firstn_all2 by lia.
      replace (Z.min (sp_yielded s + Z.of_nat b) L) with L by lia. rewrite left_end.
      unfold left. cbn [fst snd]. fold l. rewrite batches_short by exact Hs.
      destruct (drop || match l with [] => true | _ => false end).
      + split; [reflexivity|]. split; [auto|discriminate].
      + split; [reflexivity|]. split; [auto|]. intros x Hx. inversion Hx. cbn. unfold zlen. lia.
    - replace (Nat.min b (List.length l)) with b by lia. rewrite Nat.eqb_refl.
      replace (Z.min (sp_yielded s + Z.of_nat b) L) with (sp_yielded s + Z.of_nat b) by lia.
      unfold left. cbn [fst snd]. fold l. rewrite batches_full by exact Hs. cbn [map app].
      split; [|split; [discriminate|]].
      + f_equal. f_equal. f_equal. subst l. rewrite skipn_skipn. f_equal. lia.
      + intros x Hx. inversion Hx. cbn. unfold zlen. rewrite firstn_length. lia.
  Qed.

  (** ** The loop *)
  Definition qsum (q : list sbatch) : Z := zsum (map (fun x => zlen (snd x)) q).

  (** The loader reads from position [p]. *)
  Record reads (p : Z * Z) (l : tloop) : Prop := {
    rd_epoch : fst p = sp_yield_epoch (tl_s l);
    rd_pos : pos_ok p;
    rd_left : left p = tl_queue l ++ left (sp_yield_epoch (tl_s l), sp_yielded (tl_s l));
    rd_sum : snd p + qsum (tl_queue l) <= sp_yielded (tl_s l);
    rd_iter : iter_ok (tl_s l) (tl_it l);
    rd_y : 0 <= sp_yielded (tl_s l) <= L;
    rd_ended : tl_ended l = true -> sp_yielded (tl_s l) = L
  }.

  (** Fields reading does not touch. *)
  Definition same (a c : tloop) : Prop :=
    sp_epoch (tl_s a) = sp_epoch (tl_s c) /\ sp_offset (tl_s a) = sp_offset (tl_s c)
    /\ sp_yield_epoch (tl_s a) = sp_yield_epoch (tl_s c)
    /\ sp_staged_epoch (tl_s a) = sp_staged_epoch (tl_s c) /\ sp_staged (tl_s a) = sp_staged (tl_s c)
    /\ tl_open a = tl_open c.

  Lemma read_ahead_spec p l : reads p l ->
    exists l1, read_ahead randperm cf b drop l = Ok l1 /\ reads p l1 /\ same l l1
      /\ (tl_queue l1 = [] -> tl_ended l1 = true) /\ (tl_ended l = true -> l1 = l).
  Proof.
    intros H. unfold read_ahead. destruct (tl_ended l) eqn:Ee.
    - exists l. split; [reflexivity|]. split; [exact H|]. split; [repeat split|]. split; auto.
    - destruct (loader_next_spec (rd_y H) (rd_iter H)) as (o & it1 & s1 & E & Hs1 & Hi1 & Hl & Hend & Hsz).
      rewrite E. cbn [bind]. eexists. split; [reflexivity|].
      assert (Hye : sp_yield_epoch s1 = sp_yield_epoch (tl_s l)) by (subst s1; reflexivity).
      split; [|split; [|split]].
      + constructor; cbn [tl_s tl_it tl_queue tl_ended].
        * rewrite Hye. apply (rd_epoch H).
        * apply (rd_pos H).
        * rewrite Hye, (rd_left H), Hl, app_assoc. reflexivity.
        * unfold qsum. rewrite map_app, zsum_app. pose proof (rd_sum H) as Hq. unfold qsum in Hq.
          assert (Hge : sp_yielded (tl_s l) <= sp_yielded s1).
          { subst s1. cbn. pose proof (rd_y H). lia. }
          destruct o as [x|].
          -- specialize (Hsz x eq_refl). unfold sbatch in *. cbn [map]. rewrite zsum_cons. change (zsum []) with 0. lia.
          -- unfold sbatch in *. cbn [map]. change (zsum []) with 0. lia.
        * exact Hi1.
        * subst s1. cbn. pose proof (rd_y H). lia.
        * destruct o; [discriminate|auto].
      + subst s1. repeat split.
      + cbn. destruct o as [x|]; [|auto]. intros Hq. apply app_eq_nil in Hq. destruct Hq; discriminate.
      + discriminate.
  Qed.

  Lemma same_trans a c d : same a c -> same c d -> same a d.
  Proof. unfold same. intuition congruence. Qed.

  Lemma read_ahead_n_spec n : forall p l, reads p l ->
    exists l1, read_ahead_n randperm cf b drop n l = Ok l1 /\ reads p l1 /\ same l l1
      /\ (n <> 0%nat -> tl_queue l1 = [] -> tl_ended l1 = true).
  Proof.
    induction n as [|n IH]; intros p l H; cbn [read_ahead_n].
    - exists l. split; [reflexivity|]. split; [exact H|]. split; [repeat split|congruence].
    - destruct (read_ahead_spec H) as (l1 & E & H1 & Hs1 & Hq1 & _). rewrite E. cbn [bind].
      destruct (IH p l1 H1) as (l2 & E2 & H2 & Hs2 & Hq2). exists l2. split; [exact E2|].
      split; [exact H2|]. split; [eapply same_trans; eauto|]. intros _ Hq.
      destruct n as [|n]; [|apply Hq2; auto]. cbn in E2. inversion E2; subst. auto.
  Qed.

  (** What take_batch leaves: the next batch of [p], or the end of its epoch. *)
  Lemma take_batch_spec ahead p l : reads p l ->
    exists o l1, take_batch randperm cf b drop ahead l = Ok (o, l1) /\ same l l1 /\
      match o with
      | Some x => reads p {| tl_s := tl_s l1; tl_it := tl_it l1; tl_ended := tl_ended l1;
                             tl_queue := x :: tl_queue l1; tl_open := tl_open l1 |}
      | None => reads p l1 /\ left p = [] /\ sp_yielded (tl_s l1) = L
      end.
  Proof.
    intros H. unfold take_batch.
    set (n := match tl_queue l with [] => S ahead | _ => ahead end).
    destruct (read_ahead_n_spec n H) as (l1 & E & H1 & Hs & Hq). rewrite E. cbn [bind].
    destruct (tl_queue l1) as [|x q] eqn:Eq.
    - do 2 eexists. split; [reflexivity|]. split; [exact Hs|].
      assert (Hn0 : n <> 0%nat).
      { subst n. destruct (tl_queue l) as [|y q0] eqn:Eq0; [discriminate|]. intros ->.
        cbn in E. inversion E; subst. congruence. }
      assert (He : sp_yielded (tl_s l1) = L) by (apply (rd_ended H1); auto).
      split; [exact H1|]. split; [|exact He].
      rewrite (rd_left H1), Eq, He, left_end. reflexivity.
    - do 2 eexists. split; [reflexivity|]. split; [exact Hs|]. cbn [tl_s tl_it tl_ended tl_queue tl_open].
      rewrite <- Eq. destruct l1; exact H1.
  Qed.

  (** Open tokens lead from the committed to the staged position. *)
  Inductive opens : Z * Z -> list stoken -> list sbatch -> Z * Z -> Prop :=
  | opens_nil p : opens p [] [] p
  | opens_cons p x q ts xs r : step p x q -> opens q ts xs r ->
      opens p ({| st_before := p; st_after := q |} :: ts) (x :: xs) r.

  Lemma opens_snoc p ts xs q x r : opens p ts xs q -> step q x r ->
    opens p (ts ++ [{| st_before := q; st_after := r |}]) (xs ++ [x]) r.
  Proof. induction 1; intros Hs; cbn; constructor; auto. constructor. Qed.

  Lemma opens_path p ts xs q : opens p ts xs q -> path p xs q.
  Proof. induction 1; econstructor; eauto. Qed.

  Lemma opens_length p ts xs q : opens p ts xs q -> List.length ts = List.length xs.
  Proof. induction 1; cbn; auto. Qed.

  Lemma opens_split n : forall p ts xs q, opens p ts xs q ->
    exists m, opens p (firstn n ts) (firstn n xs) m /\ opens m (skipn n ts) (skipn n xs) q.
  Proof.
    induction n as [|n IH]; intros p ts xs q H; cbn [firstn skipn].
    - exists p. split; [constructor|exact H].
    - inversion H; subst.
      + exists q. split; constructor.
      + edestruct IH as (m & H3 & H4); [eassumption|]. exists m. split; [constructor; auto|exact H4].
  Qed.

  Lemma step_epoch p x q : step p x q -> fst p <= fst q.
  Proof. intros [_ [[-> _]|[-> _]]]; lia. Qed.

  Lemma opens_epoch p ts xs q : opens p ts xs q -> fst p <= fst q.
  Proof. induction 1; [lia|]. apply step_epoch in H. lia. Qed.

  Lemma opens_pos p ts xs q : opens p ts xs q -> pos_ok p -> pos_ok q.
  Proof. induction 1; auto. intros _. apply IHopens. apply H. Qed.

  (** The invariant of the training loop. *)
  Record Inv (l : tloop) (durable opened : list sbatch) : Prop := {
    iv_done : path (0, 0) durable (sp_epoch (tl_s l), sp_offset (tl_s l));
    iv_open : opens (sp_epoch (tl_s l), sp_offset (tl_s l)) (tl_open l) opened
                    (sp_staged_epoch (tl_s l), sp_staged (tl_s l));
    iv_pos : pos_ok (sp_epoch (tl_s l), sp_offset (tl_s l));
    iv_reads : reads (sp_staged_epoch (tl_s l), sp_staged (tl_s l)) l
  }.

  Lemma reads_at e o s : s = sampler_at e o -> 0 <= o <= L -> reads (e, o) (loop_at s).
  Proof.
    intros -> Ho. constructor; cbn; auto.
    - unfold qsum. cbn. lia.
    - discriminate.
  Qed.

  Lemma Inv_start s : sampler_new cf = Ok s -> Inv (loop_at s) [] [].
  Proof.
    unfold sampler_new. destruct (negb _); [|discriminate]. intros H. inversion H; subst s. clear H.
    pose proof L_nonneg. constructor; cbn.
    - constructor.
    - constructor.
    - unfold pos_ok. cbn. lia.
    - apply reads_at; [reflexivity|lia].
  Qed.

  Lemma stage_spec (s : sampler) p x rest :
    (sp_staged_epoch s = sp_yield_epoch s /\ p = (sp_staged_epoch s, sp_staged s)
     \/ sp_staged_epoch s + 1 = sp_yield_epoch s /\ p = (sp_yield_epoch s, 0)
        /\ left (sp_staged_epoch s, sp_staged s) = []) ->
    pos_ok p -> left p = x :: rest -> snd p + zlen (snd x) <= sp_yielded s ->
    exists t s1, stage_batch cf s (Z.of_nat b) = Ok (t, s1)
      /\ t = {| st_before := (sp_staged_epoch s, sp_staged s);
                 st_after := (sp_staged_epoch s1, sp_staged s1) |}
      /\ step (sp_staged_epoch s, sp_staged s) x (sp_staged_epoch s1, sp_staged s1)
      /\ rest = left (sp_staged_epoch s1, sp_staged s1)
      /\ sp_staged_epoch s1 = sp_yield_epoch s /\ sp_staged s1 = snd p + zlen (snd x)
      /\ pos_ok (sp_staged_epoch s1, sp_staged s1)
      /\ sp_epoch s1 = sp_epoch s /\ sp_offset s1 = sp_offset s
      /\ sp_yield_epoch s1 = sp_yield_epoch s /\ sp_yielded s1 = sp_yielded s.
  Proof.
    intros Hst Hp Hl Hy. destruct (left_cons Hp Hl) as (Hd & Hsz & Hfx & Hrest).
    unfold stage_batch.
    assert (Hc : negb (Z.of_nat b <=? 0) = true) by lia. rewrite Hc.
    assert (Hbr : (if sp_yield_epoch s =? sp_staged_epoch s + 1 then Ok (sp_yield_epoch s, 0)
       else if sp_yield_epoch s =? sp_staged_epoch s then
            Ok (sp_staged_epoch s, sp_staged s) else Err RuntimeError) = Ok p /\ fst p = sp_yield_epoch s).
    { destruct Hst as [[He ->]|(He & -> & _)].
      - destruct (Z.eqb_spec (sp_yield_epoch s) (sp_staged_epoch s + 1)); [lia|].
        destruct (Z.eqb_spec (sp_yield_epoch s) (sp_staged_epoch s)); [|lia]. auto.
      - destruct (Z.eqb_spec (sp_yield_epoch s) (sp_staged_epoch s + 1)); [|lia]. auto. }
    destruct Hbr as [Hbr Hfp]. rewrite Hbr. cbn [bind]. destruct p as [pe po]. cbn [fst snd] in *.
    assert (Hg : negb ((Z.min (Z.of_nat b) (L - po) <=? 0)
                       || (sp_yielded s <? po + Z.min (Z.of_nat b) (L - po))) = true) by lia.
    rewrite Hg. do 2 eexists. split; [reflexivity|]. cbn [sp_staged_epoch sp_staged sp_epoch sp_offset sp_yield_epoch sp_yielded].
    unfold pos_ok in Hp. cbn [snd] in Hp.
    assert (Hpos : pos_ok (pe, po + Z.min (Z.of_nat b) (L - po))) by (unfold pos_ok; cbn; lia).
    split; [reflexivity|]. split; [|split; [|split; [|split; [|split; [exact Hpos|auto]]]]].
    - split; [exact Hpos|]. cbn [fst]. rewrite <- Hrest. clear Hfx Hbr. destruct Hst as [[He Ep]|(He & Ep & Hn0)].
      + left. inversion Ep. split; [reflexivity|]. rewrite <- Hl. congruence.
      + right. inversion Ep. split; [lia|]. split; [exact Hn0|]. rewrite <- left_zero, <- Hl. congruence.
    - exact Hrest.
    - lia.
    - lia.
  Qed.

  (** Every epoch delivers at least one batch. *)
  Definition epochs_nonempty : Prop := if drop then Z.of_nat b <= L else 0 < L.

  Lemma plan_nonempty e : epochs_nonempty -> plan e <> [].
  Proof.
    unfold epochs_nonempty, plan. intros H.
    destruct (Nat.lt_ge_cases (List.length (share e)) b) as [Hs|Hs].
    - rewrite batches_short by exact Hs. rewrite share_length in Hs.
      destruct drop; [lia|]. cbn. pose proof (share_length e). destruct (share e); [cbn in *; lia|discriminate].
    - rewrite batches_full by exact Hs. discriminate.
  Qed.

  Lemma fetch_staged (l2 : tloop) x durable opened p :
    path (0, 0) durable (sp_epoch (tl_s l2), sp_offset (tl_s l2)) ->
    opens (sp_epoch (tl_s l2), sp_offset (tl_s l2)) (tl_open l2) opened
          (sp_staged_epoch (tl_s l2), sp_staged (tl_s l2)) ->
    pos_ok (sp_epoch (tl_s l2), sp_offset (tl_s l2)) ->
    (sp_staged_epoch (tl_s l2) = sp_yield_epoch (tl_s l2) /\ p = (sp_staged_epoch (tl_s l2), sp_staged (tl_s l2))
     \/ sp_staged_epoch (tl_s l2) + 1 = sp_yield_epoch (tl_s l2) /\ p = (sp_yield_epoch (tl_s l2), 0)
        /\ left (sp_staged_epoch (tl_s l2), sp_staged (tl_s l2)) = []) ->
    reads p {| tl_s := tl_s l2; tl_it := tl_it l2; tl_ended := tl_ended l2;
               tl_queue := x :: tl_queue l2; tl_open := tl_open l2 |} ->
    exists t s1, stage_batch cf (tl_s l2) (Z.of_nat b) = Ok (t, s1) /\
      Inv {| tl_s := s1; tl_it := tl_it l2; tl_ended := tl_ended l2; tl_queue := tl_queue l2;
             tl_open := tl_open l2 ++ [t] |} durable (opened ++ [x]).
  Proof.
    intros Hd Ho Hpos Hst Hr0.
    assert (Hsum : snd p + zlen (snd x) + qsum (tl_queue l2) <= sp_yielded (tl_s l2)).
    { pose proof (rd_sum Hr0) as Hq. cbn [tl_queue tl_s] in Hq. unfold qsum in *. cbn [map] in Hq. rewrite zsum_cons in Hq. lia. }
    assert (Hq0 : 0 <= qsum (tl_queue l2)).
    { unfold qsum. apply zsum_nonneg. apply Forall_map. apply Forall_forall. intros; apply zlen_nonneg. }
    destruct (@stage_spec (tl_s l2) p x (tl_queue l2 ++ left (sp_yield_epoch (tl_s l2), sp_yielded (tl_s l2))))
      as (t & s1 & E & Et & Hstep & Hrest & He1 & Hs1 & Hp1 & H1 & H2 & H3 & H4).
    - exact Hst.
    - apply (rd_pos Hr0).
    - rewrite (rd_left Hr0). reflexivity.
    - lia.
    - exists t, s1. split; [exact E|]. constructor; cbn [tl_s tl_it tl_ended tl_queue tl_open].
      + rewrite H1, H2. exact Hd.
      + rewrite H1, H2. subst t. eapply opens_snoc; eauto.
      + rewrite H1, H2. exact Hpos.
      + constructor; cbn [tl_s tl_it tl_ended tl_queue tl_open fst snd].
        * congruence.
        * exact Hp1.
        * rewrite H3, H4. symmetry. exact Hrest.
        * rewrite H4, Hs1. exact Hsum.
        * pose proof (rd_iter Hr0) as Hi. cbn in Hi. unfold iter_ok in *. rewrite H3, H4. exact Hi.
        * rewrite H4. apply (rd_y Hr0).
        * rewrite H4. apply (rd_ended Hr0).
  Qed.

  Lemma fetch_spec ahead l durable opened : Inv l durable opened ->
    match fetch randperm cf b drop ahead l with
    | Ok (x, l1) => Inv l1 durable (opened ++ [x])
    | Err e => e = RuntimeError /\ ~ epochs_nonempty
    end.
  Proof.
    intros H. unfold fetch.
    destruct (take_batch_spec ahead (iv_reads H)) as (o & l1 & E & Hs & Hm). rewrite E. cbn [bind].
    destruct Hs as (S1 & S2 & S3 & S4 & S5 & S6).
    assert (He : sp_staged_epoch (tl_s l) = sp_yield_epoch (tl_s l)) by (apply (rd_epoch (iv_reads H))).
    destruct o as [x|].
    - cbn [bind]. destruct (@fetch_staged l1 x durable opened (sp_staged_epoch (tl_s l), sp_staged (tl_s l)))
        as (t & s1 & Et & HI).
      + rewrite <- S1, <- S2. apply (iv_done H).
      + rewrite <- S1, <- S2, <- S4, <- S5, <- S6. apply (iv_open H).
      + rewrite <- S1, <- S2. apply (iv_pos H).
      + left. rewrite <- S3, <- S4, <- S5. auto.
      + exact Hm.
      + rewrite Et. cbn [bind]. exact HI.
    - destruct Hm as (Hr1 & Hl1 & Hy1). unfold next_epoch, advance_yield_epoch.
      assert (Hg : negb (sp_yielded (tl_s l1) <? L) = true) by lia. rewrite Hg. cbn [bind].
      match goal with |- context [take_batch _ _ _ _ _ ?l2] => set (l2' := l2) end.
      assert (Hr2 : reads (sp_yield_epoch (tl_s l1) + 1, 0) l2').
      { pose proof L_nonneg. subst l2'. constructor; cbn; auto.
        - unfold pos_ok. cbn. lia.
        - unfold qsum. cbn. lia.
        - lia.
        - discriminate. }
      destruct (take_batch_spec ahead Hr2) as (o2 & l3 & E3 & Hs3 & Hm3). rewrite E3. cbn [bind].
      destruct Hs3 as (T1 & T2 & T3 & T4 & T5 & T6). subst l2'.
      cbn [tl_s tl_open sp_epoch sp_offset sp_yield_epoch sp_staged_epoch sp_staged] in *.
      destruct o2 as [x|].
      + destruct (@fetch_staged l3 x durable opened (sp_yield_epoch (tl_s l1) + 1, 0)) as (t & s1 & Et & HI).
        * rewrite <- T1, <- T2, <- S1, <- S2. apply (iv_done H).
        * rewrite <- T1, <- T2, <- T4, <- T5, <- T6, <- S1, <- S2, <- S4, <- S5, <- S6. apply (iv_open H).
        * rewrite <- T1, <- T2, <- S1, <- S2. apply (iv_pos H).
        * right. rewrite <- T3, <- T4, <- T5, <- S3, <- S4, <- S5.
          split; [lia|]. split; [reflexivity|]. exact Hl1.
        * exact Hm3.
        * rewrite Et. cbn [bind]. exact HI.
      + split; [reflexivity|]. destruct Hm3 as (_ & Hl3 & _). intros Hne.
        apply (@plan_nonempty (sp_yield_epoch (tl_s l1) + 1) Hne). rewrite <- left_zero. exact Hl3.
  Qed.

  Lemma check_stokens_spec s ts xs p q : opens p ts xs q -> pos_ok p ->
    sp_epoch s <= fst p -> fst q <= sp_yield_epoch s ->
    check_stokens cf s ts p = Ok q.
  Proof.
    induction 1 as [p|p x q ts xs r Hs Ho IH]; intros Hp He Hy; cbn [check_stokens]; [reflexivity|].
    cbn [st_before st_after].
    assert (E : pos_eqb p p = true) by (unfold pos_eqb; rewrite !Z.eqb_refl; reflexivity). rewrite E.
    pose proof (step_epoch Hs). pose proof (opens_epoch Ho). destruct Hs as [Hq _].
    assert (E2 : negb ((fst q <? sp_epoch s) || (sp_yield_epoch s <? fst q)) = true) by lia. rewrite E2.
    assert (E3 : (0 <=? snd q) && (snd q <=? L) = true) by (unfold pos_ok in Hq; lia). rewrite E3.
    apply IH; [exact Hq|lia|exact Hy].
  Qed.

  Lemma commit_spec n l durable opened : Inv l durable opened ->
    match commit cf n l with
    | Ok l1 => Inv l1 (durable ++ firstn n opened) (skipn n opened)
    | Err e => e = ValueError /\ firstn n opened = []
    end.
  Proof.
    intros H. unfold commit.
    destruct (opens_split n (iv_open H)) as (m & Ha & Hc).
    pose proof (opens_length Ha) as Hlen1.
    destruct (firstn n (tl_open l)) as [|t ts] eqn:Ef.
    - cbn. split; [reflexivity|]. destruct (firstn n opened); [reflexivity|discriminate].
    - unfold prepare_commit.
      rewrite (@check_stokens_spec (tl_s l) (t :: ts) (firstn n opened) _ m Ha (iv_pos H)).
      + cbn [bind]. unfold commit_prepared. cbn [sq_before sq_after].
        assert (E : pos_eqb (sp_epoch (tl_s l), sp_offset (tl_s l)) (sp_epoch (tl_s l), sp_offset (tl_s l)) = true)
          by (unfold pos_eqb; rewrite !Z.eqb_refl; reflexivity).
        rewrite E. cbn [bind].
        assert (Em : (fst m, snd m) = m) by (destruct m; reflexivity).
        constructor; cbn [tl_s tl_it tl_ended tl_queue tl_open sp_epoch sp_offset sp_staged sp_staged_epoch]; rewrite ?Em.
        * eapply path_app; [apply (iv_done H)|]. eapply opens_path; eauto.
        * exact Hc.
        * eapply opens_pos; [exact Ha|apply (iv_pos H)].
        * pose proof (iv_reads H) as Hr0. destruct Hr0. constructor; auto.
      + cbn. lia.
      + pose proof (opens_epoch Hc). pose proof (rd_epoch (iv_reads H)). cbn in *. lia.
  Qed.

  Lemma rollback_spec l durable opened : Inv l durable opened -> Inv (roll_back l) durable [].
  Proof.
    intros H. pose proof (iv_pos H) as Hp. unfold pos_ok in Hp. cbn in Hp.
    constructor; cbn.
    - apply (iv_done H).
    - constructor.
    - apply (iv_pos H).
    - apply reads_at; [reflexivity|exact Hp].
  Qed.

  Lemma restart_spec l durable opened : Inv l durable opened ->
    exists l1, restart cf l = Ok l1 /\ Inv l1 durable [].
  Proof.
    intros H. pose proof (iv_pos H) as Hp. unfold pos_ok in Hp. cbn in Hp.
    unfold restart, sampler_new.
    assert (E0 : negb ((sm_world cf <=? 0) || negb ((0 <=? sm_rank cf) && (sm_rank cf <? sm_world cf))) = true) by lia.
    rewrite E0. cbn [bind]. unfold sampler_load, sampler_save.
    cbn [ss_version ss_length ss_shuffle ss_seed ss_world ss_rank ss_epoch ss_offset].
    change (2 =? 1) with false. change (2 =? 2) with true. cbv iota.
    rewrite !Z.eqb_refl, Bool.eqb_reflx. cbn [andb].
    assert (E1 : (0 <=? sp_offset (tl_s l)) && (sp_offset (tl_s l) <=? L) = true) by lia.
    rewrite E1. cbn [bind]. eexists. split; [reflexivity|].
    apply (rollback_spec H).
  Qed.
End Facts.
