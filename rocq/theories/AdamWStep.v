(** The step of a group and of the optimizer, for C64. *)
From Coq Require Import Permutation Field_theory.
From Verif Require Import Base BaseFacts AdamW AdamWSpec AdamWFacts AdamWRun AdamWPlan.
Set Implicit Arguments. Unset Strict Implicit.

Section Step.
Variable R : Type.
Variables (r0 r1 : R) (radd rmul rsub : R -> R -> R) (ropp : R -> R) (rdiv : R -> R -> R) (rinv : R -> R).
Variable sqrt : R -> R.
Hypothesis F : field_theory r0 r1 radd rmul rsub ropp rdiv rinv eq.
Variable majority : list nat -> nat.
Variable block : nat.
Hypothesis block_pos : (0 < block)%nat.
Variable schedule : list (nat * nat) -> list (nat * nat).
Hypothesis scheduled : forall l, Permutation (schedule l) l.
Notation adamw := (adamw r1 radd rmul rsub rdiv sqrt).
Notation view := (view R). Notation memory := (memory R).
Notation reference_update := (reference_update r1 radd rmul rsub ropp rdiv sqrt).
Notation launch_plan := (launch_plan r0 majority block).
Notation group_step := (group_step r0 r1 radd rmul rsub ropp rdiv sqrt majority block schedule).
Notation steps := (steps r0 r1 radd rmul rsub ropp rdiv sqrt majority block schedule).
Notation cached := (cached block). Notation tables := (tables block).
Notation launched := (launched r0 block).
Variable w : view.
Notation did := (did r1 radd rmul rsub ropp rdiv sqrt w).

Definition keeps (s s' : opt) (ps : list nat) : Prop :=
  forall i, List.In i ps -> match state s i, state s' i with None, None => True | Some e, Some e' => exp_avg e' = exp_avg e /\ exp_avg_sq e' = exp_avg_sq e | _, _ => False end.
Lemma keeps_moments s s' ps : keeps s s' ps -> forall i, List.In i ps -> moments w s' i = moments w s i.
Proof. intros K i Hi. specialize (K i Hi). unfold moments. destruct (state s i), (state s' i); try contradiction; [|reflexivity]. destruct K as (-> & ->). reflexivity. Qed.
Lemma keeps_incl s s' ps qs : incl qs ps -> keeps s s' ps -> keeps s s' qs.
Proof. intros I K i Hi. apply K, I, Hi. Qed.
Lemma keeps_tables (w1 : view) s s' p : keeps s s' (fast p) -> tables w1 s p -> tables w1 s' p.
Proof.
  intros K T. constructor; try (apply T).
  - rewrite (t_m T). apply map_ext_in. intros i Hi. specialize (K i Hi). unfold ptr_of_avg. destruct (state s i), (state s' i); try contradiction; [|reflexivity]. destruct K as (-> & _). reflexivity.
  - rewrite (t_v T). apply map_ext_in. intros i Hi. specialize (K i Hi). unfold ptr_of_sq. destruct (state s i), (state s' i); try contradiction; [|reflexivity]. destruct K as (_ & ->). reflexivity.
Qed.
Lemma keeps_fits (w1 : view) s s' ps i : keeps s s' ps -> List.In i ps -> fits w1 s i -> fits w1 s' i.
Proof.
  intros K Hi (g & e & l & Hg & He & L). specialize (K i Hi). rewrite He in K. destruct (state s' i) as [e'|] eqn:E'; [|contradiction]. destruct K as (K1 & K2). exists g, e', l. split; [exact Hg|]. split; [exact E'|]. rewrite K1, K2. exact L.
Qed.
Lemma cached_keeps (w1 : view) s s' h ps p : keeps s s' ps -> incl (fast p) ps -> (forall i j, List.In i (fast p) -> List.In j (fast p) -> step_of (state s') i = step_of (state s') j) -> cached w1 s h ps p -> cached w1 s' h ps p.
Proof.
  intros K I Cn C. constructor; try (apply C); try exact Cn.
  - intros i Hi G. destruct (c_state C Hi G) as (e & He). specialize (K i Hi). rewrite He in K. destruct (state s' i) as [e'|]; [exists e'; reflexivity|contradiction].
  - intros i Hi. apply (keeps_fits K (I _ Hi)). apply (c_fits C Hi).
  - apply (keeps_tables (s := s)); [apply (keeps_incl I K)|apply (c_tables C)].
Qed.
Lemma cached_fast (w1 : view) s h ps p : cached w1 s h ps p -> incl (fast p) ps.
Proof. intros C i Hi. assert (X : List.In i (filter (has_grad w1) ps)) by (apply (Permutation_in _ (c_perm C)); apply in_or_app; left; exact Hi). apply filter_In in X. apply X. Qed.
Lemma did_moments h s s' mem mem' i n : moments w s' i = moments w s i -> did h s mem mem' i n -> did h s' mem mem' i n.
Proof.
  intros E D g a Hg Ha at_. specialize (D g a Hg Ha). cbv beta zeta in D. unfold at_. cbv beta. rewrite !(target_moments _ E). exact D.
Qed.
Lemma owned_moments s s' ls x : (forall i, List.In i ls -> moments w s' i = moments w s i) -> owned w s' ls x -> owned w s ls x.
Proof. intros E (i & k & a & Hi & Ha & Ex). exists i, k, a. rewrite (target_moments k (E i Hi)) in *. auto. Qed.

Lemma nodup_parts A (l m : list A) : NoDup (l ++ m) -> NoDup l /\ NoDup m /\ (forall a, List.In a l -> ~ List.In a m).
Proof.
  induction l as [|x l IH]; intros H; [split; [constructor|split; [exact H|intros a []]]|]. cbn in H. inversion H as [|? ? NI ND]; subst. destruct (IH ND) as (A1 & A2 & A3). split; [constructor; [intros Q; apply NI; apply in_or_app; left; exact Q|exact A1]|]. split; [exact A2|].
  intros a [<-|Ha] Hm; [apply NI; apply in_or_app; right; exact Hm|exact (A3 a Ha Hm)].
Qed.
(** ** Counting *)
Definition counted (n : nat) (fl : list nat) (st : nat -> option pstate) : nat -> option pstate :=
  fold_left (fun st i => match st i with Some e => set_state i {| count := n; exp_avg := exp_avg e; exp_avg_sq := exp_avg_sq e |} st | None => st end) fl st.
Lemma counted_is n fl : forall st i, counted n fl st i = if existsb (Nat.eqb i) fl then match st i with Some e => Some {| count := n; exp_avg := exp_avg e; exp_avg_sq := exp_avg_sq e |} | None => None end else st i.
Proof.
  unfold counted. induction fl as [|k fl IH]; intros st i; [reflexivity|]. cbn [fold_left]. rewrite IH. cbn [existsb]. destruct (Nat.eqb_spec i k) as [->|N]; cbn [orb].
  - destruct (st k) as [e|] eqn:E; [|rewrite E; destruct (existsb _ fl); reflexivity]. unfold set_state. rewrite Nat.eqb_refl. cbn. destruct (existsb _ fl); reflexivity.
  - assert (X : (match st k with Some e => set_state k {| count := n; exp_avg := exp_avg e; exp_avg_sq := exp_avg_sq e |} st | None => st end) i = st i). { destruct (st k); [|reflexivity]. unfold set_state. apply Nat.eqb_neq in N. rewrite N. reflexivity. }
    rewrite X. reflexivity.
Qed.

(** ** After the launch *)
Definition one (h : hyper R) (s : opt) (mem : memory) (s' : opt) (mem' : memory) (i : nat) : Prop :=
  match grad w i with
  | None => state s' i = state s i
  | Some g =>
      state s' i = Some {| count := S (old_count s i); exp_avg := fst (moments w s i); exp_avg_sq := snd (moments w s i) |}
      /\ forall a, index_of (param w i) a ->
         let at_ k := addr (target w s i k) a in
         (mem' (at_ Param), mem' (at_ First), mem' (at_ Second))
         = adamw h (S (old_count s i)) (mem (at_ Param)) (if maximize h then ropp (mem (addr g a)) else mem (addr g a))
             (old_moment r0 s mem i (at_ First)) (old_moment r0 s mem i (at_ Second))
  end.
Lemma begun_moments st gs c ps s i : state s = st -> List.In i ps -> moments w {| groups := gs; state := begun w st ps; cache := c |} i = moments w s i.
Proof.
  intros E Hi. unfold moments. cbn [state]. unfold begun. rewrite (proj2 (existsb_in i ps) Hi). cbn [andb]. unfold needs. rewrite E. destruct (st i) as [e|]; [rewrite Bool.andb_false_r; reflexivity|]. rewrite Bool.andb_true_r. destruct (has_grad w i); [|reflexivity]. destruct (fresh w i). reflexivity.
Qed.
Lemma launched_moments index ps s mem p s1 mem1 i : launched w index ps s mem p s1 mem1 -> List.In i ps -> moments w s1 i = moments w s i.
Proof.
  intros (_ & _ & _ & _ & E & _) Hi. etransitivity; [|apply (begun_moments (groups s) (cache s) (s := s) eq_refl Hi)]. unfold moments. cbn [state]. rewrite <- E. reflexivity.
Qed.
Lemma zeroed_owned s ps x : zeroed w (state s) ps x -> exists i k a, List.In i ps /\ has_grad w i = true /\ state s i = None /\ k <> Param /\ index_of (target w s i k) a /\ x = addr (target w s i k) a.
Proof.
  intros (i & a & Hi & N & X). unfold needs in N. apply Bool.andb_true_iff in N. destruct N as (N1 & N2). destruct (state s i) eqn:E; [discriminate|]. destruct X as [(X1 & X2)|(X1 & X2)]; [exists i, First, a|exists i, Second, a]; cbn [target]; unfold moments; rewrite E; repeat split; auto; discriminate.
Qed.
Lemma launched_one index ps s mem p s1 mem1 s' mem' h i : sound_on w s ps -> launched w index ps s mem p s1 mem1 -> List.In i ps ->
  match grad w i with
  | None => state s' i = state s1 i
  | Some g => exists e, state s1 i = Some e /\ state s' i = Some {| count := S (count e); exp_avg := exp_avg e; exp_avg_sq := exp_avg_sq e |} /\ did h s1 mem1 mem' i (S (count e))
  end -> one h s mem s' mem' i.
Proof.
  intros So L Hi H. assert (Mo := launched_moments L Hi). destruct L as (_ & _ & _ & _ & St & Z1 & Z2). specialize (St i). unfold one. unfold begun in St. rewrite (proj2 (existsb_in i ps) Hi) in St. cbn [andb] in St. unfold needs in St.
  assert (Gr : has_grad w i = match grad w i with Some _ => true | None => false end) by reflexivity.
  destruct (grad w i) as [g|] eqn:Hg.
  2:{ rewrite Gr in St. cbn [andb] in St. congruence. }
  rewrite Gr in St. cbn [andb] in St. destruct H as (e & E1 & E2 & D).
  assert (Ce : count e = old_count s i /\ exp_avg e = fst (moments w s i) /\ exp_avg_sq e = snd (moments w s i)).
  { unfold old_count, moments. destruct (state s i) as [e0|]; [assert (e0 = e) by congruence; subst; auto|]. assert (X : e = {| count := 0; exp_avg := fst (fresh w i); exp_avg_sq := snd (fresh w i) |}) by congruence. subst e. auto. }
  destruct Ce as (C1 & C2 & C3). split; [rewrite E2, C1, C2, C3; reflexivity|].
  intros a Ha. specialize (D g a Hg Ha). cbv beta zeta in D. rewrite !(target_moments _ Mo) in D. rewrite C1 in D. rewrite D.
  assert (So' := So). destruct So' as (_ & _ & _ & S4 & S5).
  assert (P : mem1 (addr (target w s i Param) a) = mem (addr (target w s i Param) a)).
  { apply Z2. intros Zd. apply zeroed_owned in Zd. destruct Zd as (j & k & b & Hj & _ & _ & Nk & Hb & Ex). destruct (S4 i j Param k a b Hi Hj (to_target Param So Hi Ha) Hb Ex) as (_ & Q & _). congruence. }
  assert (Gm : mem1 (addr g a) = mem (addr g a)).
  { apply Z2. intros Zd. apply zeroed_owned in Zd. destruct Zd as (j & k & b & Hj & _ & _ & Nk & Hb & Ex). exact (S5 i g a j k b Hi Hj Hg (to_grad So Hi Hg Ha) Hb Ex). }
  assert (Q : forall k, k <> Param -> mem1 (addr (target w s i k) a) = old_moment r0 s mem i (addr (target w s i k) a)).
  { intros k Nk. unfold old_moment. destruct (state s i) as [e0|] eqn:Es.
    - apply Z2. intros Zd. apply zeroed_owned in Zd. destruct Zd as (j & k2 & b & Hj & _ & Ej & _ & Hb & Ex). destruct (S4 i j k k2 a b Hi Hj (to_target k So Hi Ha) Hb Ex) as (-> & _). congruence.
    - apply Z1. exists i, a. split; [exact Hi|]. split; [unfold needs; rewrite Gr, Es; reflexivity|]. assert (It := to_target k So Hi Ha). destruct k; [congruence| |]; cbn [target] in *; unfold moments in *; rewrite Es in *; [left|right]; auto. }
  rewrite P, Gm, (Q First), (Q Second) by discriminate. reflexivity.
Qed.

Lemma group_ok last index ps s mem : sound_on w s ps -> cache_ok block last s index ps -> (forall w0, last = Some w0 -> moves_one w w0 index ps) ->
  exists s' mem', group_step w index ps s mem = Ok (s', mem') /\ groups s' = groups s
  /\ (exists p, cache s' index = Some p /\ cached w s' (hypers w index) ps p) /\ (forall j, j <> index -> cache s' j = cache s j)
  /\ (forall i, List.In i ps -> one (hypers w index) s mem s' mem' i) /\ (forall i, ~ List.In i ps -> state s' i = state s i)
  /\ (forall x, ~ owned w s (filter (has_grad w) ps) x -> mem' x = mem x).
Proof.
  intros So Co Mo. destruct (launch_ok r0 sqrt majority mem So Co Mo) as (p & s1 & mem1 & El & L). unfold group_step. rewrite El. cbn [bind]. set (h := hypers w index) in *.
  assert (L' := L). destruct L' as (G1 & C & Cp & Co1 & St1 & Z1 & Z2). fold h in C.
  assert (Mom : forall i, List.In i ps -> moments w s1 i = moments w s i) by (intros i Hi; apply (launched_moments L Hi)).
  assert (So1 := sound_on_ext Mom So). assert (S1 : NoDup ps) by apply So.
  assert (Pm := c_perm C). assert (NDp : NoDup (fast p ++ slow p)) by (apply (Permutation_NoDup (Permutation_sym Pm)); apply NoDup_filter; exact S1).
  destruct (nodup_parts NDp) as (NDf & NDs & Dj).
  assert (Ins : forall i, List.In i (fast p ++ slow p) <-> List.In i ps /\ has_grad w i = true). { intros i. rewrite <- filter_In. split; apply Permutation_in; [exact Pm|symmetry; exact Pm]. }
  assert (If : incl (fast p) ps) by (intros i Hi; apply Ins; apply in_or_app; left; exact Hi).
  assert (Is : incl (slow p) ps) by (intros i Hi; apply Ins; apply in_or_app; right; exact Hi).
  assert (Hst : forall i, List.In i (fast p ++ slow p) -> (exists g, grad w i = Some g) /\ exists e, state s1 i = Some e).
  { intros i Hi. apply Ins in Hi. destruct Hi as (Hi & G). split; [unfold has_grad in G; destruct (grad w i) as [g|]; [exists g; reflexivity|discriminate]|exact (c_state C Hi G)]. }
  destruct (reference_ok sqrt F h (ls := slow p) (s := s1) mem1 So1 Is NDs) as (s2 & mem2 & Er & G2 & C2 & St2 & D2 & Fr2); [intros i Hi; apply Hst; apply in_or_app; right; exact Hi|].
  assert (K12 : keeps s1 s2 ps). { intros i Hi. rewrite St2. unfold bump. destruct (existsb (Nat.eqb i) (slow p)); destruct (state s1 i); auto. }
  assert (So2 : sound_on w s2 ps) by (apply (sound_on_ext (keeps_moments K12) So1)).
  assert (Frm : forall m', (forall x, ~ owned w s1 (fast p ++ slow p) x -> m' x = mem1 x) -> forall x, ~ owned w s (filter (has_grad w) ps) x -> m' x = mem x).
  { intros m' Hm x N. rewrite Hm.
    - apply Z2. intros Zd. apply N. apply zeroed_owned in Zd. destruct Zd as (i & k & a & Hi & Hg & _ & _ & Ha & Ex). exists i, k, a. split; [apply filter_In; auto|]. auto.
    - intros (i & k & a & Hi & Ha & Ex). apply N. apply Ins in Hi. destruct Hi as (Hi & Hg). rewrite (target_moments k (Mom i Hi)) in *. exists i, k, a. split; [apply filter_In; auto|auto]. }
  assert (Out : forall i, ~ List.In i ps -> state s1 i = state s i) by (intros i Ni; rewrite St1; apply begun_out; tauto).
  assert (Fin : forall s3 mem3, groups s3 = groups s2 -> cache s3 = cache s2 ->
     (forall i, state s3 i = bump (fast p ++ slow p) (state s1) i) ->
     (forall i, List.In i (fast p ++ slow p) -> did h s1 mem1 mem3 i (S (step_of (state s1) i))) -> (forall x, ~ owned w s1 (fast p ++ slow p) x -> mem3 x = mem1 x) ->
     groups s3 = groups s /\ (exists p0, cache s3 index = Some p0 /\ cached w s3 h ps p0) /\ (forall j, j <> index -> cache s3 j = cache s j)
     /\ (forall i, List.In i ps -> one h s mem s3 mem3 i) /\ (forall i, ~ List.In i ps -> state s3 i = state s i) /\ (forall x, ~ owned w s (filter (has_grad w) ps) x -> mem3 x = mem x)).
  { intros s3 mem3 G3 C3 St3 D3 Fr3. assert (K13 : keeps s1 s3 ps). { intros i Hi. rewrite St3. unfold bump. destruct (existsb (Nat.eqb i) _); destruct (state s1 i); auto. }
    split; [congruence|]. split; [exists p; split; [congruence|]; apply (cached_keeps K13 If); [|exact C]|]. 
    { intros i j Hi Hj. assert (Q := c_count C Hi Hj). unfold step_of in *. rewrite !St3. destruct (Hst i (in_or_app _ _ _ (or_introl Hi))) as (_ & (ei & Ei)). destruct (Hst j (in_or_app _ _ _ (or_introl Hj))) as (_ & (ej & Ej)). rewrite (bump_in (in_or_app _ _ _ (or_introl Hi)) Ei), (bump_in (in_or_app _ _ _ (or_introl Hj)) Ej). cbn [count]. rewrite Ei, Ej in Q. congruence. }
    split; [intros j Hj; rewrite C3, C2; apply Co1; exact Hj|]. split; [|split].
    - intros i Hi. apply (launched_one So L Hi). destruct (grad w i) as [g|] eqn:Hg.
      + assert (Hin : List.In i (fast p ++ slow p)) by (apply Ins; split; [exact Hi|unfold has_grad; rewrite Hg; reflexivity]). destruct (Hst i Hin) as (_ & (e & He)). exists e. split; [exact He|]. split; [rewrite St3; apply (bump_in Hin He)|]. specialize (D3 i Hin). unfold step_of in D3. rewrite He in D3. exact D3.
      + rewrite St3. apply bump_out. intros Hin. apply Ins in Hin. destruct Hin as (_ & Q). unfold has_grad in Q. rewrite Hg in Q. discriminate.
    - intros i Ni. rewrite St3, bump_out; [apply Out; exact Ni|]. intros Hin. apply Ins in Hin. tauto.
    - apply Frm. exact Fr3. }
  destruct (fast p) as [|first fl] eqn:Ef.
  - exists s2, mem2. split; [exact Er|]. apply Fin; auto.
  - rewrite Er. cbn [bind]. rewrite <- Ef in *. set (n := S (step_of (state s2) first)).
    assert (Hfirst : List.In first (fast p)) by (rewrite Ef; left; reflexivity).
    assert (S21 : forall i, List.In i (fast p) -> state s2 i = state s1 i) by (intros i Hi; rewrite St2; apply bump_out; apply Dj; exact Hi).
    assert (Hn : forall i, List.In i (fast p) -> n = S (step_of (state s1) i)). { intros i Hi. unfold n. f_equal. unfold step_of at 1. rewrite (S21 first Hfirst). exact (c_count C Hfirst Hi). }
    destruct (@kernel_ok R r0 r1 radd rmul rsub ropp rdiv rinv sqrt F block block_pos schedule scheduled w h n s2 ps p mem2 So2 If NDf) as (D3 & Fr3).
    { apply (keeps_tables (s := s1)); [apply (keeps_incl If K12)|apply (c_tables C)]. } { intros i Hi. apply (keeps_fits K12 (If i Hi)). apply (c_fits C Hi). } { apply (c_max C). rewrite Ef. discriminate. }
    do 2 eexists. split; [reflexivity|]. apply Fin; try reflexivity.
    + intros i. cbn [state]. fold (counted n (fast p) (state s2)). rewrite counted_is. destruct (existsb (Nat.eqb i) (fast p)) eqn:Ei.
      * apply existsb_in in Ei. destruct (Hst i (in_or_app _ _ _ (or_introl Ei))) as (_ & (e & He)). rewrite (bump_in (in_or_app _ _ _ (or_introl Ei)) He), S21, He by exact Ei. rewrite (Hn i Ei). unfold step_of. rewrite He. reflexivity.
      * rewrite St2. unfold bump. rewrite existsb_app, Ei. reflexivity.
    + intros i Hi. apply in_app_or in Hi. destruct Hi as [Hi|Hi].
      * rewrite <- (Hn i Hi). apply (did_before (mem0 := mem2) So1 (If i Hi)); [apply (frame_agree (qs := slow p) So1 Is (If i Hi) (Dj i Hi)); exact Fr2|]. apply (did_moments (s := s2)); [symmetry; apply (keeps_moments K12 (If i Hi))|]. apply D3. exact Hi.
      * apply (did_after (mem0 := mem2) So1 (Is i Hi)); [|apply D2; exact Hi]. apply (frame_agree (qs := fast p) So1 If (Is i Hi)); [intros Q; exact (Dj i Q Hi)|]. intros x N. apply Fr3. intros O. apply N. apply (owned_moments (s' := s2)); [intros j Hj; apply (keeps_moments K12 (If j Hj))|exact O].
    + intros x N. cbv zeta in Fr3. rewrite Fr3; [apply Fr2|].
      * intros (i & k & a & Hi & X). apply N. exists i, k, a. split; [apply in_or_app; right; exact Hi|exact X].
      * intros O. apply N. apply (owned_moments (s := s1)) in O; [|intros j Hj; apply (keeps_moments K12 (If j Hj))]. destruct O as (i & k & a & Hi & X). exists i, k, a. split; [apply in_or_app; left; exact Hi|exact X].
Qed.

(** ** All groups *)
Lemma one_frame h ps s s1 mem mem1 s' mem' i : sound_on w s ps -> List.In i ps -> state s1 i = state s i -> agree_on w s i mem mem1 -> one h s1 mem1 s' mem' i -> one h s mem s' mem' i.
Proof.
  intros So Hi St (A1 & A2). unfold one. assert (Mo : moments w s1 i = moments w s i) by (unfold moments; rewrite St; reflexivity). assert (Oc : old_count s1 i = old_count s i) by (unfold old_count; rewrite St; reflexivity).
  destruct (grad w i) as [g|] eqn:Hg; [|congruence]. rewrite Mo, Oc. intros (H1 & H2). split; [exact H1|]. intros a Ha. cbv beta zeta. specialize (H2 a Ha). cbv beta zeta in H2. rewrite !(target_moments _ Mo) in H2. rewrite H2.
  rewrite (A1 Param a (to_target Param So Hi Ha)), (A2 g a eq_refl (to_grad So Hi Hg Ha)).
  assert (Q : forall k, old_moment r0 s1 mem1 i (addr (target w s i k) a) = old_moment r0 s mem i (addr (target w s i k) a)). { intros k. unfold old_moment. rewrite St. destruct (state s i); [|reflexivity]. apply A1. apply (to_target k So Hi Ha). }
  rewrite !Q. reflexivity.
Qed.
Lemma one_after h ps s mem s1 mem1 s' mem' i : sound_on w s ps -> List.In i ps -> state s' i = state s1 i -> agree_on w s i mem1 mem' -> one h s mem s1 mem1 i -> one h s mem s' mem' i.
Proof.
  intros So Hi St (A1 & _). unfold one. destruct (grad w i) as [g|] eqn:Hg; [|congruence]. rewrite St. intros (H1 & H2). split; [exact H1|]. intros a Ha. cbv beta zeta. specialize (H2 a Ha). cbv beta zeta in H2. rewrite <- H2.
  rewrite (A1 Param a (to_target Param So Hi Ha)), (A1 First a (to_target First So Hi Ha)), (A1 Second a (to_target Second So Hi Ha)). reflexivity.
Qed.
Lemma one_moments h s mem s' mem' i : one h s mem s' mem' i -> moments w s' i = moments w s i.
Proof.
  unfold one. destruct (grad w i) as [g|]; intros H; [|unfold moments; rewrite H; reflexivity]. destruct H as (H & _). unfold moments at 1. rewrite H. cbn. destruct (moments w s i). reflexivity.
Qed.
Lemma in_group (gs : list (list nat)) j ps i : nth_error gs j = Some ps -> List.In i ps -> List.In i (List.concat gs).
Proof. intros H Hi. apply in_concat. exists ps. split; [apply nth_error_In in H; exact H|exact Hi]. Qed.
Lemma cached_state (w1 : view) s s' h ps p : (forall i, List.In i ps -> state s' i = state s i) -> cached w1 s h ps p -> cached w1 s' h ps p.
Proof.
  intros E C. assert (If := cached_fast C). apply (cached_keeps (s := s)); auto.
  - intros i Hi. rewrite E by exact Hi. destruct (state s i); auto.
  - intros i j Hi Hj. unfold step_of. rewrite !E by (apply If; assumption). apply (c_count C Hi Hj).
Qed.
Lemma steps_ok last all gs : forall index s mem, NoDup (List.concat gs) -> incl (List.concat gs) all -> sound_on w s all ->
  (forall j ps, nth_error gs j = Some ps -> cache_ok block last s (index + j) ps /\ forall w0, last = Some w0 -> moves_one w w0 (index + j) ps) ->
  exists s' mem', steps w index gs s mem = Ok (s', mem') /\ groups s' = groups s
  /\ (forall j ps, nth_error gs j = Some ps -> exists p, cache s' (index + j) = Some p /\ cached w s' (hypers w (index + j)) ps p)
  /\ (forall j, (j < index \/ index + List.length gs <= j)%nat -> cache s' j = cache s j)
  /\ (forall j ps i, nth_error gs j = Some ps -> List.In i ps -> one (hypers w (index + j)) s mem s' mem' i) /\ (forall i, ~ List.In i (List.concat gs) -> state s' i = state s i)
  /\ (forall x, ~ owned w s (filter (has_grad w) (List.concat gs)) x -> mem' x = mem x).
Proof.
  induction gs as [|ps gs IH]; intros index s mem ND I So H.
  - exists s, mem. split; [reflexivity|]. split; [reflexivity|]. split; [intros [|j] ps Q; discriminate|]. split; [reflexivity|]. split; [intros [|j] ps i Q; discriminate|]. split; reflexivity.
  - cbn [List.concat] in *. destruct (nodup_parts ND) as (NDp & NDg & Dj).
    assert (Ip : incl ps all) by (intros i Hi; apply I; apply in_or_app; left; exact Hi). assert (Ig : incl (List.concat gs) all) by (intros i Hi; apply I; apply in_or_app; right; exact Hi).
    destruct (H 0%nat ps eq_refl) as (Co & Mo). rewrite Nat.add_0_r in *.
    destruct (group_ok (last := last) (index := index) mem (sound_on_incl Ip NDp So) Co Mo) as (s1 & mem1 & E1 & G1 & (p & Cp & Ca) & Co1 & O1 & St1 & Fr1).
    cbn [AdamW.steps]. rewrite E1. cbn [bind].
    assert (Mom : forall i, moments w s1 i = moments w s i). { intros i. destruct (in_dec Nat.eq_dec i ps) as [Hi|Ni]; [apply (one_moments (O1 i Hi))|unfold moments; rewrite St1 by exact Ni; reflexivity]. }
    assert (So1 : sound_on w s1 all) by (apply (sound_on_ext (fun i _ => Mom i) So)).
    destruct (IH (S index) s1 mem1 NDg Ig So1) as (s2 & mem2 & E2 & G2 & C2 & Co2 & O2 & St2 & Fr2).
    { intros j qs Hj. destruct (H (S j) qs Hj) as (Cj & Mj). rewrite Nat.add_succ_r in *. change (S index + j)%nat with (S (index + j)). split; [|exact Mj]. unfold cache_ok in *. rewrite Co1 by lia. destruct (cache s (S (index + j))) as [q|]; [|exact Logic.I]. destruct Cj as (w0 & El & Cq). exists w0. split; [exact El|]. apply (cached_state (s := s)); [|exact Cq]. intros i Hi. apply St1. intros Hp. exact (Dj i Hp (in_group Hj Hi)). }
    assert (Fs : forall qs i, incl qs all -> List.In i all -> ~ List.In i qs -> forall m m' : memory, (forall x, ~ owned w s (filter (has_grad w) qs) x -> m' x = m x) -> agree_on w s i m m').
    { intros qs i Iq Hi Ni m m' Fr. apply (frame_agree (qs := filter (has_grad w) qs) So); [intros j Hj; apply Iq; apply filter_In in Hj; apply Hj|exact Hi|intros Q; apply Ni; apply filter_In in Q; apply Q|exact Fr]. }
    assert (Ow : forall x, owned w s1 (filter (has_grad w) (List.concat gs)) x -> owned w s (filter (has_grad w) (List.concat gs)) x) by (intros x; apply owned_moments; intros i _; apply Mom).
    exists s2, mem2. split; [exact E2|]. split; [congruence|]. split; [|split; [|split; [|split]]].
    + intros [|j] qs Hj.
      * injection Hj as <-. rewrite Nat.add_0_r. exists p. split; [rewrite Co2 by lia; exact Cp|]. apply (cached_state (s := s1)); [|exact Ca]. intros i Hi. apply St2. apply Dj. exact Hi.
      * rewrite Nat.add_succ_r. apply (C2 j qs Hj).
    + intros j Hj. cbn [List.length] in Hj. rewrite Co2 by lia. apply Co1. lia.
    + intros [|j] qs i Hj Hi.
      * injection Hj as <-. rewrite Nat.add_0_r. apply (one_after (s1 := s1) (mem1 := mem1) So (Ip i Hi)); [apply St2; apply Dj; exact Hi| |apply O1; exact Hi]. apply (Fs (List.concat gs) i Ig (Ip i Hi) (Dj i Hi)). intros x N. apply Fr2. intros O. apply N, Ow, O.
      * rewrite Nat.add_succ_r. assert (Hc := in_group (gs := gs) Hj Hi). assert (Ni : ~ List.In i ps) by (intros Q; exact (Dj i Q Hc)). apply (one_frame (s1 := s1) (mem1 := mem1) So (Ig i Hc)); [apply St1; exact Ni| |apply (O2 j qs i Hj Hi)]. apply (Fs ps i Ip (Ig i Hc) Ni). exact Fr1.
    + intros i Ni. rewrite St2 by (intros Q; apply Ni; apply in_or_app; right; exact Q). apply St1. intros Q. apply Ni. apply in_or_app. left. exact Q.
    + intros x N. assert (Sub : forall qs, incl qs (ps ++ List.concat gs) -> owned w s (filter (has_grad w) qs) x -> False).
      { intros qs Iq (i & k & a & Hi & X). apply N. exists i, k, a. split; [|exact X]. apply filter_In in Hi. apply filter_In. split; [apply Iq; apply Hi|apply Hi]. }
      rewrite Fr2; [apply Fr1|]; intros O; [apply (Sub ps); [intros i Hi; apply in_or_app; left; exact Hi|exact O]|apply (Sub (List.concat gs)); [intros i Hi; apply in_or_app; right; exact Hi|apply Ow; exact O]].
Qed.
End Step.
