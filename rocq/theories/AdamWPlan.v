(** Launch plans and the step of a group, for C64. *)
From Coq Require Import Permutation Field_theory.
From Verif Require Import Base BaseFacts AdamW AdamWSpec AdamWFacts AdamWRun.
Set Implicit Arguments. Unset Strict Implicit.

Section Plan.
Variable R : Type.
Variables (r0 r1 : R) (radd rmul rsub : R -> R -> R) (ropp : R -> R) (rdiv : R -> R -> R) (rinv : R -> R).
Variable sqrt : R -> R.
Hypothesis F : field_theory r0 r1 radd rmul rsub ropp rdiv rinv eq.
Variable majority : list nat -> nat.
Variable block : nat.
Hypothesis block_pos : (0 < block)%nat.
Variable schedule : list (nat * nat) -> list (nat * nat).
Hypothesis scheduled : forall l, Permutation (schedule l) l.
Notation adamw := (adamw r1 radd rmul rsub rdiv sqrt).
Notation view := (view R). Notation memory := (memory R).
Notation reference_update := (reference_update r1 radd rmul rsub ropp rdiv sqrt).
Notation launch_plan := (launch_plan r0 majority block).
Notation group_step := (group_step r0 r1 radd rmul rsub ropp rdiv sqrt majority block schedule).
Notation cached := (cached block). Notation tables := (tables block).
Notation did := (did r1 radd rmul rsub ropp rdiv sqrt).
Variable w : view.

(** ** New states *)
Definition needs (st : nat -> option pstate) (i : nat) : bool := has_grad w i && match st i with None => true | Some _ => false end.
Definition begun (st : nat -> option pstate) (ps : list nat) (i : nat) : option pstate :=
  if existsb (Nat.eqb i) ps && needs st i then Some {| count := 0; exp_avg := fst (fresh w i); exp_avg_sq := snd (fresh w i) |} else st i.
Definition zeroed (st : nat -> option pstate) (ps : list nat) (x : Z) : Prop :=
  exists i a, List.In i ps /\ needs st i = true
    /\ (index_of (fst (fresh w i)) a /\ x = addr (fst (fresh w i)) a \/ index_of (snd (fresh w i)) a /\ x = addr (snd (fresh w i)) a).
Lemma zero_spec (t : tensor) (mem : memory) x : (exists a, index_of t a /\ x = addr t a) /\ zero r0 t mem x = r0 \/ ~ (exists a, index_of t a /\ x = addr t a) /\ zero r0 t mem x = mem x.
Proof.
  unfold zero. destruct (existsb (Z.eqb x) _) eqn:E.
  - left. split; [|reflexivity]. apply existsb_exists in E. destruct E as (y & Hy & E). apply Z.eqb_eq in E. subst y. apply in_map_iff in Hy. destruct Hy as (a & <- & Ha). exists a. split; [apply in_indices; exact Ha|reflexivity].
  - right. split; [|reflexivity]. intros (a & Ha & ->). rewrite <- Bool.not_true_iff_false in E. apply E. apply existsb_exists. exists (addr t a). split; [|apply Z.eqb_refl]. apply in_map. apply in_indices. exact Ha.
Qed.
Lemma begun_in st ps i : List.In i ps -> needs st i = true -> begun st ps i = Some {| count := 0; exp_avg := fst (fresh w i); exp_avg_sq := snd (fresh w i) |}.
Proof. intros H N. unfold begun. rewrite (proj2 (existsb_in i ps) H), N. reflexivity. Qed.
Lemma begun_out st ps i : ~ (List.In i ps /\ needs st i = true) -> begun st ps i = st i.
Proof. intros H. unfold begun. destruct (existsb (Nat.eqb i) ps) eqn:E; [|reflexivity]. destruct (needs st i) eqn:N; [|reflexivity]. exfalso. apply H. split; [apply existsb_in; exact E|reflexivity]. Qed.
Lemma init_ok ps : forall st mem, NoDup ps -> let '(st', mem') := init_states r0 w ps st mem in
  (forall i, st' i = begun st ps i) /\ (forall x, zeroed st ps x \/ mem x = r0 -> mem' x = r0) /\ (forall x, ~ zeroed st ps x -> mem' x = mem x).
Proof.
  induction ps as [|i ps IH]; intros st mem ND.
  - cbn. split; [reflexivity|]. split; [intros x [(i & a & [] & _)|H]; exact H|reflexivity].
  - inversion ND as [|? ? NI ND']; subst. cbn [init_states].
    destruct (needs st i) eqn:N.
    + assert (N' := N). unfold needs in N'. apply Bool.andb_true_iff in N'. destruct N' as (N1 & N2). rewrite N1. destruct (st i) eqn:E; [discriminate|]. destruct (fresh w i) as (m, v) eqn:Ef.
      set (st1 := set_state i {| count := 0; exp_avg := m; exp_avg_sq := v |} st). set (mem1 := zero r0 v (zero r0 m mem)). specialize (IH st1 mem1 ND'). destruct (init_states r0 w ps st1 mem1) as (st', mem'). destruct IH as (H1 & H2 & H3).
      assert (O : forall j, j <> i -> st1 j = st j). { intros j Hj. unfold st1, set_state. apply Nat.eqb_neq in Hj. rewrite Hj. reflexivity. }
      assert (Ne : forall j, j <> i -> needs st1 j = needs st j) by (intros j Hj; unfold needs; rewrite O by exact Hj; reflexivity).
      assert (Zd : forall x, zeroed st1 ps x -> zeroed st (i :: ps) x). { intros x (j & a & Hj & Nj & X). exists j, a. split; [right; exact Hj|]. split; [rewrite <- Ne; [exact Nj|intros ->; contradiction]|exact X]. }
      split; [|split].
      * intros j. rewrite H1. destruct (Nat.eq_dec j i) as [->|Hj].
        -- rewrite (begun_in (ps := i :: ps) (or_introl eq_refl) N). rewrite begun_out by tauto. unfold st1, set_state. rewrite Nat.eqb_refl, Ef. reflexivity.
        -- unfold begun. rewrite Ne by exact Hj. cbn [existsb]. rewrite (proj2 (Nat.eqb_neq j i) Hj). cbn [orb]. rewrite O by exact Hj. reflexivity.
      * intros x [(j & a & [<-|Hj] & Nj & X)|Mx].
        -- apply H2. right. unfold mem1. rewrite Ef in X. cbn [fst snd] in X. destruct (zero_spec v (zero r0 m mem) x) as [(_ & Q)|(Nv & ->)]; [exact Q|]. destruct X as [X|X]; [|exfalso; apply Nv; exists a; exact X].
           destruct (zero_spec m mem x) as [(_ & Q)|(Nm & _)]; [exact Q|exfalso; apply Nm; exists a; exact X].
        -- apply H2. left. exists j, a. split; [exact Hj|]. split; [rewrite Ne; [exact Nj|intros ->; contradiction]|exact X].
        -- apply H2. right. unfold mem1. destruct (zero_spec v (zero r0 m mem) x) as [(_ & Q)|(_ & ->)]; [exact Q|]. destruct (zero_spec m mem x) as [(_ & Q)|(_ & ->)]; [exact Q|exact Mx].
      * intros x Nx. rewrite H3 by (intros Q; apply Nx, Zd, Q). unfold mem1. destruct (zero_spec v (zero r0 m mem) x) as [((a & Ha & Ex) & _)|(_ & ->)].
        { exfalso. apply Nx. exists i, a. split; [left; reflexivity|]. split; [exact N|]. right. rewrite Ef. cbn. split; assumption. }
        destruct (zero_spec m mem x) as [((a & Ha & Ex) & _)|(_ & ->)]; [|reflexivity].
        exfalso. apply Nx. exists i, a. split; [left; reflexivity|]. split; [exact N|]. left. rewrite Ef. cbn. split; assumption.
    + assert (Q : (match has_grad w i, st i with true, None => let '(m, v) := fresh w i in init_states r0 w ps (set_state i {| count := 0; exp_avg := m; exp_avg_sq := v |} st) (zero r0 v (zero r0 m mem)) | _, _ => init_states r0 w ps st mem end) = init_states r0 w ps st mem).
      { unfold needs in N. destruct (has_grad w i); [|reflexivity]. destruct (st i); [reflexivity|discriminate]. }
      rewrite Q. specialize (IH st mem ND'). destruct (init_states r0 w ps st mem) as (st', mem'). destruct IH as (H1 & H2 & H3).
      assert (Zd : forall x, zeroed st (i :: ps) x <-> zeroed st ps x).
      { intros x. split; intros (j & a & Hj & Nj & X); exists j, a; (split; [|auto]); [destruct Hj as [<-|Hj]; [congruence|exact Hj]|right; exact Hj]. }
      split; [|split].
      * intros j. rewrite H1. destruct (Nat.eq_dec j i) as [->|Hj]; [rewrite !begun_out by (intros (_ & Q'); congruence); reflexivity|]. unfold begun. cbn [existsb]. rewrite (proj2 (Nat.eqb_neq j i) Hj). reflexivity.
      * intros x Hx. apply H2. rewrite <- Zd. exact Hx.
      * intros x Hx. apply H3. rewrite <- Zd. exact Hx.
Qed.

(** ** Partitions *)
Lemma filter_split A (f : A -> bool) l : Permutation (filter f l ++ filter (fun x => negb (f x)) l) l.
Proof.
  induction l as [|a l IH]; [reflexivity|]. cbn [filter]. destruct (f a); cbn [negb app]; [rewrite IH; reflexivity|]. rewrite <- Permutation_middle, IH. reflexivity.
Qed.
Lemma fits_of s h i : usable w h (state s) i = true -> maximize h = false /\ fits w s i.
Proof.
  unfold usable. rewrite Bool.andb_true_iff. intros (M & H). split; [destruct (maximize h); [discriminate|reflexivity]|]. destruct (grad w i) as [g|] eqn:Hg; [|discriminate]. destruct (state s i) as [e|] eqn:He; [|discriminate].
  unfold supports_fast_path in H. destruct (flat_layout (param w i)) as [l|] eqn:L; [|discriminate]. exists g, e, l. cbn [forallb] in H. rewrite !Bool.andb_true_iff in H. destruct H as ((_ & H1) & (_ & H2) & (_ & H3) & _). apply layout_eqb_ok in H1. apply layout_eqb_ok in H2. apply layout_eqb_ok in H3. auto 6.
Qed.
Lemma build_ok s h ps : (forall i, List.In i ps -> has_grad w i = true -> exists e, state s i = Some e) -> (forall i g, List.In i ps -> grad w i = Some g -> ptr g <> 0) ->
  cached w s h ps (build majority block w h ps (state s)).
Proof.
  intros Hs Hn. unfold build. destruct (partition majority w h ps (state s)) as (fa, sl) eqn:E. unfold partition in E. cbv zeta in E. injection E as <- <-. set (present := filter (has_grad w) ps) in *. set (us := filter (usable w h (state s)) present) in *. set (m := majority (map (step_of (state s)) us)) in *.
  constructor; cbn; try reflexivity; try assumption.
  - rewrite app_assoc. transitivity (us ++ filter (fun i => negb (usable w h (state s) i)) present); [|apply filter_split].
    rewrite <- app_assoc. rewrite (Permutation_app_comm (filter (fun i => negb (usable w h (state s) i)) present)). rewrite app_assoc. apply Permutation_app_tail. apply filter_split.
  - intros i Hi. apply filter_In in Hi. destruct Hi as (Hi & _). apply filter_In in Hi. destruct Hi as (_ & Hi). apply (fits_of Hi).
  - intros N. destruct (filter (fun i => (step_of (state s) i =? m)%nat) us) as [|i r] eqn:E; [congruence|]. assert (Hi : List.In i (filter (fun i => (step_of (state s) i =? m)%nat) us)) by (rewrite E; left; reflexivity). apply filter_In in Hi. destruct Hi as (Hi & _). apply filter_In in Hi. destruct Hi as (_ & Hi). apply (fits_of Hi).
  - intros i j Hi Hj. apply filter_In in Hi. apply filter_In in Hj. destruct Hi as (_ & Hi). destruct Hj as (_ & Hj). apply Nat.eqb_eq in Hi. apply Nat.eqb_eq in Hj. congruence.
  - constructor; cbn; auto.
Qed.

(** ** Reusing a plan *)
Definition moves_one (w0 : view) (j : nat) (ps : list nat) : Prop :=
  (forall i, List.In i ps -> ptr (param w i) = ptr (param w0 i) -> param w i = param w0 i)
  /\ ((forall i, List.In i ps -> ptr_of (grad w i) = ptr_of (grad w0 i)) -> forall i, List.In i ps -> ptr (param w i) = ptr (param w0 i))
  /\ maximize (hypers w j) = maximize (hypers w0 j).
Lemma map_eq_in A B (f g : A -> B) l : map f l = map g l <-> (forall a, List.In a l -> f a = g a).
Proof.
  split; [|apply map_ext_in]. induction l as [|x l IH]; intros E a []; cbn in E; injection E as E1 E2; [subst; exact E1|]. apply IH; assumption.
Qed.
Lemma unchanged_ok (p : plan) (lay : nat -> option layout) : fast_layouts p = map lay (fast p) -> (forall i, List.In i (fast p) -> exists g, grad w i = Some g) ->
  exists b, unchanged w p = Ok b /\ (b = true -> forall i g, List.In i (fast p) -> grad w i = Some g -> flat_layout g = lay i).
Proof.
  unfold unchanged. intros -> H. induction (fast p) as [|i l IH]; [exists true; split; [reflexivity|intros _ i g []]|].
  cbn [map combine mapM]. destruct (H i (or_introl eq_refl)) as (g & Hg). rewrite Hg. cbn [grad_layout_unchanged]. destruct IH as (b & E & Hb); [intros j Hj; apply H; right; exact Hj|].
  destruct (mapM _ (combine l (map lay l))) as [bs|e]; [|discriminate]. cbn in E. injection E as <-. eexists. split; [reflexivity|]. cbn [forallb]. intros T. apply Bool.andb_true_iff in T. destruct T as (T1 & T2). apply Bool.andb_true_iff in T1. destruct T1 as (_ & T1). apply layout_eqb_ok in T1.
  intros j g' [<-|Hj] Hg'; [congruence|]. apply Hb; assumption.
Qed.
Section Reuse.
Variables (w0 : view) (s : opt) (j : nat) (ps : list nat) (p : plan).
Hypothesis So : sound_on w s ps.
Hypothesis C : cached w0 s (hypers w0 j) ps p.
Hypothesis M : moves_one w0 j ps.
Lemma fast_in i : List.In i (fast p) -> List.In i ps /\ has_grad w0 i = true.
Proof. intros H. apply filter_In. apply (Permutation_in _ (c_perm C)). apply in_or_app. left. exact H. Qed.
Lemma same_presence : (forall i, List.In i ps -> Z.eqb (ptr_of (grad w0 i)) 0 = Z.eqb (ptr_of (grad w i)) 0) -> forall i, List.In i ps -> has_grad w i = has_grad w0 i.
Proof.
  intros H i Hi. specialize (H i Hi). unfold has_grad. destruct So as (_ & _ & S3 & _). destruct (grad w0 i) as [g0|] eqn:E0, (grad w i) as [g|] eqn:E1; try reflexivity; cbn [ptr_of] in H.
  - assert (N := c_nonzero C Hi E0). apply Z.eqb_neq in N. rewrite N in H. discriminate.
  - destruct (S3 i g Hi E1) as (_ & N & _). apply Z.eqb_neq in N. rewrite N in H. discriminate.
Qed.
Lemma reuse_unchanged : (forall i, List.In i ps -> has_grad w i = has_grad w0 i) ->
  exists b, unchanged w p = Ok b /\ (b = true -> forall i g, List.In i (fast p) -> grad w i = Some g -> flat_layout g = flat_layout (param w0 i)).
Proof.
  intros Hg. apply (unchanged_ok (c_lay C)). intros i Hi. destruct (fast_in Hi) as (Hp & G). rewrite <- Hg in G by exact Hp. unfold has_grad in G. destruct (grad w i) as [g|]; [exists g; reflexivity|discriminate].
Qed.
Lemma reuse_ok : (forall i, List.In i ps -> has_grad w i = has_grad w0 i) -> (forall i, List.In i ps -> ptr (param w i) = ptr (param w0 i)) ->
  (forall i g, List.In i (fast p) -> grad w i = Some g -> flat_layout g = flat_layout (param w0 i)) ->
  cached w s (hypers w j) ps (refresh w (map (fun i => ptr_of (grad w i)) ps) p).
Proof.
  intros Hg Hp Hl. destruct M as (M1 & _ & M3). assert (Pe : forall i, List.In i ps -> param w i = param w0 i) by (intros i Hi; apply M1; [exact Hi|apply Hp; exact Hi]).
  assert (Pf : forall i, List.In i (fast p) -> param w i = param w0 i) by (intros i Hi; apply Pe; apply fast_in; exact Hi). assert (T := c_tables C).
  constructor; cbn.
  - rewrite (c_pa C). apply map_ext_in. intros i Hi. symmetry. apply Hp. exact Hi.
  - reflexivity.
  - rewrite (c_lay C). apply map_ext_in. intros i Hi. rewrite Pf by exact Hi. reflexivity.
  - rewrite (filter_ext_in (has_grad w) (has_grad w0)) by exact Hg. apply (c_perm C).
  - intros i Hi G. rewrite Hg in G by exact Hi. exact (c_state C Hi G).
  - intros i Hi. destruct (c_fits C Hi) as (g0 & e & l & G0 & E & L1 & L2 & L3 & L4). destruct (fast_in Hi) as (Hi' & G). rewrite <- Hg in G by exact Hi'. unfold has_grad in G. destruct (grad w i) as [g|] eqn:Eg; [|discriminate]. exists g, e, l. split; [exact Eg|]. rewrite Pf by exact Hi. rewrite (Hl i g Hi Eg). auto 6.
  - intros N. rewrite M3. apply (c_max C N).
  - apply (c_count C).
  - constructor; cbn; try (apply T).
    + rewrite (t_p T). apply map_ext_in. intros i Hi. rewrite Pf by exact Hi. reflexivity.
    + reflexivity.
    + rewrite (t_n T). apply map_ext_in. intros i Hi. rewrite Pf by exact Hi. reflexivity.
  - destruct So as (_ & _ & S3 & _). intros i g Hi G. apply (S3 i g Hi G).
Qed.
Lemma reuse_same : (forall i, List.In i ps -> ptr_of (grad w i) = ptr_of (grad w0 i)) -> refresh w (map (fun i => ptr_of (grad w i)) ps) p = p.
Proof.
  intros H. assert (E1 : map (fun i => ptr_of (grad w i)) ps = grad_addresses p) by (rewrite (c_ga C); apply map_ext_in; exact H).
  assert (E2 : map (fun i => ptr_of (grad w i)) (fast p) = grad_ptrs p) by (rewrite (t_g (c_tables C)); apply map_ext_in; intros i Hi; apply H; apply fast_in; exact Hi).
  unfold refresh. rewrite E1, E2. destruct p. reflexivity.
Qed.
Lemma reuse_begun : (forall i, List.In i ps -> has_grad w i = has_grad w0 i) -> (forall i, state s i = begun (state s) ps i) /\ (forall x, ~ zeroed (state s) ps x).
Proof.
  intros Hg. assert (N : forall i, List.In i ps -> needs (state s) i = false).
  { intros i Hi. unfold needs. destruct (has_grad w i) eqn:G; [|reflexivity]. rewrite Hg in G by exact Hi. destruct (c_state C Hi G) as (e & ->). reflexivity. }
  split.
  - intros i. rewrite begun_out; [reflexivity|]. intros (Hi & Q). rewrite N in Q by exact Hi. discriminate.
  - intros x (i & a & Hi & Q & _). rewrite N in Q by exact Hi. discriminate.
Qed.
End Reuse.
Lemma combine_eqb (f g : nat -> Z) ps : forallb (fun '(a, b) => Bool.eqb (a =? 0) (b =? 0)) (combine (map f ps) (map g ps)) = true -> forall i, List.In i ps -> Z.eqb (f i) 0 = Z.eqb (g i) 0.
Proof. induction ps as [|a ps IH]; intros H i []; cbn in H; apply Bool.andb_true_iff in H; destruct H as (H1 & H2); [subst; apply Bool.eqb_prop; exact H1|apply IH; assumption]. Qed.
Definition cache_ok (last : option view) (s : opt) (index : nat) (ps : list nat) : Prop :=
  match cache s index with None => True | Some p => exists w0, last = Some w0 /\ cached w0 s (hypers w0 index) ps p end.
Definition launched (index : nat) (ps : list nat) (s : opt) (mem : memory) (p : plan) (s1 : opt) (mem1 : memory) : Prop :=
  groups s1 = groups s /\ cached w s1 (hypers w index) ps p /\ cache s1 index = Some p /\ (forall j, j <> index -> cache s1 j = cache s j)
  /\ (forall i, state s1 i = begun (state s) ps i) /\ (forall x, zeroed (state s) ps x -> mem1 x = r0) /\ (forall x, ~ zeroed (state s) ps x -> mem1 x = mem x).
Lemma launch_ok last index ps s mem : sound_on w s ps -> cache_ok last s index ps -> (forall w0, last = Some w0 -> moves_one w0 index ps) ->
  exists p s1 mem1, launch_plan w index ps s mem = Ok (p, s1, mem1) /\ launched index ps s mem p s1 mem1.
Proof.
  intros So Co Mo. unfold launch_plan. unfold cache_ok in Co. set (addresses := map (fun i => ptr_of (grad w i)) ps).
  assert (Fresh : forall p0, (let '(st, mem0) := init_states r0 w ps (state s) mem in
      Ok (build majority block w (hypers w index) ps st, {| groups := groups s; state := st; cache := fun j => if (j =? index)%nat then Some (build majority block w (hypers w index) ps st) else cache s j |}, mem0)) = p0 ->
      exists p s1 mem1, p0 = Ok (p, s1, mem1) /\ launched index ps s mem p s1 mem1).
  { intros p0 <-. assert (So' := So). destruct So' as (S1 & _ & S3 & _). pose proof (init_ok (state s) mem S1) as I. destruct (init_states r0 w ps (state s) mem) as (st, mem0). destruct I as (I1 & I2 & I3). do 3 eexists. split; [reflexivity|]. split; [reflexivity|].
    set (s1 := {| groups := groups s; state := st; cache := _ |}). split; [|split; [cbn; rewrite Nat.eqb_refl; reflexivity|split; [intros j Hj; cbn; apply Nat.eqb_neq in Hj; rewrite Hj; reflexivity|split; [exact I1|split; [intros x Hx; apply I2; left; exact Hx|exact I3]]]]].
    apply (build_ok (s := s1)).
    - intros i Hi G. cbn [state s1]. rewrite I1. unfold begun. rewrite (proj2 (existsb_in i ps) Hi). cbn [andb]. unfold needs. rewrite G. cbn [andb]. destruct (state s i) as [e|]; [exists e; reflexivity|eexists; reflexivity].
    - intros i g Hi G. apply (S3 i g Hi G). }
  assert (Fresh' := Fresh _ eq_refl). clear Fresh.
  destruct (cache s index) as [p|] eqn:Ec.
  2:{ cbn. destruct (init_states r0 w ps (state s) mem). exact Fresh'. }
  destruct Co as (w0 & El & C). assert (M := Mo w0 El).
  assert (Kept : forall q, (exists p s1 mem1, q = Ok (p, s1, mem1) /\ launched index ps s mem p s1 mem1) -> True) by auto.
  destruct (zlist_eqb (grad_addresses p) addresses) eqn:E1.
  - apply zlist_eqb_ok in E1. unfold addresses in E1. rewrite (c_ga C) in E1. pose proof (proj1 (map_eq_in _ _ _) E1) as Same. cbv beta in Same.
    assert (Hg : forall i, List.In i ps -> has_grad w i = has_grad w0 i) by (apply (same_presence So C); intros i Hi; rewrite Same by exact Hi; reflexivity).
    destruct (reuse_unchanged C Hg) as (b & Eu & Hb). rewrite Eu. cbn [bind]. destruct b; cbn [bind].
    + exists p, s, mem. split; [reflexivity|]. destruct (reuse_begun C Hg) as (B1 & B2). split; [reflexivity|]. split.
      * rewrite <- (reuse_same C) by (intros i Hi; symmetry; apply Same; exact Hi). apply (reuse_ok So C M Hg); [|apply Hb; reflexivity]. destruct M as (_ & M2 & _). apply M2. intros i Hi. symmetry. apply Same. exact Hi.
      * split; [exact Ec|]. split; [reflexivity|]. split; [exact B1|]. split; [intros x Hx; destruct (B2 x Hx)|reflexivity].
    + destruct (zlist_eqb (param_addresses p) _ && _) eqn:E2; cbn [bind].
      * rewrite ?Eu. cbn [bind]. destruct (init_states r0 w ps (state s) mem). exact Fresh'.
      * destruct (init_states r0 w ps (state s) mem). exact Fresh'.
  - cbn [bind]. destruct (zlist_eqb (param_addresses p) _ && _) eqn:E2.
    2:{ cbn [bind]. destruct (init_states r0 w ps (state s) mem). exact Fresh'. }
    apply Bool.andb_true_iff in E2. destruct E2 as (E2 & E3). apply zlist_eqb_ok in E2. rewrite (c_pa C) in E2. pose proof (proj1 (map_eq_in _ _ _) E2) as Pe. cbv beta in Pe. unfold addresses in E3. rewrite (c_ga C) in E3.
    assert (Hg := same_presence So C (combine_eqb E3)). destruct (reuse_unchanged C Hg) as (b & Eu & Hb). rewrite Eu. cbn [bind]. destruct b; cbn [bind].
    2:{ destruct (init_states r0 w ps (state s) mem). exact Fresh'. }
    do 3 eexists. split; [reflexivity|]. destruct (reuse_begun C Hg) as (B1 & B2). split; [reflexivity|]. split; [|split; [cbn; rewrite Nat.eqb_refl; reflexivity|split; [intros j Hj; cbn; apply Nat.eqb_neq in Hj; rewrite Hj; reflexivity|split; [exact B1|split; [intros x Hx; destruct (B2 x Hx)|reflexivity]]]]].
    assert (C' := reuse_ok So C M Hg (fun i Hi => eq_sym (Pe i Hi)) (Hb eq_refl)).
    destruct C' as [A1 A2 A3 A4 A5 A6 A7 A8 [T1 T2 T3 T4 T5 T6] A10]. constructor; try assumption. constructor; assumption.
Qed.
End Plan.
