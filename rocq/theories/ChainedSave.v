(** ChainedOptimizer: saving, loading, and a refused group. *)
From Verif Require Import Base BaseFacts Chained ChainedSpec ChainedFacts ChainedInv ChainedNew DecoderFacts.
Set Implicit Arguments. Unset Strict Implicit.

Section Save.
Variables T L W : Type.
Variables (ss : list (spec L W)) (lr0 : L) (wd0 : W).

(** ** The layout depends only on the groups that were added *)
Lemma route_ext (f g : nat -> nat) ps : (forall k, f k = g k) -> forall acc, route ss f ps acc = route ss g ps acc.
Proof. intros E. induction ps as [|p ps IH]; intros acc; cbn; [reflexivity|]. destruct (first_accepting 0 ss p); [|reflexivity]. rewrite IH, E. reflexivity. Qed.
Lemma sub_add_pl (s s' : sub T L W) ps : map (@sg_params L W) (s_groups s) = map (@sg_params L W) (s_groups s') ->
  match sub_add s ps, sub_add s' ps with
  | Ok a, Ok b => map (@sg_params L W) (s_groups a) = map (@sg_params L W) (s_groups b)
  | Err a, Err b => a = b
  | _, _ => False
  end.
Proof. intros E. unfold sub_add. rewrite E. destruct (List.length ps =? 0)%nat; [exact E|]. destruct (overlaps _ ps); cbn; [reflexivity|]. rewrite !map_app, E. reflexivity. Qed.
Lemma sub_adds_pl (a : list (sub T L W)) : forall (b : list (sub T L W)) lists, pl_of a = pl_of b -> pl_of (fst (sub_adds a lists)) = pl_of (fst (sub_adds b lists)).
Proof.
  induction a as [|s a IH]; intros [|t b] lists E; cbn in E; try discriminate; [reflexivity|]. injection E as E1 E2. destruct lists as [|ps lists]; cbn; [rewrite E1; f_equal; exact E2|].
  pose proof (sub_add_pl ps E1) as X. destruct (sub_add s ps) as [s'|], (sub_add t ps) as [t'|]; try tauto.
  - specialize (IH b lists E2). destruct (sub_adds a lists), (sub_adds b lists). cbn in *. congruence.
  - cbn. rewrite E1. f_equal. exact E2.
Qed.
Definition alike (c d : chain T L W) : Prop :=
  specs c = ss /\ specs d = ss /\ gl_of (groups c) = gl_of (groups d) /\ pl_of (subs c) = pl_of (subs d).
Lemma gl_params (a b : list (group L W)) : gl_of a = gl_of b -> map (@g_params L W) a = map (@g_params L W) b.
Proof. intros E. apply (f_equal (map fst)) in E. unfold gl_of in E. rewrite !map_map in E. exact E. Qed.
Lemma add_alike c d r : alike c d -> alike (fst (add c r)) (fst (add d r)).
Proof.
  intros (S1 & S2 & EG & EP). unfold add, base_add. rewrite (gl_params EG), S1, S2. destruct (overlaps _ (r_params r)); cbn; [split; [exact S1|split; [exact S2|split; [exact EG|exact EP]]]|].
  assert (EP' := EP). destruct (subs c) as [|s sc] eqn:E1, (subs d) as [|t sd] eqn:E2; cbn in EP; try discriminate.
  - split; [exact S1|]. split; [exact S2|]. cbn. rewrite E1, E2. split; [|reflexivity]. unfold gl_of in *. rewrite !map_app, EG. reflexivity.
  - rewrite <- E1, <- E2 in *. clear s sc t sd E1 E2 EP.
    rewrite (@route_ext (fun k => match nth_error (subs c) k with Some s => List.length (s_groups s) | None => 0%nat end) (fun k => match nth_error (subs d) k with Some s => List.length (s_groups s) | None => 0%nat end)).
    2:{ intros k. assert (H : nth_error (pl_of (subs c)) k = nth_error (pl_of (subs d)) k) by congruence. unfold pl_of in H. rewrite !nth_error_map in H.
        destruct (nth_error (subs c) k), (nth_error (subs d) k); cbn in H; try discriminate; [|reflexivity]. injection H as H. apply (f_equal (@List.length _)) in H. rewrite !map_length in H. exact H. }
    destruct (route ss _ (r_params r) _) as ((lists, links), ok). destruct ok.
    + pose proof (sub_adds_pl lists EP') as X. destruct (sub_adds (subs c) lists), (sub_adds (subs d) lists). cbn in *. split; [exact S1|]. split; [exact S2|]. cbn. split; [|exact X].
      unfold gl_of in *. rewrite !map_app, EG. reflexivity.
    + cbn. split; [exact S1|]. split; [exact S2|]. cbn. split; [|exact EP']. unfold gl_of in *. rewrite !map_app, EG. reflexivity.
Qed.
Lemma set_lr_alike (c : chain T L W) i lr : gl_of (groups (fst (set_lr c i lr))) = gl_of (groups c) /\ pl_of (subs (fst (set_lr c i lr))) = pl_of (subs c) /\ specs (fst (set_lr c i lr)) = specs c.
Proof.
  unfold set_lr. destruct (nth_error (groups c) i) eqn:E; [|auto]. cbn. split; [|auto]. unfold gl_of. eapply map_upd; [exact E|reflexivity].
Qed.

Variables V G : Type.
Variable update : nat -> L -> W -> G -> option T -> V -> V * T.
Lemma sub_step_groups k grads values (s : sub T L W) : s_groups (snd (sub_step update k grads values s)) = s_groups s.
Proof. unfold sub_step. destruct (fold_left _ _ _). reflexivity. Qed.
Lemma sub_steps_pl grads (l : list (sub T L W)) : forall k values, pl_of (snd (sub_steps update k grads values l)) = pl_of l.
Proof.
  induction l as [|s l IH]; intros k values; cbn; [reflexivity|]. pose proof (sub_step_groups k grads values s) as E. destruct (sub_step update k grads values s) as (v1, s1).
  specialize (IH (S k) v1). destruct (sub_steps update (S k) grads v1 l). cbn in *. rewrite E. f_equal. exact IH.
Qed.
Lemma copy_one_pl lr a (l l' : list (sub T L W)) : copy_one lr a l = Some l' -> map (@frame_sub T L W) l' = map (@frame_sub T L W) l /\ look l a <> None.
Proof.
  intros H. assert (N : look l a <> None). { unfold copy_one in H. unfold look. destruct (nth_error l (fst a)); [|discriminate]. destruct (nth_error (s_groups s) (snd a)); congruence. }
  split; [|exact N]. destruct (copy_one_spec lr N) as (l2 & E & F & _). congruence.
Qed.
Lemma copy_links_pl lr links : forall (l l' : list (sub T L W)) b, copy_links lr links l = (l', b) -> map (@frame_sub T L W) l' = map (@frame_sub T L W) l /\ (b = true -> forall a, List.In a links -> look l a <> None).
Proof.
  induction links as [|a links IH]; intros l l' b H; cbn in H; [injection H as <- <-; split; [reflexivity|intros _ a []]|].
  destruct (copy_one lr a l) as [l1|] eqn:E; [|injection H as <- <-; split; [reflexivity|discriminate]]. apply copy_one_pl in E. destruct E as (F & N). apply IH in H. destruct H as (F2 & A). split; [congruence|].
  intros B x [<-|X]; [exact N|]. apply (@look_frame T L W l1 l x (eq_sym F)). exact (A B x X).
Qed.
Lemma copy_lr_pl (gs : list (group L W)) : forall (l l' : list (sub T L W)) b, copy_lr gs l = (l', b) -> map (@frame_sub T L W) l' = map (@frame_sub T L W) l /\ (b = true -> forall g a, List.In g gs -> List.In a (g_links g) -> look l a <> None).
Proof.
  induction gs as [|g gs IH]; intros l l' b H; cbn in H; [injection H as <- <-; split; [reflexivity|intros _ g a []]|].
  destruct (copy_links (g_lr g) (g_links g) l) as (l1, b1) eqn:E. apply copy_links_pl in E. destruct E as (F & N). destruct b1; [|injection H as <- <-; split; [exact F|discriminate]].
  apply IH in H. destruct H as (F2 & A). split; [congruence|]. intros B x a [<-|X] I; [exact (N eq_refl a I)|]. apply (@look_frame T L W l1 l a (eq_sym F)). exact (A B x a X I).
Qed.
Lemma step_alike (c : chain T L W) values closure : let c' := fst (fst (step update c values closure)) in
  groups c' = groups c /\ pl_of (subs c') = pl_of (subs c) /\ specs c' = specs c.
Proof.
  cbv zeta. unfold step. destruct (copy_lr (groups c) (subs c)) as (l, b) eqn:E. apply copy_lr_pl in E. destruct E as (F & _). apply frame_pl in F. destruct b; [|cbn; auto].
  pose proof (sub_steps_pl (closure values) l 0 values) as X. destruct (sub_steps update 0 (closure values) values l). cbn in *. split; [reflexivity|]. split; [congruence|reflexivity].
Qed.
Definition is_add (o : op V G L W) : list (request L W) := match o with Add _ _ r => [r] | _ => [] end.
Definition adds (os : list (op V G L W)) : list (request L W) := flat_map is_add os.
Lemma alike_refl c : specs c = ss -> alike c c.
Proof. intros E. split; [exact E|]. split; [exact E|]. split; reflexivity. Qed.
Lemma alike_sym c d : alike c d -> alike d c.
Proof. intros (A & B & C & D). split; [exact B|]. split; [exact A|]. split; congruence. Qed.
Lemma alike_trans c d e : alike c d -> alike d e -> alike c e.
Proof. intros (A & B & C & D) (A' & B' & C' & D'). split; [exact A|]. split; [exact B'|]. split; congruence. Qed.
Lemma perform_alike (o : op V G L W) c d values : alike c d -> is_add o = [] -> alike (fst (fst (perform update o c values))) d.
Proof.
  intros (A & B & C & D) N. destruct o as [closure|i lr|r]; [| |discriminate]; cbn.
  - pose proof (step_alike c values closure) as (X & Y & Z1). cbv zeta in *. split; [congruence|]. split; [exact B|]. split; congruence.
  - pose proof (set_lr_alike c i lr) as (X & Y & Z1). destruct (set_lr c i lr). cbn in *. split; [congruence|]. split; [exact B|]. split; congruence.
Qed.
Fixpoint add_all (rs : list (request L W)) (c : chain T L W) : chain T L W := match rs with [] => c | r :: rs => add_all rs (fst (add c r)) end.
Lemma performs_alike (os : list (op V G L W)) : forall c d values, alike c d -> alike (fst (fst (performs update os c values))) (add_all (adds os) d).
Proof.
  induction os as [|o os IH]; intros c d values A; [exact A|]. cbn [performs adds flat_map].
  destruct (perform update o c values) as ((c1, v1), e) eqn:E. destruct (performs update os c1 v1) as ((c2, v2), es) eqn:E2. cbn [fst].
  assert (X : c2 = fst (fst (performs update os c1 v1))) by (rewrite E2; reflexivity). rewrite X. clear X E2.
  destruct (is_add o) as [|r rs] eqn:N.
  - cbn [app]. apply IH. replace c1 with (fst (fst (perform update o c values))) by (rewrite E; reflexivity). apply perform_alike; [exact A|exact N].
  - destruct o as [closure|i lr|r']; cbn in N; try discriminate. injection N as <- <-. cbn [app add_all]. apply IH. cbn in E. destruct (add c r') as (c', e') eqn:Ea. injection E as <- <- <-.
    replace c' with (fst (add c r')) by (rewrite Ea; reflexivity). apply add_alike. exact A.
Qed.

(** ** Loading *)
Variable n : nat.
Definition clean (c : chain T L W) : Prop := forall p k s, belongs ss p k -> nth_error (subs c) k = Some s -> (forall g, List.In g (groups c) -> ~ List.In p (g_params g)) -> s_state s p = None.
Lemma perform_clean (o : op V G L W) c values c' values' e : good ss lr0 wd0 n c -> op_proper ss o -> clean c -> perform update o c values = (c', values', e) -> clean c'.
Proof.
  intros GD OP CL H p k s' B Es' N. destruct o as [closure|i lr|r]; cbn in H.
  - destruct (@step_good T L W ss lr0 wd0 n V G update c values closure GD) as (c1 & v1 & E & _ & GG & _ & P). rewrite E in H. injection H as <- <- <-. rewrite GG in N.
    destruct (P p k B) as (s & s2 & Es & Es2 & U & _). assert (s2 = s') by congruence. subst s2. rewrite (proj2 (U (or_introl N))). exact (CL p k s B Es N).
  - destruct (@set_lr_good T L W ss lr0 wd0 n c i lr GD) as [(_ & E2)|(g & c1 & E1 & E2 & _ & SB & VG')]; rewrite E2 in H; injection H as <- <- <-; [exact (CL p k s' B Es' N)|].
    rewrite SB in Es'. apply (CL p k s' B Es'). intros g' Hg' P. assert (X : List.In (g_params g') (map fst (map (fun g => (g_params g, g_lr g)) (groups c1)))).
    { rewrite VG'. apply In_nth_error in Hg'. destruct Hg' as (j & J). rewrite in_map_iff. exists (g_params g', if (j =? i)%nat then lr else g_lr g'). split; [reflexivity|].
      apply (nth_error_In _ j). rewrite nth_error_upd, map_length, nth_error_map, J. destruct (Nat.eqb_spec j i) as [->|NE]; [|reflexivity]. destruct (Nat.ltb_spec i (List.length (groups c))); [congruence|apply nth_error_None in H; congruence]. }
    rewrite map_map in X. apply in_map_iff in X. destruct X as (g2 & X & Hg2). cbn in X. apply (N g2 Hg2). rewrite X. exact P.
  - destruct (add_good GD OP) as [(_ & E)|(_ & c1 & g & E & _ & GG & _ & _ & ST)]; rewrite E in H; injection H as <- <- <-; [exact (CL p k s' B Es' N)|].
    destruct (nth_error (subs c) k) as [s|] eqn:Es.
    + destruct (ST k s Es) as (s2 & E2 & X). assert (s2 = s') by congruence. subst s2. rewrite X. apply (CL p k s B Es). intros g' Hg'. apply N. rewrite GG. apply in_app_iff. tauto.
    + exfalso. apply nth_error_None in Es. apply belongs_lt in B. destruct GD as (_ & _ & _ & I & _). pose proof (i_len I) as X. unfold pl_of in X. rewrite map_length in X. lia.
Qed.
Lemma performs_clean (os : list (op V G L W)) : forall c values c' values' es, good ss lr0 wd0 n c -> Forall (op_proper ss) os -> clean c -> performs update os c values = (c', values', es) -> good ss lr0 wd0 n c' /\ clean c'.
Proof.
  induction os as [|o os IH]; intros c values c' values' es GD OP CL H; cbn in H; [injection H as <- <- <-; tauto|].
  inversion OP as [|? ? O1 O2]; subst. destruct (perform update o c values) as ((c1, v1), e) eqn:E. destruct (performs update os c1 v1) as ((c2, v2), es') eqn:E2. injection H as <- <- <-.
  assert (SE : sees c values (next_view ss c values {| v_groups := []; v_values := values; v_states := fun _ => None |})) by (apply next_sees; apply GD).
  destruct (perform_done GD O1 SE E) as (y & GD1 & _). exact (IH _ _ _ _ _ GD1 O2 (perform_clean GD O1 CL E) E2).
Qed.
Lemma nats_eqb_refl l : nats_eqb l l = true.
Proof. induction l as [|a l IH]; cbn; [reflexivity|]. rewrite Nat.eqb_refl. exact IH. Qed.
Lemma position_spec p l : match position p l with Some i => nth_error l i = Some p | None => ~ List.In p l end.
Proof.
  induction l as [|q l IH]; cbn; [tauto|]. destruct (Nat.eqb_spec q p) as [->|NE]; [reflexivity|]. destruct (position p l); cbn; [exact IH|]. intros [E|E]; [congruence|tauto].
Qed.
Lemma load_sub_spec (s t : sub T L W) : map (@sg_params L W) (s_groups s) = map (@sg_params L W) (s_groups t) ->
  exists u, load_sub t (save_sub s) = Ok u /\ s_groups u = s_groups s /\ s_wd u = s_wd t /\ s_lr u = s_lr t /\
    forall p, s_state u p = if existsb (Nat.eqb p) (all_params s) then s_state s p else None.
Proof.
  intros E. unfold load_sub, save_sub. cbn [ss_groups ss_state]. rewrite map_map. cbn.
  assert (E2 : map (fun g => List.length (sg_params g)) (s_groups t) = map (fun g => List.length (sg_params g)) (s_groups s)).
  { apply (f_equal (map (@List.length nat))) in E. rewrite !map_map in E. congruence. }
  rewrite E2, nats_eqb_refl. cbn. eexists. split; [reflexivity|]. cbn. split; [|split; [reflexivity|split; [reflexivity|]]].
  - clear E2. revert E. generalize (s_groups t). induction (s_groups s) as [|g gs IH]; intros [|h hs] E; cbn in *; try discriminate; [reflexivity|]. injection E as E1 E2. rewrite (IH hs E2), <- E1. destruct g; reflexivity.
  - intros p. assert (AP : all_params t = all_params s) by (rewrite !all_params_concat; congruence). rewrite AP. pose proof (position_spec p (all_params s)) as X. destruct (position p (all_params s)) as [i|].
    + assert (I : List.In p (all_params s)) by (eapply nth_error_In; eauto). apply existsb_nat in I. rewrite I. apply nth_error_nth. rewrite nth_error_map, X. reflexivity.
    + destruct (existsb (Nat.eqb p) (all_params s)) eqn:Ex; [apply existsb_nat in Ex; tauto|reflexivity].
Qed.
Lemma load_subs_spec (a : list (sub T L W)) : forall (b : list (sub T L W)), pl_of a = pl_of b -> exists l, load_subs b (map (@save_sub T L W) a) = Ok l /\ List.length l = List.length a /\
  forall k s t, nth_error a k = Some s -> nth_error b k = Some t -> exists u, nth_error l k = Some u /\ s_groups u = s_groups s /\ s_wd u = s_wd t /\
    forall p, s_state u p = if existsb (Nat.eqb p) (all_params s) then s_state s p else None.
Proof.
  induction a as [|s a IH]; intros [|t b] E; cbn in E; try discriminate.
  - exists []. cbn. split; [reflexivity|]. split; [reflexivity|]. intros [|k]; discriminate.
  - injection E as E1 E2. destruct (load_sub_spec E1) as (u & U & U1 & U2 & _ & U3). destruct (IH b E2) as (l & E & HL & P). exists (u :: l). cbn. rewrite U. cbn. rewrite E. cbn. split; [reflexivity|]. split; [lia|].
    intros [|k] x y A B; cbn in A, B; [injection A as <-; injection B as <-; exists u; auto|exact (P k x y A B)].
Qed.
Lemma load_same c d : good ss lr0 wd0 n c -> clean c -> good ss lr0 wd0 n d -> alike c d ->
  exists c', load_state_dict d (state_dict c) = Ok c' /\ good ss lr0 wd0 n c' /\ forall (values : nat -> V) x, sees c values x -> sees c' values x.
Proof.
  intros GD CL GD2 (A1 & A2 & EG & EP). unfold load_state_dict, state_dict. cbn [sv_groups sv_subs]. rewrite map_map. cbn.
  assert (E2 : map (fun g => List.length (g_params g)) (groups d) = map (fun g => List.length (g_params g)) (groups c)).
  { apply gl_params in EG. apply (f_equal (map (@List.length nat))) in EG. rewrite !map_map in EG. congruence. }
  rewrite E2, nats_eqb_refl. cbn. destruct (load_subs_spec EP) as (l & -> & HL & P). cbn. eexists. split; [reflexivity|].
  match goal with |- good _ _ _ _ ?c1 /\ _ => assert (EGr : groups c1 = groups c) end.
  { cbn. clear - EG. revert EG. generalize (groups d). induction (groups c) as [|g gs IH]; intros [|h hs] E; cbn in *; try discriminate; [reflexivity|]. injection E as E1 E2 E3. rewrite (IH hs E3), <- E1. destruct g; reflexivity. }
  cbn [groups] in EGr. destruct GD as (S1 & S2 & S3 & I & D), GD2 as (T1 & T2 & T3 & _ & D2).
  assert (SUBS : forall k u, nth_error l k = Some u -> exists s t, nth_error (subs c) k = Some s /\ nth_error (subs d) k = Some t /\ s_groups u = s_groups s /\ s_wd u = s_wd t /\
    forall p, s_state u p = if existsb (Nat.eqb p) (all_params s) then s_state s p else None).
  { intros k u Eu. assert (K : (k < List.length (subs c))%nat) by (rewrite <- HL; apply nth_error_Some; congruence). destruct (nth_error (subs c) k) as [s|] eqn:Es; [|apply nth_error_None in Es; lia].
    assert (K2 : (k < List.length (subs d))%nat) by (apply (f_equal (@List.length _)) in EP; unfold pl_of in EP; rewrite !map_length in EP; lia). destruct (nth_error (subs d) k) as [t|] eqn:Et; [|apply nth_error_None in Et; lia].
    destruct (P k s t Es Et) as (u' & Eu' & X). assert (u' = u) by congruence. subst u'. exists s, t. tauto. }
  split.
  - split; [exact T1|]. split; [exact T2|]. split; [exact T3|]. cbn [groups subs]. split.
    + rewrite EGr. replace (pl_of l) with (pl_of (subs c)); [exact I|]. apply list_ext; [unfold pl_of; rewrite !map_length; symmetry; exact HL|].
      intros k gs Ek. apply pl_nth_inv in Ek. destruct Ek as (s & Es & ->). destruct (nth_error l k) as [u|] eqn:Eu.
      * destruct (SUBS k u Eu) as (s' & _ & Es' & _ & X1 & _). rewrite (pl_nth Eu), X1. congruence.
      * apply nth_error_None in Eu. assert (k < List.length (subs c))%nat by (apply nth_error_Some; congruence). lia.
    + intros k u Eu. destruct (SUBS k u Eu) as (s & t & Es & Et & X1 & X2 & _). destruct (D k s Es) as (D3 & D4), (D2 k t Et) as (D5 & _). split; [congruence|]. intros g Hg. rewrite X1 in Hg. rewrite (D4 g Hg). congruence.
  - intros values x (VG & VV & VS). split; [cbn [groups]; rewrite EGr; exact VG|]. split; [exact VV|]. cbn [subs specs]. intros p k u B Eu. rewrite T1 in B. destruct (SUBS k u Eu) as (s & t & Es & Et & X1 & X2 & X3). rewrite X3.
    destruct (existsb (Nat.eqb p) (all_params s)) eqn:Ex; [apply (VS p k s ltac:(rewrite S1; exact B) Es)|].
    rewrite (VS p k s ltac:(rewrite S1; exact B) Es). apply (CL p k s B Es). intros g Hg Q. apply In_nth_error in Hg. destruct Hg as (j & J).
    destruct (i_at I (gl_nth J) Q) as (k' & i & gs & qs & B' & _ & Y1 & Y2 & Y3). rewrite (belongs_one B' B) in *. rewrite (pl_nth Es) in Y1. injection Y1 as <-.
    assert (Z1 : List.In p (all_params s)) by (rewrite all_params_concat; apply in_concat; exists qs; split; [eapply nth_error_In; eauto|exact Y3]). apply existsb_nat in Z1. congruence.
Qed.

(** ** A group with a parameter that no optimizer accepts *)
Lemma route_links at_ ps : forall acc, exists more, snd (fst (route ss at_ ps acc)) = snd acc ++ more.
Proof.
  induction ps as [|p ps IH]; intros acc; cbn; [exists []; rewrite app_nil_r; reflexivity|]. destruct (first_accepting 0 ss p) as [k|]; [|exists []; rewrite app_nil_r; reflexivity].
  destruct (IH (upd (fst acc) k (nth k (fst acc) [] ++ [p]), add_link (k, at_ k) (snd acc))) as (more & ->). cbn. unfold add_link. destruct (existsb _ _); [eauto|]. rewrite <- app_assoc. eauto.
Qed.
Lemma refused c r p1 rest k : good ss lr0 wd0 n c -> r_params r = p1 :: rest -> belongs ss p1 k -> (exists p, List.In p rest /\ forall k, ~ belongs ss p k) ->
  (forall p g, List.In p (r_params r) -> List.In g (groups c) -> ~ List.In p (g_params g)) ->
  exists c', add c r = (c', Some ValueError) /\ forall values closure, exists c'', step update c' values closure = (c'', values, Some IndexError).
Proof.
  intros GD EP B (p0 & P0 & NB) NO. pose proof GD as (S1 & S2 & S3 & I & D). unfold add, base_add.
  assert (O : overlaps (map (@g_params L W) (groups c)) (r_params r) = false).
  { apply not_overlaps. intros p qs P Q. apply in_map_iff in Q. destruct Q as (g & <- & Hg). exact (NO p g P Hg). }
  rewrite O. cbn. rewrite S1, S2, S3. pose proof (belongs_lt B) as LT.
  assert (SL : List.length (subs c) = List.length ss) by (pose proof (i_len I) as X; unfold pl_of in X; rewrite map_length in X; exact X).
  destruct (subs c) as [|s0 sr] eqn:ES; [cbn in SL; lia|]. rewrite <- ES in *. clear s0 sr ES.
  set (at_ := fun k : nat => match nth_error (subs c) k with Some s => List.length (s_groups s) | None => 0%nat end).
  destruct (route ss at_ (r_params r) _) as ((lists, links), ok) eqn:R.
  assert (IN : List.In (k, at_ k) links).
  { rewrite EP in R. cbn in R. apply first_belongs in B. rewrite B in R. match type of R with route _ _ _ ?a = _ => pose proof (route_links at_ rest a) as (more & X) end. rewrite R in X. cbn in X. rewrite X. left. reflexivity. }
  apply route_spec in R; [|apply map_length]. destruct R as (_ & OK & _). destruct ok.
  { exfalso. destruct (proj1 OK eq_refl p0) as (k' & B'); [rewrite EP; right; exact P0|exact (NB k' B')]. }
  eexists. split; [reflexivity|]. intros values closure. unfold step. cbn [set_all_groups groups subs]. destruct (copy_lr _ (subs c)) as (l, b) eqn:E. destruct b; [|eauto]. exfalso.
  apply copy_lr_pl in E. destruct E as (_ & E). apply (E eq_refl (with_links (fill lr0 wd0 r) links) (k, at_ k)); [apply in_app_iff; right; left; reflexivity|exact IN|].
  unfold look, at_. cbn. destruct (nth_error (subs c) k) as [s|] eqn:Es; [|reflexivity]. apply nth_error_None. lia.
Qed.
End Save.
