(** The invariant of ChainedOptimizer: which group of which sub-optimizer holds a parameter, and which links lead there. *)
From Verif Require Import Base BaseFacts Chained ChainedSpec ChainedFacts.
Set Implicit Arguments. Unset Strict Implicit.

Section Inv.
Variables T L W : Type.
Variables (ss : list (spec L W)) (lr0 : L) (wd0 : W) (n : nat).

(** groups as (parameters, links); the sub-optimizers as the parameters of their groups *)
Record inv (gl : list (list nat * list (nat * nat))) (pl : list (list (list nat))) : Prop := {
  i_len : List.length pl = List.length ss;
  i_n : (n <= List.length gl)%nat;
  i_at : forall j ps ls p, nth_error gl j = Some (ps, ls) -> List.In p ps ->
    exists k i gs qs, belongs ss p k /\ List.In (k, i) ls /\ nth_error pl k = Some gs /\ nth_error gs i = Some qs /\ List.In p qs;
  i_link : forall j ps ls k i, nth_error gl j = Some (ps, ls) -> List.In (k, i) ls ->
    (exists gs qs, nth_error pl k = Some gs /\ nth_error gs i = Some qs) /\ (exists p, List.In p ps /\ belongs ss p k) /\
    ((j < n)%nat /\ i = 0%nat \/ (n <= j)%nat /\ i <> 0%nat);
  i_one : forall j1 ps1 ls1 j2 ps2 ls2 k i, nth_error gl j1 = Some (ps1, ls1) -> nth_error gl j2 = Some (ps2, ls2) ->
    List.In (k, i) ls1 -> List.In (k, i) ls2 -> i <> 0%nat -> j1 = j2;
  i_sub : forall k gs, nth_error pl k = Some gs -> gs <> [] /\ NoDup (List.concat gs) /\
    forall p, List.In p (List.concat gs) -> belongs ss p k /\ exists ps ls, List.In (ps, ls) gl /\ List.In p ps
}.
Definition gl_of (gs : list (group L W)) := map (fun g => (g_params g, g_links g)) gs.
Definition pl_of (subs : list (sub T L W)) := map (fun s => map (@sg_params L W) (s_groups s)) subs.
Definition good (c : chain T L W) : Prop :=
  specs c = ss /\ c_lr c = lr0 /\ c_wd c = wd0 /\ inv (gl_of (groups c)) (pl_of (subs c)) /\
  forall k s, nth_error (subs c) k = Some s -> s_wd s = decay_of ss wd0 k /\ forall g, List.In g (s_groups s) -> sg_wd g = s_wd s.

Lemma all_params_concat (s : sub T L W) : all_params s = List.concat (map (@sg_params L W) (s_groups s)).
Proof. unfold all_params. apply flat_map_concat_map. Qed.
Lemma gl_nth gs j g : nth_error gs j = Some g -> nth_error (gl_of gs) j = Some (g_params g, g_links g).
Proof. intros E. unfold gl_of. rewrite nth_error_map, E. reflexivity. Qed.
Lemma pl_nth (subs : list (sub T L W)) k s : nth_error subs k = Some s -> nth_error (pl_of subs) k = Some (map (@sg_params L W) (s_groups s)).
Proof. intros E. unfold pl_of. rewrite nth_error_map, E. reflexivity. Qed.
Lemma pl_nth_inv (subs : list (sub T L W)) k gs : nth_error (pl_of subs) k = Some gs -> exists s, nth_error subs k = Some s /\ gs = map (@sg_params L W) (s_groups s).
Proof. unfold pl_of. rewrite nth_error_map. destruct (nth_error subs k) as [s|]; cbn; [|discriminate]. intros [= <-]. eauto. Qed.
Lemma gl_nth_inv gs j ps ls : nth_error (gl_of gs) j = Some (ps, ls) -> exists g, nth_error gs j = Some g /\ ps = g_params g /\ ls = g_links g.
Proof. unfold gl_of. rewrite nth_error_map. destruct (nth_error gs j) as [g|]; cbn; [|discriminate]. intros [= <- <-]. eauto. Qed.

(** ** A new group *)
Lemma route_all at_ ps lists links ok : route ss at_ ps (map (fun _ => []) ss, []) = (lists, links, ok) ->
  (forall p, List.In p ps -> exists k, belongs ss p k) ->
  ok = true /\ List.length lists = List.length ss /\ (forall k, (k < List.length ss)%nat -> nth k lists [] = filter (mine ss k) ps) /\
  (forall k i, List.In (k, i) links <-> i = at_ k /\ exists p, List.In p ps /\ belongs ss p k).
Proof.
  intros H A. apply route_spec in H; [|apply map_length]. destruct H as (HL & O & H1 & H2). pose proof (proj2 O A) as E. split; [exact E|]. split; [exact HL|]. split.
  - intros k K. rewrite (H1 E k K). replace (nth k (map (fun _ : spec L W => @nil nat) ss) []) with (@nil nat); [reflexivity|].
    clear. revert k. induction ss as [|s l IH]; intros [|k]; cbn; auto.
  - intros k i. rewrite (H2 E k i). cbn. tauto.
Qed.
Definition grow (gs : list (list nat)) (ps : list nat) := if (List.length ps =? 0)%nat then gs else gs ++ [ps].
Lemma sub_adds_spec (subs : list (sub T L W)) : forall lists, List.length lists = List.length subs ->
  (forall k s ps, nth_error subs k = Some s -> nth_error lists k = Some ps -> forall p, List.In p ps -> ~ List.In p (all_params s)) ->
  exists subs', sub_adds subs lists = (subs', None) /\ List.length subs' = List.length subs /\
    forall k s ps, nth_error subs k = Some s -> nth_error lists k = Some ps -> exists s', nth_error subs' k = Some s' /\
      map (@sg_params L W) (s_groups s') = grow (map (@sg_params L W) (s_groups s)) ps /\ s_wd s' = s_wd s /\ s_state s' = s_state s /\
      ((forall g, List.In g (s_groups s) -> sg_wd g = s_wd s) -> forall g, List.In g (s_groups s') -> sg_wd g = s_wd s).
Proof.
  induction subs as [|s subs IH]; intros [|ps lists] HL D; cbn in HL; try lia.
  - exists []. cbn. repeat split. intros [|k] s ps E; discriminate.
  - destruct (IH lists) as (subs' & E & L' & P); [lia|intros k x qs A B; exact (D (S k) x qs A B)|].
    assert (S1 : exists s', sub_add s ps = Ok s' /\ map (@sg_params L W) (s_groups s') = grow (map (@sg_params L W) (s_groups s)) ps /\ s_wd s' = s_wd s /\ s_state s' = s_state s /\
      ((forall g, List.In g (s_groups s) -> sg_wd g = s_wd s) -> forall g, List.In g (s_groups s') -> sg_wd g = s_wd s)).
    { unfold sub_add, grow. destruct (List.length ps =? 0)%nat; [exists s; auto|].
      destruct (overlaps (map (@sg_params L W) (s_groups s)) ps) eqn:O.
      - exfalso. apply overlaps_spec in O. destruct O as (p & qs & A & B & C). apply (D 0%nat s ps eq_refl eq_refl p A). rewrite all_params_concat. apply in_concat. eauto.
      - cbn. eexists. split; [reflexivity|]. cbn. rewrite map_app. cbn. repeat split. intros H g Hg. apply in_app_iff in Hg. destruct Hg as [Hg|[<-|[]]]; [exact (H g Hg)|reflexivity]. }
    destruct S1 as (s' & Es & P1). exists (s' :: subs'). cbn [sub_adds]. rewrite Es, E. split; [reflexivity|]. split; [cbn; lia|].
    intros [|k] x qs A B; cbn in A, B; [|exact (P k x qs A B)]. injection A as <-. injection B as <-. exists s'. split; [reflexivity|exact P1].
Qed.
Lemma nth_nth_error A (d : A) l k : (k < List.length l)%nat -> nth_error l k = Some (nth k l d).
Proof. intros H. apply nth_error_nth'. exact H. Qed.
Lemma grow_in gs ps : gs <> [] -> grow gs ps <> [] /\ (forall p, List.In p (List.concat (grow gs ps)) <-> List.In p (List.concat gs) \/ List.In p ps) /\
  (forall i qs, nth_error gs i = Some qs -> nth_error (grow gs ps) i = Some qs) /\ (ps <> [] -> nth_error (grow gs ps) (List.length gs) = Some ps).
Proof.
  intros N. unfold grow. destruct ps as [|p ps]; cbn [List.length Nat.eqb].
  - split; [exact N|]. split; [intros q; cbn; tauto|]. split; [auto|congruence].
  - split; [intros E; apply app_eq_nil in E; destruct E; congruence|]. split; [|split].
    + intros q. rewrite concat_app, in_app_iff. cbn [List.concat]. rewrite app_nil_r. tauto.
    + intros i qs E. rewrite nth_error_app1; [exact E|]. apply nth_error_Some. congruence.
    + intros _. rewrite nth_error_app2 by lia. rewrite Nat.sub_diag. reflexivity.
Qed.
Lemma inv_add gl pl ps links pl' : inv gl pl -> NoDup ps -> (forall p, List.In p ps -> exists k, belongs ss p k) ->
  (forall p qs ls, List.In p ps -> List.In (qs, ls) gl -> ~ List.In p qs) ->
  (forall k i, List.In (k, i) links <-> (exists gs, nth_error pl k = Some gs /\ i = List.length gs) /\ exists p, List.In p ps /\ belongs ss p k) ->
  List.length pl' = List.length pl ->
  (forall k gs, nth_error pl k = Some gs -> nth_error pl' k = Some (grow gs (filter (mine ss k) ps))) ->
  inv (gl ++ [(ps, links)]) pl'.
Proof.
  intros I ND BL NO HLK HL HP.
  assert (MEM : forall x, List.In x gl -> List.In x (gl ++ [(ps, links)])) by (intros; apply in_app_iff; tauto).
  assert (LEN : forall j x, nth_error gl j = Some x -> (j < List.length gl)%nat) by (intros j x E; apply nth_error_Some; congruence).
  assert (NTH : forall j ps' ls, nth_error (gl ++ [(ps, links)]) j = Some (ps', ls) -> nth_error gl j = Some (ps', ls) \/ j = List.length gl /\ ps' = ps /\ ls = links).
  { intros j ps' ls E. destruct (Nat.ltb_spec j (List.length gl)); [rewrite nth_error_app1 in E by lia; tauto|].
    rewrite nth_error_app2 in E by lia. destruct (j - List.length gl)%nat as [|d] eqn:Ed; cbn in E; [|destruct d; discriminate]. right. injection E as <- <-. repeat split. lia. }
  assert (PL : forall k, (k < List.length ss)%nat -> exists gs, nth_error pl k = Some gs /\ gs <> []).
  { intros k K. destruct (nth_error pl k) as [gs|] eqn:E; [|apply nth_error_None in E; rewrite (i_len I) in E; lia]. exists gs. split; [reflexivity|]. apply (i_sub I E). }
  constructor.
  - rewrite HL. apply (i_len I).
  - rewrite app_length. pose proof (i_n I). lia.
  - intros j ps' ls p E P. destruct (NTH j ps' ls E) as [E'|(-> & -> & ->)].
    + destruct (i_at I E' P) as (k & i & gs & qs & B & LK & E1 & E2 & Q). exists k, i, (grow gs (filter (mine ss k) ps)), qs.
      repeat split; try assumption; try (apply B); [apply HP; exact E1|]. apply grow_in; [apply (i_sub I E1)|exact E2].
    + destruct (BL p P) as (k & B). destruct (PL k (belongs_lt B)) as (gs & E1 & N). exists k, (List.length gs), (grow gs (filter (mine ss k) ps)), (filter (mine ss k) ps).
      assert (Q : List.In p (filter (mine ss k) ps)) by (apply filter_In; split; [exact P|apply mine_spec; exact B]).
      split; [exact B|]. split; [apply HLK; split; [exists gs; split; [exact E1|reflexivity]|exists p; split; [exact P|exact B]]|]. split; [apply HP; exact E1|]. split; [|exact Q]. apply grow_in; [exact N|]. intros X. rewrite X in Q. destruct Q.
  - intros j ps' ls k i E LK. destruct (NTH j ps' ls E) as [E'|(-> & -> & ->)].
    + destruct (i_link I E' LK) as ((gs & qs & E1 & E2) & B & C). split; [|split; [exact B|exact C]]. exists (grow gs (filter (mine ss k) ps)), qs. split; [apply HP; exact E1|]. apply grow_in; [apply (i_sub I E1)|exact E2].
    + apply HLK in LK. destruct LK as ((gs & E1 & ->) & p & P & B). split; [|split; [eauto|]].
      * exists (grow gs (filter (mine ss k) ps)), (filter (mine ss k) ps). split; [apply HP; exact E1|]. apply grow_in; [apply (i_sub I E1)|].
        intros X. assert (Q : List.In p (filter (mine ss k) ps)) by (apply filter_In; split; [exact P|apply mine_spec; exact B]). rewrite X in Q. destruct Q.
      * right. split; [exact (i_n I)|]. destruct (i_sub I E1) as (N & _). destruct gs; [congruence|cbn; lia].
  - intros j1 ps1 ls1 j2 ps2 ls2 k i E1 E2 L1 L2 NZ.
    assert (OLD : forall j ps' ls, nth_error gl j = Some (ps', ls) -> List.In (k, i) ls -> List.In (k, i) links -> False).
    { intros j ps' ls E LK LK2. apply HLK in LK2. destruct LK2 as ((gs & Eg & ->) & _). destruct (i_link I E LK) as ((gs' & qs & Eg' & Eq) & _).
      assert (gs' = gs) by congruence. subst gs'. assert (List.length gs < List.length gs)%nat by (apply nth_error_Some; congruence). lia. }
    destruct (NTH _ _ _ E1) as [E1'|(-> & -> & ->)], (NTH _ _ _ E2) as [E2'|(-> & -> & ->)].
    + exact (i_one I E1' E2' L1 L2 NZ).
    + elim (OLD _ _ _ E1' L1 L2).
    + elim (OLD _ _ _ E2' L2 L1).
    + reflexivity.
  - intros k gs' E. destruct (nth_error pl k) as [gs|] eqn:E1.
    + rewrite (HP k gs E1) in E. injection E as <-. destruct (i_sub I E1) as (N & NDc & IN). split; [apply grow_in; exact N|].
      assert (IN2 : forall p, List.In p (filter (mine ss k) ps) -> belongs ss p k /\ List.In p ps) by (intros p P; apply filter_In in P; rewrite mine_spec in P; tauto).
      split.
      * unfold grow. destruct (List.length (filter (mine ss k) ps) =? 0)%nat; [exact NDc|]. rewrite concat_app. cbn [List.concat]. rewrite app_nil_r. apply NoDup_app_iff.
        split; [exact NDc|]. split; [apply NoDup_filter; exact ND|]. intros p P Q. destruct (IN p P) as (_ & qs & ls & A & B). exact (NO p qs ls (proj2 (IN2 p Q)) A B).
      * intros p P. apply (proj1 (proj2 (grow_in _ N))) in P. destruct P as [P|P].
        -- destruct (IN p P) as (B & qs & ls & X & Y). split; [exact B|]. exists qs, ls. split; [apply MEM; exact X|exact Y].
        -- destruct (IN2 p P) as (B & X). split; [exact B|]. exists ps, links. split; [apply in_app_iff; right; left; reflexivity|exact X].
    + apply nth_error_None in E1. assert (k < List.length pl')%nat by (apply nth_error_Some; congruence). lia.
Qed.
Lemma add_good (c : chain T L W) r : good c -> proper ss r ->
  (exists p g, List.In p (r_params r) /\ List.In g (groups c) /\ List.In p (g_params g)) /\ add c r = (c, Some ValueError) \/
  (forall p g, List.In p (r_params r) -> List.In g (groups c) -> ~ List.In p (g_params g)) /\
  exists c' g, add c r = (c', None) /\ good c' /\ groups c' = groups c ++ [g] /\ g_params g = r_params r /\ g_lr g = or_default (r_lr r) lr0 /\
    forall k s, nth_error (subs c) k = Some s -> exists s', nth_error (subs c') k = Some s' /\ s_state s' = s_state s.
Proof.
  intros (S1 & S2 & S3 & I & D) (ND & BL). unfold add, base_add.
  destruct (overlaps (map (@g_params L W) (groups c)) (r_params r)) eqn:O.
  - left. split; [|reflexivity]. apply overlaps_spec in O. destruct O as (p & qs & A & B & C). apply in_map_iff in B. destruct B as (g & <- & B). eauto.
  - right. assert (NO : forall p g, List.In p (r_params r) -> List.In g (groups c) -> ~ List.In p (g_params g)).
    { intros p g P Hg. apply (proj1 (not_overlaps _ _) O p _ P). apply in_map. exact Hg. }
    split; [exact NO|]. cbn. rewrite S1, S2, S3.
    assert (SL : List.length (subs c) = List.length ss) by (pose proof (i_len I) as X; unfold pl_of in X; rewrite map_length in X; exact X).
    assert (NOgl : forall p qs ls, List.In p (r_params r) -> List.In (qs, ls) (gl_of (groups c)) -> ~ List.In p qs).
    { intros p qs ls P X. unfold gl_of in X. apply in_map_iff in X. destruct X as (g & [= <- <-] & Hg). exact (NO p g P Hg). }
    destruct (subs c) as [|s0 sr] eqn:ES.
    + eexists. exists (fill lr0 wd0 r). split; [reflexivity|]. split; [|cbn; repeat split; intros [|k] s; rewrite ES; discriminate].
      split; [exact S1|]. split; [exact S2|]. split; [exact S3|]. cbn [set_all_groups groups subs]. rewrite ES. split; [|intros [|k] s; discriminate].
      unfold gl_of. rewrite map_app. apply inv_add with (pl := []).
      * exact I.
      * exact ND.
      * exact BL.
      * exact NOgl.
      * intros k i. cbn. split; [tauto|]. intros (_ & p & _ & B). apply belongs_lt in B. cbn in SL. lia.
      * reflexivity.
      * intros [|k] gs; discriminate.
    + rewrite <- ES in *. set (at_ := fun k : nat => match nth_error (subs c) k with Some s => List.length (s_groups s) | None => 0%nat end). destruct (route ss at_ (r_params r) _) as ((lists, links), ok) eqn:R.
      apply route_all in R; [|exact BL]. destruct R as (-> & LL & LF & LK).
      destruct (@sub_adds_spec (subs c) lists) as (subs' & E & HL & P); [congruence| |].
      { intros k s ps Es El p Q X. assert (K : (k < List.length ss)%nat) by (rewrite <- SL; apply nth_error_Some; congruence).
        rewrite (@nth_nth_error _ [] lists k) in El by (rewrite LL; exact K). injection El as <-. rewrite (LF k K) in Q. apply filter_In in Q. destruct Q as (Q & _).
        rewrite all_params_concat in X. destruct (i_sub I (pl_nth Es)) as (_ & _ & IN). destruct (IN p X) as (_ & qs & ls & A & B). exact (NOgl p qs ls Q A B). }
      rewrite E. eexists. exists (with_links (fill lr0 wd0 r) links). split; [reflexivity|]. cbn [set_subs set_all_groups groups subs specs c_lr c_wd].
      assert (P' : forall k s, nth_error (subs c) k = Some s -> exists s', nth_error subs' k = Some s' /\
        map (@sg_params L W) (s_groups s') = grow (map (@sg_params L W) (s_groups s)) (filter (mine ss k) (r_params r)) /\ s_wd s' = s_wd s /\ s_state s' = s_state s /\
        ((forall g, List.In g (s_groups s) -> sg_wd g = s_wd s) -> forall g, List.In g (s_groups s') -> sg_wd g = s_wd s)).
      { intros k s Es. assert (K : (k < List.length ss)%nat) by (rewrite <- SL; apply nth_error_Some; congruence).
        specialize (P k s (nth k lists []) Es (@nth_nth_error _ [] lists k ltac:(rewrite LL; exact K))). rewrite (LF k K) in P. exact P. }
      split; [|split; [reflexivity|split; [reflexivity|split; [reflexivity|]]]].
      * split; [exact S1|]. split; [exact S2|]. split; [exact S3|]. cbn [set_subs set_all_groups groups subs specs c_lr c_wd]. split.
        -- unfold gl_of. rewrite map_app. cbn [map with_links g_params g_links fill]. apply inv_add with (pl := pl_of (subs c)).
           ++ exact I.
           ++ exact ND.
           ++ exact BL.
           ++ exact NOgl.
           ++ intros k i. rewrite (LK k i). unfold at_. split.
              ** intros (-> & p & Q & B). split; [|eauto]. destruct (nth_error (subs c) k) as [s|] eqn:Es; [|apply nth_error_None in Es; apply belongs_lt in B; lia].
                 exists (map (@sg_params L W) (s_groups s)). split; [exact (pl_nth Es)|]. rewrite map_length. reflexivity.
              ** intros ((gs & Eg & ->) & X). split; [|exact X]. apply pl_nth_inv in Eg. destruct Eg as (s & -> & ->). rewrite map_length. reflexivity.
           ++ unfold pl_of. rewrite !map_length. exact HL.
           ++ intros k gs Eg. apply pl_nth_inv in Eg. destruct Eg as (s & Es & ->). destruct (P' k s Es) as (s' & Es' & X & _). rewrite (pl_nth Es'), X. reflexivity.
        -- intros k s' Es'. destruct (nth_error (subs c) k) as [s|] eqn:Es.
           ++ destruct (P' k s Es) as (s2 & E2 & _ & W2 & _ & WG). assert (s2 = s') by congruence. subst s2. destruct (D k s Es) as (D1 & D2). split; [congruence|].
              rewrite W2. exact (WG D2).
           ++ apply nth_error_None in Es. assert (k < List.length subs')%nat by (apply nth_error_Some; congruence). lia.
      * intros k s Es. destruct (P' k s Es) as (s' & A & _ & _ & B & _). eauto.
Qed.

(** ** Rates *)
Lemma set_lr_good (c : chain T L W) i lr : good c ->
  (nth_error (groups c) i = None /\ set_lr c i lr = (c, Some IndexError)) \/
  exists g c', nth_error (groups c) i = Some g /\ set_lr c i lr = (c', None) /\ good c' /\ subs c' = subs c /\
    map (fun g => (g_params g, g_lr g)) (groups c') = upd (map (fun g => (g_params g, g_lr g)) (groups c)) i (g_params g, lr).
Proof.
  intros (S1 & S2 & S3 & I & D). unfold set_lr. destruct (nth_error (groups c) i) as [g|] eqn:E; [right|left; auto].
  eexists. eexists. split; [reflexivity|]. split; [reflexivity|]. cbn [set_all_groups groups subs]. split; [|split; [reflexivity|]].
  - split; [exact S1|]. split; [exact S2|]. split; [exact S3|]. cbn [set_all_groups groups subs]. split; [|exact D].
    unfold gl_of. erewrite map_upd; [exact I|exact E|reflexivity].
  - generalize dependent i. clear. induction (groups c) as [|x gs IH]; intros [|i] E; cbn in *; try discriminate; [congruence|]. f_equal. exact (IH i E).
Qed.

(** ** A step *)
Lemma frame_nth (a b : list (sub T L W)) k s : map (@frame_sub T L W) a = map (@frame_sub T L W) b -> nth_error b k = Some s ->
  exists s', nth_error a k = Some s' /\ s_wd s' = s_wd s /\ s_state s' = s_state s /\ map (@sg_params L W) (s_groups s') = map (@sg_params L W) (s_groups s) /\ map (@sg_wd L W) (s_groups s') = map (@sg_wd L W) (s_groups s).
Proof.
  intros F E. assert (H : nth_error (map (@frame_sub T L W) a) k = nth_error (map (@frame_sub T L W) b) k) by congruence. rewrite !nth_error_map, E in H. cbn in H.
  destruct (nth_error a k) as [s'|]; cbn in H; [|discriminate]. exists s'. split; [reflexivity|]. unfold frame_sub in H. injection H as _ H1 H2 H3.
  split; [exact H1|]. split; [exact H2|]. apply (f_equal (map fst)) in H3 as A. apply (f_equal (map snd)) in H3 as B. rewrite !map_map in A, B. cbn in A, B. tauto.
Qed.
Lemma frame_pl (a b : list (sub T L W)) : map (@frame_sub T L W) a = map (@frame_sub T L W) b -> pl_of a = pl_of b.
Proof.
  revert b. induction a as [|x a IH]; intros [|y b] H; cbn in *; try discriminate; [reflexivity|]. injection H as _ _ _ H1 H2. f_equal; [|exact (IH b H2)].
  apply (f_equal (map fst)) in H1. rewrite !map_map in H1. exact H1.
Qed.
Definition view_groups (c : chain T L W) := map (fun g => (g_params g, g_lr g)) (groups c).
Variables V G : Type.
Variable update : nat -> L -> W -> G -> option T -> V -> V * T.
Lemma step_good (c : chain T L W) values closure : good c ->
  exists c' values', step update c values closure = (c', values', None) /\ good c' /\ groups c' = groups c /\ (forall p, (forall k, ~ belongs ss p k) -> values' p = values p) /\
    forall p k, belongs ss p k -> exists s s', nth_error (subs c) k = Some s /\ nth_error (subs c') k = Some s' /\
      ((forall g, List.In g (groups c) -> ~ List.In p (g_params g)) \/ closure values p = None -> values' p = values p /\ s_state s' p = s_state s p) /\
      (forall lr, (exists g, List.In g (groups c) /\ List.In p (g_params g)) -> last_rate ss n (view_groups c) p k lr ->
         (values' p, s_state s' p) = fresh_of update k lr (decay_of ss wd0 k) (closure values) values (s_state s) p).
Proof.
  intros (S1 & S2 & S3 & I & D).
  assert (SL : List.length (subs c) = List.length ss) by (pose proof (i_len I) as X; unfold pl_of in X; rewrite map_length in X; exact X).
  destruct (@copy_lr_spec T L W (groups c) (subs c)) as (s1 & E1 & F1 & R1).
  { intros g (k, i) Hg A. apply In_nth_error in Hg. destruct Hg as (j & J). destruct (i_link I (gl_nth J) A) as ((gs & qs & X & Y) & _).
    apply pl_nth_inv in X. destruct X as (s & X & ->). unfold look. cbn. rewrite X. rewrite nth_error_map in Y. destruct (nth_error (s_groups s) i); [discriminate|discriminate]. }
  unfold step. rewrite E1. destruct (sub_steps update 0 (closure values) values s1) as (values', s2) eqn:E2.
  pose proof (frame_pl F1) as PL1.
  assert (K1 : forall k s, nth_error s1 k = Some s -> exists gs, nth_error (pl_of (subs c)) k = Some gs /\ all_params s = List.concat gs).
  { intros k s E. exists (map (@sg_params L W) (s_groups s)). rewrite <- PL1. split; [exact (pl_nth E)|apply all_params_concat]. }
  apply sub_steps_spec in E2.
  2:{ intros k s E. destruct (K1 k s E) as (gs & X & ->). apply (i_sub I X). }
  2:{ intros i j a b p A B PA PB. destruct (K1 i a A) as (ga & XA & YA), (K1 j b B) as (gb & XB & YB). rewrite YA in PA. rewrite YB in PB.
      destruct (i_sub I XA) as (_ & _ & IA), (i_sub I XB) as (_ & _ & IB). exact (belongs_one (proj1 (IA p PA)) (proj1 (IB p PB))). }
  destruct E2 as (L2 & U & P2). cbn [Nat.add] in P2. exists (set_subs c s2), values'. split; [reflexivity|].
  assert (L1 : List.length s1 = List.length (subs c)) by (apply (f_equal (@List.length _)) in F1; rewrite !map_length in F1; exact F1).
  assert (PL2 : pl_of s2 = pl_of s1).
  { unfold pl_of. clear - L2 P2. assert (H : forall i s, nth_error s1 i = Some s -> exists s', nth_error s2 i = Some s' /\ s_groups s' = s_groups s) by (intros i s E; destruct (P2 i s E) as (s' & X & _ & _ & Y & _); eauto).
    clear P2. revert s2 L2 H. induction s1 as [|x s1 IH]; intros [|y s2] L2 H; cbn in *; try lia; [reflexivity|]. f_equal.
    - destruct (H 0%nat x eq_refl) as (s' & [= <-] & ->). reflexivity.
    - apply IH; [lia|]. intros i s E. exact (H (S i) s E). }
  split; [|split; [reflexivity|split]].
  2:{ intros p N. apply U. intros i x Ex Q. destruct (K1 i x Ex) as (gs & Y & Z1). rewrite Z1 in Q. destruct (i_sub I Y) as (_ & _ & IN). exact (N i (proj1 (IN p Q))). }
  - split; [exact S1|]. split; [exact S2|]. split; [exact S3|]. cbn [set_subs groups subs]. split; [rewrite PL2, PL1; exact I|].
    intros k s' Es'. destruct (nth_error (subs c) k) as [s|] eqn:Es; [|apply nth_error_None in Es; assert (k < List.length s2)%nat by (apply nth_error_Some; congruence); lia].
    destruct (frame_nth F1 Es) as (sa & Ea & W1 & _ & _ & WG). destruct (P2 k sa Ea) as (sb & Eb & _ & W2 & GG & _). assert (sb = s') by congruence. subst sb.
    destruct (D k s Es) as (D1 & D2). split; [congruence|]. intros g Hg. rewrite GG in Hg. assert (X : List.In (sg_wd g) (map (@sg_wd L W) (s_groups sa))) by (apply in_map; exact Hg).
    rewrite WG in X. apply in_map_iff in X. destruct X as (g2 & X & Hg2). rewrite <- X, W2, W1. exact (D2 g2 Hg2).
  - intros p k B. pose proof (belongs_lt B) as LT. destruct (nth_error (subs c) k) as [s|] eqn:Es; [|apply nth_error_None in Es; lia].
    destruct (frame_nth F1 Es) as (sa & Ea & W1 & ST & PP & WG). destruct (P2 k sa Ea) as (sb & Eb & _ & W2 & GG & X). exists s, sb. split; [reflexivity|]. split; [exact Eb|]. split.
    + intros [N|N].
      * assert (NP : forall i x, nth_error s1 i = Some x -> ~ List.In p (all_params x)).
        { intros i x Ex Q. destruct (K1 i x Ex) as (gs & Y & Z1). rewrite Z1 in Q. destruct (i_sub I Y) as (_ & _ & IN). destruct (IN p Q) as (_ & ps & ls & A & C).
          unfold gl_of in A. apply in_map_iff in A. destruct A as (g & [= <- <-] & Hg). exact (N g Hg C). }
        split; [apply U; exact NP|]. rewrite <- ST. apply (X p). exact (NP k sa Ea).
      * destruct (in_dec Nat.eq_dec p (all_params sa)) as [Q|Q].
        -- unfold all_params in Q. apply in_flat_map in Q. destruct Q as (g & Hg & Q). pose proof (proj2 (X p) g Hg Q) as Y. unfold fresh_of in Y. rewrite N in Y. injection Y as -> ->. rewrite ST. tauto.
        -- split; [|rewrite <- ST; apply (X p); exact Q]. apply U. intros i x Ex QX.
           destruct (K1 i x Ex) as (gs & Y & Z1). rewrite Z1 in QX. destruct (i_sub I Y) as (_ & _ & IN). destruct (IN p QX) as (B2 & _). rewrite (belongs_one B2 B) in *. assert (x = sa) by congruence. subst x.
           rewrite <- Z1 in QX. tauto.
    + intros lr (g0 & Hg0 & P0) LR.
      (* where the parameter is *)
      assert (LOC : forall j g, nth_error (groups c) j = Some g -> List.In p (g_params g) -> exists i sg, List.In (k, i) (g_links g) /\ nth_error (s_groups sa) i = Some sg /\ List.In p (sg_params sg)).
      { intros j g J P. destruct (i_at I (gl_nth J) P) as (k' & i & gs & qs & B' & LK & Y1 & Y2 & Q). rewrite (belongs_one B' B) in *. clear B' k'.
        rewrite <- PL1 in Y1. rewrite (pl_nth Ea) in Y1. injection Y1 as <-. rewrite nth_error_map in Y2. destruct (nth_error (s_groups sa) i) as [sg|] eqn:Esg; cbn in Y2; [|discriminate]. injection Y2 as <-. eauto. }
      assert (UNI : forall i1 i2 g1 g2, nth_error (s_groups sa) i1 = Some g1 -> nth_error (s_groups sa) i2 = Some g2 -> List.In p (sg_params g1) -> List.In p (sg_params g2) -> i1 = i2).
      { destruct (K1 k sa Ea) as (gs & Y & Z1). destruct (i_sub I Y) as (_ & NDc & _). rewrite <- Z1 in NDc. unfold all_params in NDc. clear - NDc. revert NDc. induction (s_groups sa) as [|y ys IH]; intros ND i1 i2 g1 g2 A B PA PB; [destruct i1; discriminate|].
        cbn in ND. apply NoDup_app_iff in ND. destruct ND as (N1 & N2 & N3). destruct i1 as [|i1], i2 as [|i2]; cbn in A, B; [reflexivity| | |f_equal; eapply IH; eauto].
        - injection A as <-. elim (N3 p PA). apply in_flat_map. exists g2. split; [eapply nth_error_In; eauto|exact PB].
        - injection B as <-. elim (N3 p PB). apply in_flat_map. exists g1. split; [eapply nth_error_In; eauto|exact PA]. }
      assert (GOAL : forall i sg, nth_error (s_groups sa) i = Some sg -> List.In p (sg_params sg) -> rate_at s1 (k, i) = Some lr ->
        (values' p, s_state sb p) = fresh_of update k lr (decay_of ss wd0 k) (closure values) values (s_state s) p).
      { intros i sg Esg Q RA. rewrite (proj2 (X p) sg (nth_error_In _ _ Esg) Q), ST. unfold rate_at, look in RA. cbn in RA. rewrite Ea, Esg in RA. cbn in RA. injection RA as <-.
        assert (WD : sg_wd sg = decay_of ss wd0 k); [|rewrite WD; reflexivity].
        destruct (D k s Es) as (D1 & D2). assert (Y : List.In (sg_wd sg) (map (@sg_wd L W) (s_groups sa))) by (apply in_map; eapply nth_error_In; eauto).
        rewrite WG in Y. apply in_map_iff in Y. destruct Y as (g2 & Y & Hg2). rewrite <- Y, <- D1. exact (D2 g2 Hg2). }
      destruct LR as (i & ps & Ei & C). unfold view_groups in Ei. rewrite nth_error_map in Ei. destruct (nth_error (groups c) i) as [g|] eqn:Eg; cbn in Ei; [|discriminate]. injection Ei as <- <-.
      destruct C as [(P & NI)|((j & ps' & lr' & J & Ej & P) & NI & (q & Q & BQ) & LAST)].
      * destruct (LOC i g Eg P) as (i' & sg & LK & Esg & Q). apply (GOAL i' sg Esg Q). apply (proj2 (R1 (k, i')) i g Eg LK).
        intros j g' J Eg' LK'. destruct (i_link I (gl_nth Eg) LK) as (_ & _ & [(C & _)|(_ & NZ)]); [lia|]. pose proof (i_one I (gl_nth Eg) (gl_nth Eg') LK LK' NZ). lia.
      * unfold view_groups in Ej, LAST. rewrite nth_error_map in Ej. destruct (nth_error (groups c) j) as [gj|] eqn:Egj; cbn in Ej; [|discriminate]. injection Ej as <- _.
        destruct (LOC j gj Egj P) as (i' & sg & LK & Esg & PQ). destruct (i_link I (gl_nth Egj) LK) as (_ & _ & [(_ & ->)|(C & _)]); [|lia].
        apply (GOAL 0%nat sg Esg PQ).
        assert (LKi : List.In (k, 0%nat) (g_links g)).
        { destruct (i_at I (gl_nth Eg) Q) as (k' & i2 & gs & qs & B' & LK' & _). rewrite (belongs_one B' BQ) in *. destruct (i_link I (gl_nth Eg) LK') as (_ & _ & [(_ & ->)|(C & _)]); [exact LK'|lia]. }
        apply (proj2 (R1 (k, 0%nat)) i g Eg LKi). intros j' g' J' Eg' LK'. destruct (i_link I (gl_nth Eg') LK') as (_ & (q' & Q' & B') & [(C & _)|(_ & NZ)]); [|congruence].
        apply (LAST j' (g_params g') (g_lr g') ltac:(lia)) with (q := q'); [rewrite nth_error_map, Eg'; reflexivity|exact Q'|exact B'].
Qed.
End Inv.
