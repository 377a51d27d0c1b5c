(** Facts about the parts of ChainedOptimizer: routing, the copy of the rates, the steps of the sub-optimizers. *)
From Verif Require Import Base BaseFacts Chained ChainedSpec.
Set Implicit Arguments. Unset Strict Implicit.

Lemma NoDup_app_iff (A : Type) (a b : list A) : NoDup (a ++ b) <-> NoDup a /\ NoDup b /\ forall x, List.In x a -> ~ List.In x b.
Proof.
  induction a as [|x a IH]; cbn.
  - split; [intros H; repeat split; [constructor|exact H|intros x []]|tauto].
  - rewrite !NoDup_cons_iff, in_app_iff, IH. split.
    + intros (N & A1 & B & D). repeat split; try tauto. intros y [<-|Y]; [tauto|exact (D y Y)].
    + intros ((N & A1) & B & D). repeat split; try tauto; [|intros y Y; apply D; right; exact Y]. intros [X|X]; [tauto|]. exact (D x (or_introl eq_refl) X).
Qed.
Lemma existsb_nat p l : existsb (Nat.eqb p) l = true <-> List.In p l.
Proof. rewrite existsb_exists. split; [intros (x & X & E); apply Nat.eqb_eq in E; congruence|intros H; exists p; split; [exact H|apply Nat.eqb_refl]]. Qed.
Lemma overlaps_spec old ps : overlaps old ps = true <-> exists p qs, List.In p ps /\ List.In qs old /\ List.In p qs.
Proof.
  unfold overlaps. rewrite existsb_exists. split.
  - intros (p & P & E). apply existsb_exists in E. destruct E as (qs & Q & E). apply existsb_nat in E. eauto.
  - intros (p & qs & P & Q & E). exists p. split; [exact P|]. apply existsb_exists. exists qs. split; [exact Q|apply existsb_nat; exact E].
Qed.
Lemma not_overlaps old ps : overlaps old ps = false <-> forall p qs, List.In p ps -> List.In qs old -> ~ List.In p qs.
Proof.
  split.
  - intros E p qs P Q X. assert (overlaps old ps = true) by (apply overlaps_spec; eauto). congruence.
  - intros H. destruct (overlaps old ps) eqn:E; [|reflexivity]. apply overlaps_spec in E. destruct E as (p & qs & P & Q & X). elim (H p qs P Q X).
Qed.

Section Facts.
Variables T L W : Type.
Implicit Type ss : list (spec L W).

Lemma first_ge ss p : forall k0 k, first_accepting k0 ss p = Some k -> (k0 <= k)%nat.
Proof. induction ss as [|s ss IH]; cbn; intros k0 k H; [discriminate|]. destruct (accepts s p); [inversion H; lia|]. apply IH in H. lia. Qed.
Lemma first_belongs_at ss p : forall k0 k, first_accepting k0 ss p = Some (k0 + k)%nat <-> belongs ss p k.
Proof.
  induction ss as [|s ss IH]; intros k0 k; cbn.
  - split; [discriminate|]. intros ((s & E & _) & _). destruct k; discriminate.
  - destruct (accepts s p) eqn:A.
    + split.
      * intros [= E]. assert (k = 0%nat) by lia. subst. split; [exists s; split; [reflexivity|exact A]|intros j s' J; lia].
      * intros (_ & H). destruct k as [|k]; [f_equal; lia|]. rewrite (H 0%nat s ltac:(lia) eq_refl) in A. discriminate.
    + destruct k as [|k].
      * split; [intros H; apply first_ge in H; lia|]. intros ((s' & E & A') & _). cbn in E. congruence.
      * replace (k0 + S k)%nat with (S k0 + k)%nat by lia. rewrite IH. split.
        -- intros ((s' & E & A') & H). split; [exists s'; auto|]. intros [|j] s2 J E2; cbn in E2; [congruence|]. exact (H j s2 ltac:(lia) E2).
        -- intros ((s' & E & A') & H). split; [exists s'; auto|]. intros j s2 J E2. exact (H (S j) s2 ltac:(lia) E2).
Qed.
Lemma first_belongs ss p k : first_accepting 0 ss p = Some k <-> belongs ss p k.
Proof. exact (first_belongs_at ss p 0 k). Qed.
Lemma belongs_one ss p k k' : belongs ss p k -> belongs ss p k' -> k = k'.
Proof. intros H K. apply first_belongs in H, K. congruence. Qed.
Lemma belongs_lt ss p k : belongs ss p k -> (k < List.length ss)%nat.
Proof. intros ((s & E & _) & _). apply nth_error_Some. congruence. Qed.

(** ** Routing *)
Definition mine ss (k : nat) (p : nat) : bool := match first_accepting 0 ss p with Some j => (j =? k)%nat | None => false end.
Lemma mine_spec ss k p : mine ss k p = true <-> belongs ss p k.
Proof.
  unfold mine. rewrite <- first_belongs. destruct (first_accepting 0 ss p) as [j|]; [|split; discriminate].
  rewrite Nat.eqb_eq. split; congruence.
Qed.
Lemma add_link_in a l b : List.In b (add_link a l) <-> b = a \/ List.In b l.
Proof.
  unfold add_link. destruct (existsb _ l) eqn:E.
  - split; [tauto|]. intros [->|H]; [|exact H]. apply existsb_exists in E. destruct E as ((x, y) & X & E). apply andb_true_iff in E. destruct E as (E1 & E2).
    apply Nat.eqb_eq in E1, E2. destruct a; cbn in *. congruence.
  - rewrite in_app_iff. cbn. intuition congruence.
Qed.
Lemma route_spec ss at_ ps : forall lists links lists' links' ok,
  route ss at_ ps (lists, links) = (lists', links', ok) -> List.length lists = List.length ss ->
  List.length lists' = List.length ss /\
  (ok = true <-> forall p, List.In p ps -> exists k, belongs ss p k) /\
  (ok = true -> forall k, (k < List.length ss)%nat -> nth k lists' [] = nth k lists [] ++ filter (mine ss k) ps) /\
  (ok = true -> forall k i, List.In (k, i) links' <-> List.In (k, i) links \/ i = at_ k /\ exists p, List.In p ps /\ belongs ss p k).
Proof.
  induction ps as [|p ps IH]; intros lists links lists' links' ok; cbn.
  - intros [= <- <- <-] HL. split; [exact HL|]. split; [split; [intros _ q []|reflexivity]|]. split.
    + intros _ k _. rewrite app_nil_r. reflexivity.
    + intros _ k i. split; [tauto|]. intros [H|(_ & q & [] & _)]; exact H.
  - destruct (first_accepting 0 ss p) as [k0|] eqn:F.
    + intros H HL. pose proof (proj1 (first_belongs _ _ _) F) as B. pose proof (belongs_lt B) as LT.
      apply IH in H; [|rewrite upd_length; exact HL]. destruct H as (HL' & O & H1 & H2). split; [exact HL'|]. split; [|split].
      * rewrite O. split; [|intros H q Q; apply H; right; exact Q]. intros H q [<-|Q]; [eauto|exact (H q Q)].
      * intros E k K. rewrite (H1 E k K). unfold mine at 2. rewrite F.
        destruct (Nat.eqb_spec k0 k) as [->|NE].
        -- rewrite nth_error_nth with (x := nth k lists [] ++ [p]); [rewrite <- app_assoc; reflexivity|].
           rewrite nth_error_upd, Nat.eqb_refl. destruct (Nat.ltb_spec k (List.length lists)); [reflexivity|lia].
        -- f_equal. destruct (nth_error lists k) eqn:E1.
           ++ rewrite (nth_error_nth _ _ _ E1). apply nth_error_nth. rewrite nth_error_upd. destruct (Nat.eqb_spec k k0); [congruence|exact E1].
           ++ apply nth_error_None in E1. lia.
      * intros E k i. rewrite (H2 E k i), add_link_in. split.
        -- intros [[[= -> ->]|H]|(I & q & Q & B2)]; [right; split; [reflexivity|exists p; auto]|tauto|right; split; [exact I|exists q; auto]].
        -- intros [H|(I & q & [<-|Q] & B2)]; [tauto| |right; split; [exact I|exists q; auto]].
           left. left. rewrite (belongs_one B2 B). rewrite I, (belongs_one B2 B). reflexivity.
    + intros [= <- <- <-] HL. split; [exact HL|]. split; [|split; discriminate]. split; [discriminate|].
      intros H. destruct (H p (or_introl eq_refl)) as (k & B). apply first_belongs in B. congruence.
Qed.

(** ** The copy of the rates *)
Definition look (subs : list (sub T L W)) (a : nat * nat) : option (sgroup L W) :=
  match nth_error subs (fst a) with Some s => nth_error (s_groups s) (snd a) | None => None end.
Definition frame_sub (s : sub T L W) := (s_lr s, s_wd s, s_state s, map (fun g => (sg_params g, sg_wd g)) (s_groups s)).
Definition rate_at subs a : option L := option_map (@sg_lr L W) (look subs a).
Lemma map_upd A B (f : A -> B) l : forall i x y, nth_error l i = Some y -> f x = f y -> map f (upd l i x) = map f l.
Proof. induction l as [|a l IH]; intros [|i] x y E F; cbn in *; try discriminate; [congruence|]. f_equal. eapply IH; eauto. Qed.
Lemma copy_one_spec lr a subs : look subs a <> None ->
  exists subs', copy_one lr a subs = Some subs' /\ map frame_sub subs' = map frame_sub subs /\
    forall b, rate_at subs' b = if (fst b =? fst a)%nat && (snd b =? snd a)%nat then Some lr else rate_at subs b.
Proof.
  unfold look, copy_one. intros H. destruct (nth_error subs (fst a)) as [s|] eqn:E1; [|congruence].
  destruct (nth_error (s_groups s) (snd a)) as [g|] eqn:E2; [|congruence].
  eexists. split; [reflexivity|]. split.
  - eapply map_upd; [exact E1|]. unfold frame_sub, set_groups; cbn. f_equal. eapply map_upd; [exact E2|]. reflexivity.
  - intros b. unfold rate_at, look. rewrite nth_error_upd. destruct (Nat.eqb_spec (fst b) (fst a)) as [Eb|NE]; cbn [andb]; [|reflexivity].
    destruct (Nat.ltb_spec (fst a) (List.length subs)); [|apply nth_error_None in H0; congruence]. cbn [set_groups s_groups]. rewrite nth_error_upd.
    destruct (Nat.eqb_spec (snd b) (snd a)); [|rewrite Eb, E1; reflexivity].
    destruct (Nat.ltb_spec (snd a) (List.length (s_groups s))); [reflexivity|apply nth_error_None in H1; congruence].
Qed.
Lemma look_frame subs subs' a : map frame_sub subs' = map frame_sub subs -> look subs a <> None -> look subs' a <> None.
Proof.
  intros F. unfold look. assert (H : nth_error (map frame_sub subs') (fst a) = nth_error (map frame_sub subs) (fst a)) by congruence.
  rewrite !nth_error_map in H. destruct (nth_error subs (fst a)) as [s|], (nth_error subs' (fst a)) as [s'|]; cbn in H; try congruence.
  unfold frame_sub in H. injection H as _ _ _ H. intros N. assert (H2 : nth_error (map (fun g => (sg_params g, sg_wd g)) (s_groups s')) (snd a) = nth_error (map (fun g => (sg_params g, sg_wd g)) (s_groups s)) (snd a)) by congruence.
  rewrite !nth_error_map in H2. destruct (nth_error (s_groups s) (snd a)), (nth_error (s_groups s') (snd a)); cbn in H2; congruence.
Qed.
Lemma copy_links_spec lr links : forall subs, (forall a, List.In a links -> look subs a <> None) ->
  exists subs', copy_links lr links subs = (subs', true) /\ map frame_sub subs' = map frame_sub subs /\
    forall b, (List.In b links -> rate_at subs' b = Some lr) /\ (~ List.In b links -> rate_at subs' b = rate_at subs b).
Proof.
  induction links as [|a links IH]; intros subs H; cbn.
  - exists subs. repeat split; tauto.
  - destruct (copy_one_spec lr (H a (or_introl eq_refl))) as (s1 & -> & F1 & R1).
    destruct (IH s1) as (s2 & -> & F2 & R2); [intros b B; apply (look_frame F1); apply H; right; exact B|].
    exists s2. split; [reflexivity|]. split; [congruence|]. intros b. destruct (R2 b) as (X & Y).
    assert (D : List.In b links \/ ~ List.In b links).
    { destruct (in_dec (fun x y : nat * nat => ltac:(decide equality; apply Nat.eq_dec)) b links); tauto. }
    split.
    + intros [<-|B]; [|exact (X B)]. destruct D as [B|B]; [exact (X B)|]. rewrite (Y B), R1, !Nat.eqb_refl. reflexivity.
    + intros N. rewrite Y by tauto. rewrite R1. destruct (Nat.eqb_spec (fst b) (fst a)), (Nat.eqb_spec (snd b) (snd a)); cbn; try reflexivity.
      elim N. left. destruct a, b; cbn in *; congruence.
Qed.
Lemma copy_lr_spec (gs : list (group L W)) : forall subs, (forall g a, List.In g gs -> List.In a (g_links g) -> look subs a <> None) ->
  exists subs', copy_lr gs subs = (subs', true) /\ map frame_sub subs' = map frame_sub subs /\
    forall b, ((forall g, List.In g gs -> ~ List.In b (g_links g)) -> rate_at subs' b = rate_at subs b) /\
      (forall i g, nth_error gs i = Some g -> List.In b (g_links g) ->
         (forall j g', (i < j)%nat -> nth_error gs j = Some g' -> ~ List.In b (g_links g')) -> rate_at subs' b = Some (g_lr g)).
Proof.
  induction gs as [|g gs IH]; intros subs H; cbn.
  - exists subs. split; [reflexivity|]. split; [reflexivity|]. intros b. split; [reflexivity|intros [|i] g H0; discriminate].
  - destruct (@copy_links_spec (g_lr g) (g_links g) subs) as (s1 & -> & F1 & R1); [intros a A; exact (H g a (or_introl eq_refl) A)|].
    destruct (IH s1) as (s2 & -> & F2 & R2); [intros g' a G' A; apply (look_frame F1); exact (H g' a (or_intror G') A)|].
    exists s2. split; [reflexivity|]. split; [congruence|]. intros b. destruct (R2 b) as (X & Y), (R1 b) as (P & Q). split.
    + intros N. rewrite X by (intros g' G'; apply N; right; exact G'). apply Q. apply N. left. reflexivity.
    + intros [|i] g' E B N; cbn in E.
      * injection E as <-. rewrite X; [exact (P B)|]. intros g' G'. apply In_nth_error in G'. destruct G' as (j & J). exact (N (S j) g' ltac:(lia) J).
      * apply (Y i g' E B). intros j g2 J E2. exact (N (S j) g2 ltac:(lia) E2).
Qed.

(** ** The steps *)
Variables V G : Type.
Variable update : nat -> L -> W -> G -> option T -> V -> V * T.
Definition fresh_of k (lr : L) (wd : W) grads (values : nat -> V) (state : nat -> option T) p : V * option T :=
  match grads p with
  | None => (values p, state p)
  | Some g => let '(v, t) := update k lr wd g (state p) (values p) in (v, Some t)
  end.
Definition step_pair k grads (x : (nat -> V) * (nat -> option T)) (e : nat * sgroup L W) := update_one update k (sg_lr (snd e)) (sg_wd (snd e)) grads x (fst e).
Definition pairs (gs : list (sgroup L W)) : list (nat * sgroup L W) := flat_map (fun g => map (fun p => (p, g)) (sg_params g)) gs.
Lemma fold_pairs k grads gs : forall x,
  fold_left (fun x g => fold_left (update_one update k (sg_lr g) (sg_wd g) grads) (sg_params g) x) gs x = fold_left (step_pair k grads) (pairs gs) x.
Proof.
  induction gs as [|g gs IH]; intros x; cbn; [reflexivity|]. rewrite fold_left_app, <- IH. f_equal.
  revert x. induction (sg_params g) as [|p ps IHp]; intros x; cbn; [reflexivity|]. apply IHp.
Qed.
Lemma pairs_fst gs : map fst (pairs gs) = flat_map (@sg_params L W) gs.
Proof. induction gs as [|g gs IH]; [reflexivity|]. unfold pairs in *. cbn [flat_map]. rewrite map_app, map_map, map_id. f_equal. exact IH. Qed.
Lemma pairs_in gs p g : List.In (p, g) (pairs gs) <-> List.In g gs /\ List.In p (sg_params g).
Proof.
  unfold pairs. rewrite in_flat_map. split.
  - intros (g' & H & M). apply in_map_iff in M. destruct M as (q & [= -> ->] & Q). tauto.
  - intros (H & P). exists g. split; [exact H|]. apply in_map_iff. eauto.
Qed.
Lemma step_pair_at k grads x e q :
  (q <> fst e -> fst (step_pair k grads x e) q = fst x q /\ snd (step_pair k grads x e) q = snd x q) /\
  (q = fst e -> (fst (step_pair k grads x e) q, snd (step_pair k grads x e) q) = fresh_of k (sg_lr (snd e)) (sg_wd (snd e)) grads (fst x) (snd x) q).
Proof.
  unfold step_pair, update_one, fresh_of. split.
  - intros N. destruct (grads (fst e)); [|tauto]. destruct (update _ _ _ _ _ _). cbn. unfold set. destruct (Nat.eqb_spec q (fst e)); [congruence|tauto].
  - intros ->. destruct (grads (fst e)); [|reflexivity]. destruct (update _ _ _ _ _ _). cbn. unfold set. rewrite Nat.eqb_refl. reflexivity.
Qed.
Lemma fold_step_spec k grads es : forall x, NoDup (map fst es) ->
  forall q, (~ List.In q (map fst es) -> fst (fold_left (step_pair k grads) es x) q = fst x q /\ snd (fold_left (step_pair k grads) es x) q = snd x q) /\
    (forall g, List.In (q, g) es ->
       (fst (fold_left (step_pair k grads) es x) q, snd (fold_left (step_pair k grads) es x) q) = fresh_of k (sg_lr g) (sg_wd g) grads (fst x) (snd x) q).
Proof.
  induction es as [|e es IH]; intros x ND q; cbn [map fold_left].
  - split; [tauto|intros g []].
  - inversion ND as [|? ? NI ND2]; subst. destruct (IH (step_pair k grads x e) ND2 q) as (A & B). destruct (step_pair_at k grads x e q) as (C & D). split.
    + intros N. cbn in N. destruct A as (A1 & A2); [tauto|]. destruct C as (C1 & C2); [intros E; apply N; left; congruence|]. split; congruence.
    + intros g [E|I].
      * subst e. cbn in *. destruct (A NI) as (-> & ->). exact (D eq_refl).
      * rewrite (B g I). assert (NE : q <> fst e). { intros ->. apply NI. apply in_map_iff. exists (fst e, g). tauto. }
        destruct (C NE) as (C1 & C2). unfold fresh_of. rewrite C1, C2. reflexivity.
Qed.
Lemma sub_step_spec k grads values (s s' : sub T L W) values' : sub_step update k grads values s = (values', s') -> NoDup (all_params s) ->
  s_lr s' = s_lr s /\ s_wd s' = s_wd s /\ s_groups s' = s_groups s /\
  forall p, (~ List.In p (all_params s) -> values' p = values p /\ s_state s' p = s_state s p) /\
    (forall g, List.In g (s_groups s) -> List.In p (sg_params g) ->
       (values' p, s_state s' p) = fresh_of k (sg_lr g) (sg_wd g) grads values (s_state s) p).
Proof.
  unfold sub_step. rewrite fold_pairs. intros H ND.
  assert (ND' : NoDup (map fst (pairs (s_groups s)))) by (rewrite pairs_fst; exact ND).
  pose proof (@fold_step_spec k grads _ (values, s_state s) ND') as S1.
  destruct (fold_left _ _ _) as (v, st). injection H as <- <-. cbn in *. do 3 (split; [reflexivity|]). intros p. split.
  - intros N. apply (S1 p). rewrite pairs_fst. exact N.
  - intros g Hg P. apply (S1 p). apply pairs_in. tauto.
Qed.
Lemma sub_steps_spec grads (ss : list (sub T L W)) : forall k values values' (ss' : list (sub T L W)), sub_steps update k grads values ss = (values', ss') ->
  (forall i s, nth_error ss i = Some s -> NoDup (all_params s)) ->
  (forall i j s s' p, nth_error ss i = Some s -> nth_error ss j = Some s' -> List.In p (all_params s) -> List.In p (all_params s') -> i = j) ->
  List.length ss' = List.length ss /\
  (forall p, (forall i s, nth_error ss i = Some s -> ~ List.In p (all_params s)) -> values' p = values p) /\
  forall i s, nth_error ss i = Some s -> exists s', nth_error ss' i = Some s' /\
    s_lr s' = s_lr s /\ s_wd s' = s_wd s /\ s_groups s' = s_groups s /\
    forall p, (~ List.In p (all_params s) -> s_state s' p = s_state s p) /\
      (forall g, List.In g (s_groups s) -> List.In p (sg_params g) ->
         (values' p, s_state s' p) = fresh_of (k + i) (sg_lr g) (sg_wd g) grads values (s_state s) p).
Proof.
  induction ss as [|s ss IH]; intros k values values' ss' H ND DJ; cbn in H.
  - injection H as <- <-. repeat split. intros [|i] s E; discriminate.
  - destruct (sub_step update k grads values s) as (v1, s1) eqn:E1. destruct (sub_steps update (S k) grads v1 ss) as (v2, ss2) eqn:E2. injection H as <- <-.
    apply sub_step_spec in E1; [|exact (ND 0%nat s eq_refl)]. destruct E1 as (F1 & F2 & F3 & P1).
    apply IH in E2; [|intros i x X; exact (ND (S i) x X)|intros i j a b p A B PA PB; specialize (DJ (S i) (S j) a b p A B PA PB); lia].
    destruct E2 as (HL & U & IS). split; [cbn; lia|]. split.
    + intros p N. rewrite U by (intros i x X; exact (N (S i) x X)). apply (P1 p). exact (N 0%nat s eq_refl).
    + intros [|i] x X; cbn in X.
      * injection X as <-. exists s1. split; [reflexivity|]. split; [exact F1|]. split; [exact F2|]. split; [exact F3|]. intros p. split; [apply (P1 p)|].
        intros g Hg P. rewrite Nat.add_0_r. rewrite <- (proj2 (P1 p) g Hg P). f_equal. apply U. intros i y Y Q.
        specialize (DJ 0%nat (S i) s y p eq_refl Y). assert (I : List.In p (all_params s)) by (unfold all_params; apply in_flat_map; eauto). specialize (DJ I Q). lia.
      * destruct (IS i x X) as (s' & A & B & C & D & P2). exists s'. split; [exact A|]. split; [exact B|]. split; [exact C|]. split; [exact D|]. intros p.
        split; [apply (P2 p)|]. intros g Hg P. rewrite (proj2 (P2 p) g Hg P). replace (S k + i)%nat with (k + S i)%nat by lia.
        assert (I : List.In p (all_params x)) by (unfold all_params; apply in_flat_map; eauto).
        assert (N : ~ List.In p (all_params s)) by (intros Q; specialize (DJ 0%nat (S i) s x p eq_refl X Q I); lia).
        destruct (proj1 (P1 p) N) as (V1 & _). unfold fresh_of. rewrite V1. reflexivity.
Qed.
End Facts.
