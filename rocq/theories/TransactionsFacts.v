(** Every history of a client of the transactional planner follows one canonical run:
    the run of the planner's outside view (PlannerSpec.v) in which empty shape queues
    are forgotten after every batch. *)
From Verif Require Import Base BaseFacts Rng CompositeSim Sequential SequentialShard SequentialFacts.
From Verif Require Import Planner PlannerObs PlannerSpec PlannerDict PlannerSim PlannerSpecFacts PlannerRun PlannerResume.
From Verif Require Import Transactions TransactionsObs.
Set Implicit Arguments.
Unset Strict Implicit.

(** ** Canonical states *)
Lemma asc_pairs_unique {V} (l m : list (Z * V)) : asc (map fst l) -> asc (map fst m) ->
  (forall x, In x l <-> In x m) -> l = m.
Proof.
  revert m. induction l as [|[k v] l IH]; intros m Hl Hm H.
  - destruct m as [|y m]; auto. destruct (proj2 (H y) (or_introl eq_refl)).
  - destruct m as [|[k' v'] m]; [destruct (proj1 (H (k, v)) (or_introl eq_refl))|].
    cbn [map fst] in *. inversion Hl as [|? ? Hx Hl']; subst. inversion Hm as [|? ? Hy Hm']; subst.
    assert (E : (k, v) = (k', v')).
    { destruct (proj1 (H (k, v)) (or_introl eq_refl)) as [E|E]; auto.
      destruct (proj2 (H (k', v')) (or_introl eq_refl)) as [E'|E']; auto.
      apply (in_map fst) in E, E'. cbn in E, E'. specialize (Hx _ E'). specialize (Hy _ E). lia. }
    injection E as <- <-. f_equal. apply IH; auto. intros [z w]. split; intros Hz.
    + destruct (proj1 (H (z, w)) (or_intror Hz)) as [E|E]; auto. injection E as <- <-.
      apply (in_map fst) in Hz. specialize (Hx _ Hz). cbn in Hx. lia.
    + destruct (proj2 (H (z, w)) (or_intror Hz)) as [E|E]; auto. injection E as <- <-.
      apply (in_map fst) in Hz. specialize (Hy _ Hz). cbn in Hy. lia.
Qed.

Lemma sort_pairs_keys {V} (q : list (Z * V)) :
  map fst (sort_by (fun a b => fst a <? fst b) q) = sort_by Z.ltb (map fst q).
Proof.
  induction q as [|[k v] q IH]; [reflexivity|]. cbn [sort_by fold_right map fst].
  unfold sort_by in *. cbn [fold_right map fst]. rewrite <- IH.
  generalize (fold_right (insert_by (fun a b : Z * V => fst a <? fst b)) [] q) as l. intros l.
  induction l as [|[k' v'] l IHl]; [reflexivity|]. cbn [insert_by map fst].
  destruct (k' <? k); cbn [map fst]; [f_equal; exact IHl|reflexivity].
Qed.

Lemma asc_filter {V} (f : Z * V -> bool) l : asc (map fst l) -> asc (map fst (filter f l)).
Proof.
  induction l as [|[k v] l IH]; cbn; intros H; [constructor|]. inversion H as [|? ? Hx Hl]; subst.
  destruct (f (k, v)); cbn; auto. constructor; auto. intros y Hy.
  apply in_map_iff in Hy as (x & <- & Hy). apply filter_In in Hy as [Hy _]. apply Hx. apply in_map. exact Hy.
Qed.

Section Canon.
  Variable A : Type.
  Variable stream : Z -> Z -> res (list A).
  Variable shape : A -> Z.
  Variable cf : pconfig.
  Hypothesis Hcf : config_ok cf.
  Hypothesis Huniform : forall code ep cy l, pc_uniform cf = Some code -> stream ep cy = Ok l ->
    Forall (fun e => shape e = code) l.

  Lemma saved_asc (q : list (Z * list A)) : NoDup (map fst q) -> asc (map fst (saved_queues q)).
  Proof. intros H. unfold saved_queues. apply asc_filter. rewrite sort_pairs_keys. apply asc_sort. exact H. Qed.

  Lemma saved_queue (q : list (Z * list A)) k v : NoDup (map fst q) ->
    (In (k, v) (saved_queues q) <-> queue q k = v /\ v <> []).
  Proof.
    intros HN. rewrite saved_In. cbn [snd]. unfold queue. split.
    - intros [H1 H2]. rewrite (dict_In_get HN H1). split; auto. intros ->. discriminate.
    - destruct (dict_get q k) as [l|] eqn:E; [|intros [<- H]; congruence].
      intros [-> H]. split; [apply dict_get_In; exact E|]. destruct v; [congruence|reflexivity].
  Qed.

  Lemma saved_unique (q1 q2 : list (Z * list A)) : NoDup (map fst q1) -> NoDup (map fst q2) ->
    (forall t, queue q1 t = queue q2 t) -> saved_queues q1 = saved_queues q2.
  Proof.
    intros H1 H2 H. apply asc_pairs_unique; try apply saved_asc; auto.
    intros [k v]. rewrite !saved_queue by auto. rewrite H. tauto.
  Qed.

  Lemma asim_clean (a b : astate A) : asim cf a b -> clean a = clean b.
  Proof.
    intros []. unfold clean, a_set. rewrite as_epoch, as_index, as_cycle, as_size, as_items, as_finished. f_equal.
    apply saved_unique; apply as_queues.
  Qed.

  Lemma clean_clean (a : astate A) : a_inv shape cf a -> clean (clean a) = clean a.
  Proof. intros H. symmetry. apply asim_clean. eapply clean_sim; eauto. Qed.

  Lemma clean_start ep (a : astate A) : a_start stream ep = Ok a -> clean a = a.
  Proof.
    unfold a_start. intros H. apply guard_Ok in H as [_ H]. inv_bind H. injection H as <-. reflexivity.
  Qed.

  (** The outside view is a function too. *)
  Lemma uniform_cycles : forall c c' a acc e, (c <= c')%nat ->
    le_fuel (a_uniform stream cf c a acc e) (a_uniform stream cf c' a acc e).
  Proof.
    clear Hcf Huniform. induction c as [|c IH]; intros [|c'] a acc e Hle; cbn [a_uniform]; try apply le_fuel_refl; try lia;
      destruct (_ <=? _)%nat; try apply le_fuel_refl; destruct (may_restart cf (a_index a)); try apply le_fuel_refl.
    - left. reflexivity.
    - apply le_fuel_bind; [apply le_fuel_refl|]. intros [a2 e2]. apply IH. lia.
  Qed.

  Lemma mixed_cycles : forall c c' a e, (c <= c')%nat ->
    le_fuel (a_mixed stream shape cf c a e) (a_mixed stream shape cf c' a e).
  Proof.
    clear Hcf Huniform. induction c as [|c IH]; intros [|c'] a e Hle; cbn [a_mixed]; try apply le_fuel_refl; try lia;
      (apply le_fuel_bind; [apply le_fuel_refl|]); intros [[q full] rest]; destruct full; try apply le_fuel_refl;
      destruct (may_restart cf (a_index a)); try apply le_fuel_refl.
    - left. reflexivity.
    - apply le_fuel_bind; [apply le_fuel_refl|]. intros [a2 e2]. apply IH. lia.
  Qed.

  Lemma a_next_det c c' a r r' : a_next stream shape cf c a = Ok r -> a_next stream shape cf c' a = Ok r' -> r = r'.
  Proof.
    clear Hcf Huniform. assert (Hm : forall c c', (c <= c')%nat -> le_fuel (a_next stream shape cf c a) (a_next stream shape cf c' a)).
    { intros d d' Hle. unfold a_next. destruct (a_finished a); [apply le_fuel_refl|].
      destruct (pc_uniform cf); [apply uniform_cycles; auto|apply mixed_cycles; auto]. }
    intros H H'. destruct (Nat.le_ge_cases c c') as [L|L]; destruct (Hm _ _ L) as [E|E]; congruence.
  Qed.

  Lemma a_next_clean c a ob a' : a_inv shape cf a -> a_next stream shape cf c a = Ok (ob, a') ->
    exists a2, a_next stream shape cf c (clean a) = Ok (ob, a2) /\ clean a2 = clean a'.
  Proof.
    intros HI H. destruct (next_asim Hcf Huniform (clean_sim HI) HI H) as (a2 & E & HS).
    exists a2. split; auto. symmetry. apply asim_clean. exact HS.
  Qed.

  Lemma a_next_inv c a ob a' : a_inv shape cf a -> a_next stream shape cf c a = Ok (ob, a') -> a_inv shape cf a'.
  Proof.
    intros HI H. destruct (a_finished a) eqn:E.
    - destruct (a_next_finished E H) as [_ ->]. exact HI.
    - eapply a_next_spec; eauto.
  Qed.

  Lemma a_next_batch_facts c a b a' : a_inv shape cf a -> a_next stream shape cf c a = Ok (Some b, a') ->
    a_finished a = false /\ b_epoch b = a_epoch a /\ b_index b = a_index a /\ a_epoch a' = a_epoch a
    /\ a_index a' = a_index a + 1 /\ b_last b = a_finished a'.
  Proof.
    intros HI H. destruct (a_finished a) eqn:E; [destruct (a_next_finished E H); discriminate|].
    destruct (a_next_spec Hcf Huniform HI E H) as [(E1 & q' & rest & G1 & G2 & G3 & G4 & G5 & G6 & G7 & G8) _].
    destruct G8 as (K1 & K2 & K3 & K4 & K5 & _). conj; auto.
  Qed.

  Lemma a_next_end_facts c a a' : a_inv shape cf a -> a_next stream shape cf c a = Ok (None, a') ->
    a_finished a' = true /\ a_epoch a' = a_epoch a.
  Proof.
    intros HI H. destruct (a_finished a) eqn:E.
    - destruct (a_next_finished E H) as [_ ->]. auto.
    - destruct (a_next_spec Hcf Huniform HI E H) as [(E1 & q' & rest & G1 & G2 & G3 & G4 & G5 & G6 & G7 & G8) _].
      destruct G8 as (K1 & _). auto.
  Qed.

  Definition over (a : astate A) : Prop :=
    a_finished a = true \/ exists c a', a_next stream shape cf c a = Ok (None, a').

  Variable O : Type.
  Variable prep : batch A -> bytes -> res (O * bytes).

  Inductive crun : astate A * bytes -> list (batch A * O) -> astate A * bytes -> Prop :=
  | crun_nil z : crun z [] z
  | crun_batch c a bl b a1 out bl1 e es z :
      a_next stream shape cf c a = Ok (Some b, a1) -> prep b bl = Ok (out, bl1) ->
      content e = content (b, out) -> (b_last (fst e) = true -> over (clean a1)) ->
      crun (clean a1, bl1) es z -> crun (a, bl) (e :: es) z
  | crun_end c a bl a1 es z :
      a_finished a = false -> a_next stream shape cf c a = Ok (None, a1) ->
      crun (clean a1, bl) es z -> crun (a, bl) es z
  | crun_epoch a bl a1 es z :
      a_finished a = true -> a_start stream (a_epoch a + 1) = Ok a1 ->
      crun (a1, bl) es z -> crun (a, bl) es z.

  Lemma crun_app z es z1 es' z2 : crun z es z1 -> crun z1 es' z2 -> crun z (es ++ es') z2.
  Proof.
    induction 1; intros H'; cbn [app]; auto.
    - eapply crun_batch; eauto.
    - eapply crun_end; eauto.
    - eapply crun_epoch; eauto.
  Qed.

  (** Two runs from one state agree as far as both go. *)
  Lemma crun_agree z es z1 : crun z es z1 -> forall es' z2, crun z es' z2 ->
    (exists r, map content es' = map content es ++ r) \/ (exists r, map content es = map content es' ++ r).
  Proof.
    induction 1 as [z|c a bl b a1 out bl1 e es z H1 H2 H3 H4 H5 IH|c a bl a1 es z H1 H2 H3 IH|a bl a1 es z H1 H2 H3 IH];
      intros es' z2 H'.
    - left. exists (map content es'). reflexivity.
    - inversion H' as [z0 E1 E2|c' a' bl' b' a1' out' bl1' e' es0 z0 K1 K2 K3 K4 K5 E1 E2 E3
        |c' a' bl' a1' es0 z0 K1 K2 K3 E1 E2 E3|a' bl' a1' es0 z0 K1 K2 K3 E1 E2 E3]; subst.
      + right. exists (map content (e :: es)). reflexivity.
      + pose proof (a_next_det H1 K1) as E. injection E as <- <-. rewrite H2 in K2. injection K2 as <- <-.
        cbn [map]. rewrite H3, K3. destruct (IH _ _ K5) as [[r ->]|[r ->]]; [left|right]; exists r; reflexivity.
      + pose proof (a_next_det H1 K2) as E. discriminate.
      + unfold a_next in H1. rewrite K1 in H1. discriminate.
    - inversion H' as [z0 E1 E2|c' a' bl' b' a1' out' bl1' e' es0 z0 K1 K2 K3 K4 K5 E1 E2 E3
        |c' a' bl' a1' es0 z0 K1 K2 K3 E1 E2 E3|a' bl' a1' es0 z0 K1 K2 K3 E1 E2 E3]; subst.
      + right. exists (map content es). reflexivity.
      + pose proof (a_next_det H2 K1) as E. discriminate.
      + pose proof (a_next_det H2 K2) as E. injection E as <-. eauto.
      + congruence.
    - inversion H' as [z0 E1 E2|c' a' bl' b' a1' out' bl1' e' es0 z0 K1 K2 K3 K4 K5 E1 E2 E3
        |c' a' bl' a1' es0 z0 K1 K2 K3 E1 E2 E3|a' bl' a1' es0 z0 K1 K2 K3 E1 E2 E3]; subst.
      + right. exists (map content es). reflexivity.
      + unfold a_next in K1. rewrite H1 in K1. discriminate.
      + congruence.
      + rewrite H2 in K2. injection K2 as <-. eauto.
  Qed.

  (** Numbering: batches follow each other within an epoch; a later epoch starts at 0. *)
  Definition place (e : batch A * O) : Z * Z := (b_epoch (fst e), b_index (fst e)).
  (** [nxt] comes directly after (epoch, index) = [cur]; after a batch marked last
      only a new epoch. *)
  Inductive numbered : bool -> Z * Z -> list (batch A * O) -> Prop :=
  | nb_nil l ep : numbered l ep []
  | nb_same ep e es : place e = ep -> numbered (b_last (fst e)) (fst ep, snd ep + 1) es -> numbered false ep (e :: es)
  | nb_later l ep e es : fst ep < b_epoch (fst e) -> b_index (fst e) = 0 ->
      numbered (b_last (fst e)) (b_epoch (fst e), 1) es -> numbered l ep (e :: es).

  Lemma numbered_weak ep es l : numbered true ep es -> numbered l ep es.
  Proof. intros H. inversion H; subst; constructor; auto. Qed.

  Lemma numbered_lower l l' ep ep' i es : ep' < ep -> numbered l (ep, 0) es -> numbered l' (ep', i) es.
  Proof.
    intros Hlt H. inversion H; subst; cbn in *.
    - constructor.
    - apply nb_later; cbn; unfold place in *; try lia.
      + assert (b_epoch (fst e) = ep) by congruence. lia.
      + congruence.
      + assert (b_epoch (fst e) = ep) as -> by congruence. exact H1.
    - apply nb_later; cbn; auto. lia.
  Qed.

  Lemma crun_numbered z es z1 : crun z es z1 -> a_inv shape cf (fst z) ->
    numbered false (a_epoch (fst z), a_index (fst z)) es
    /\ (over (fst z) -> numbered true (a_epoch (fst z), a_index (fst z)) es).
  Proof.
    assert (Hc : forall a, a_inv shape cf a -> a_inv shape cf (clean a)) by (intros; apply clean_inv; auto).
    induction 1 as [z|c a bl b a1 out bl1 e es z H1 H2 H3 H4 H5 IH|c a bl a1 es z H1 H2 H3 IH|a bl a1 es z H1 H2 H3 IH];
      cbn [fst snd] in *; intros HI.
    - split; constructor.
    - destruct (a_next_batch_facts HI H1) as (F0 & F1 & F2 & F3 & F4 & F5).
      destruct (IH (Hc _ (a_next_inv HI H1))) as [I1 I2].
      assert (Ep : place e = (a_epoch a, a_index a)).
      { unfold content in H3. cbn [fst snd] in H3. unfold place. injection H3 as _ _ E3 E4 _. congruence. }
      split.
      + apply nb_same; auto. cbn [fst snd].
        assert (E : (a_epoch (clean a1), a_index (clean a1)) = (a_epoch a, a_index a + 1)) by (cbn; congruence).
        rewrite E in *. destruct (b_last (fst e)); [apply I2; auto|exact I1].
      + intros [Hf|(c' & a' & Hn)]; [congruence|]. pose proof (a_next_det H1 Hn). discriminate.
    - destruct (IH (Hc _ (a_next_inv HI H2))) as [_ I2]. destruct (a_next_end_facts HI H2) as [F1 F2].
      assert (I3 : numbered true (a_epoch (clean a1), a_index (clean a1)) es) by (apply I2; left; exact F1).
      assert (I4 : numbered true (a_epoch a, a_index a) es).
      { cbn in I3. rewrite F2 in I3. inversion I3; subst; [constructor|]. apply nb_later; auto. }
      split; [apply numbered_weak|]; auto.
    - pose proof (a_start_inv Hcf Huniform H2) as HI1. destruct (IH HI1) as [I1 _].
      assert (E : a_epoch a1 = a_epoch a + 1 /\ a_index a1 = 0).
      { unfold a_start in H2. apply guard_Ok in H2 as [_ H2]. inv_bind H2. injection H2 as <-. auto. }
      destruct E as [E1 E2]. rewrite E1, E2 in I1. split; intros; eapply numbered_lower; eauto; lia.
  Qed.
End Canon.

(** ** Clients *)
Section Client.
  Variables X A T O : Type.
  Variable fd : feed X A T.
  Variable stream : Z -> Z -> res (list A).
  Variable R : Z -> Z -> status -> nat -> X -> list A -> Prop.
  Variable shape : A -> Z.
  Variable cf : pconfig.
  Hypothesis HF : feeds fd stream R.
  Hypothesis HS : resumes fd R.
  Hypothesis Hcf : config_ok cf.
  Hypothesis Huniform : forall code ep cy l, pc_uniform cf = Some code -> stream ep cy = Ok l ->
    Forall (fun e => shape e = code) l.
  Hypothesis Hfuel : forall ep cy, 0 <= ep -> 0 <= cy -> stream ep cy <> Err OutOfFuel.
  Variable comp : option (composer A O).
  Variable initial_digest : Z -> bytes -> bytes.
  Variable token_digest : bytes -> batch A -> bytes -> bytes.
  Variable state_eqb : pstate A T -> pstate A T -> bool.
  Variable decode : batch A -> res O.

  Notation Rel := (Rel stream R).
  Notation a_next := (a_next stream shape cf).

  Definition prep (b : batch A) (bl : bytes) : res (O * bytes) :=
    data <- decode b ;;
    match comp with None => Ok (data, bl) | Some c => cp_prepare c b data bl end.

  Notation crun := (crun stream shape cf prep).

  Record ok (a : astate A) : Prop := {
    ok_inv : a_inv shape cf a;
    ok_stream : exists l0, stream (a_epoch a) 0 = Ok l0
  }.

  Lemma ok_clean a : ok a -> ok (clean a).
  Proof. intros [H1 H2]. constructor; [apply clean_inv; auto|exact H2]. Qed.

  Lemma ok_next c a ob a' : ok a -> a_next c a = Ok (ob, a') -> ok a'.
  Proof.
    intros [H1 H2] H. constructor; [eapply a_next_inv; eauto|].
    assert (a_epoch a' = a_epoch a) as ->; [|exact H2]. destruct ob as [b|].
    - apply (a_next_batch_facts Hcf Huniform H1 H).
    - apply (a_next_end_facts Hcf Huniform H1 H).
  Qed.

  Lemma ok_start ep a : a_start stream ep = Ok a -> ok a.
  Proof.
    intros H. constructor; [eapply a_start_inv; eauto|].
    unfold a_start in H. apply guard_Ok in H as [_ H]. inv_bind H. injection H as <-. cbn. eauto.
  Qed.

  Record loads (s : pstate A T) (c : astate A) : Prop := {
    ld_restore : exists p, planner_restore fd shape cf s = Ok p /\ Rel p c;
    ld_epoch : ps_epoch s = a_epoch c;
    ld_index : ps_index s = a_index c
  }.

  Lemma snapshot_loads p a : Rel p a -> ok a -> exists s, planner_state fd cf p = Ok s /\ loads s (clean a).
  Proof.
    intros HR [HI (l0 & H0)]. destruct (reload_sim HF HS Huniform Hfuel HR HI H0) as (s & p' & E1 & E2 & E3).
    exists s. split; auto. constructor; [eauto| |].
    - unfold planner_state in E1. inv_bind E1. injection E1 as <-. apply HR.
    - unfold planner_state in E1. inv_bind E1. injection E1 as <-. apply HR.
  Qed.

  (** One outstanding token leads from one planner state to the next. *)
  Record tok_ok (a : astate A) (bl d : bytes) (s : pstate A T) (x : token A T * O)
      (a' : astate A) (bl' d' : bytes) (s' : pstate A T) : Prop := {
    to_before : tk_before_state (fst x) = Some s /\ tk_before_digest (fst x) = d /\ tk_before_blob (fst x) = bl
      /\ tk_epoch (fst x) = a_epoch a /\ tk_index (fst x) = a_index a;
    to_after : tk_after_state (fst x) = Some s' /\ tk_after_digest (fst x) = d' /\ tk_after_blob (fst x) = bl';
    to_step : exists c b a1, a_next c a = Ok (Some b, a1) /\ prep b bl = Ok (snd x, bl')
      /\ content (shown_of x) = content (b, snd x)
      /\ (b_last (tk_batch (fst x)) = true -> over stream shape cf a1)
      /\ (a' = a1 \/ a_finished a1 = false /\ exists c', a_next c' a1 = Ok (None, a'));
    to_loads : loads s' (clean a')
  }.

  Inductive chain : astate A -> bytes -> bytes -> pstate A T -> list (token A T * O) ->
      astate A -> bytes -> bytes -> pstate A T -> Prop :=
  | chain_nil a bl d s : chain a bl d s [] a bl d s
  | chain_cons a bl d s x a1 bl1 d1 s1 xs a2 bl2 d2 s2 :
      tok_ok a bl d s x a1 bl1 d1 s1 -> chain a1 bl1 d1 s1 xs a2 bl2 d2 s2 ->
      chain a bl d s (x :: xs) a2 bl2 d2 s2.

  Lemma chain_app a bl d s xs a1 bl1 d1 s1 ys a2 bl2 d2 s2 :
    chain a bl d s xs a1 bl1 d1 s1 -> chain a1 bl1 d1 s1 ys a2 bl2 d2 s2 ->
    chain a bl d s (xs ++ ys) a2 bl2 d2 s2.
  Proof. induction 1; cbn [app]; intros; auto. econstructor; eauto. Qed.

  Lemma chain_split xs : forall a bl d s ys a2 bl2 d2 s2, chain a bl d s (xs ++ ys) a2 bl2 d2 s2 ->
    exists a1 bl1 d1 s1, chain a bl d s xs a1 bl1 d1 s1 /\ chain a1 bl1 d1 s1 ys a2 bl2 d2 s2.
  Proof.
    induction xs as [|x xs IH]; cbn [app]; intros a bl d s ys a2 bl2 d2 s2 H.
    - do 4 eexists. split; [constructor|exact H].
    - inversion H; subst. match goal with HH : chain _ _ _ _ (xs ++ ys) _ _ _ _ |- _ => destruct (IH _ _ _ _ _ _ _ _ _ HH) as (? & ? & ? & ? & K1 & K2) end.
      do 4 eexists. split; [econstructor; eauto|exact K2].
  Qed.

  Lemma tok_ok_next a bl d s x a' bl' d' s' : tok_ok a bl d s x a' bl' d' s' -> ok a -> ok a'.
  Proof.
    intros [_ _ (c & b & a1 & H1 & _ & _ & _ & H5) _] Ha. pose proof (ok_next Ha H1) as Ha1.
    destruct H5 as [-> |[_ (c' & H5)]]; auto. eapply ok_next; eauto.
  Qed.

  Lemma chain_ok a bl d s xs a' bl' d' s' : chain a bl d s xs a' bl' d' s' -> ok a -> ok a'.
  Proof. induction 1; auto. intros Ha. apply IHchain. eapply tok_ok_next; eauto. Qed.

  Lemma chain_crun a bl d s xs a' bl' d' s' : chain a bl d s xs a' bl' d' s' -> ok a ->
    crun (clean a, bl) (map (@shown_of _ _ _) xs) (clean a', bl').
  Proof.
    induction 1 as [|a bl d s x a1 bl1 d1 s1 xs a2 bl2 d2 s2 Ht Hc IH]; intros Ha; [constructor|].
    pose proof (tok_ok_next Ht Ha) as Ha1. specialize (IH Ha1). destruct Ht as [_ _ (c & b & am & H1 & H2 & H3 & H4 & H5) _].
    destruct (a_next_clean Hcf Huniform (ok_inv Ha) H1) as (am2 & E1 & E2).
    pose proof (ok_next Ha H1) as Ham. cbn [map].
    eapply crun_batch; eauto.
    - intros Hl. rewrite E2. destruct (H4 Hl) as [Hf|(c' & a' & Hn)]; [left; exact Hf|right].
      destruct (a_next_clean Hcf Huniform (ok_inv Ham) Hn) as (a'' & Hn' & _). eauto.
    - rewrite E2. destruct H5 as [-> |[Hf (c' & H5)]]; auto.
      destruct (a_next_clean Hcf Huniform (ok_inv Ham) H5) as (a3 & E3 & E4).
      eapply crun_end; [exact Hf|exact E3|]. rewrite E4. exact IH.
  Qed.

  (** The current planner is at [ay], or has seen the end of the epoch from there. *)
  Definition reaches (ay acur : astate A) : Prop :=
    acur = ay \/ a_finished ay = false /\ exists c, a_next c ay = Ok (None, acur).

  Record cinv (z0 : astate A * bytes) (c : client X A T O) : Prop := {
    ci_inv : exists a0 bl d s ay bly dy sy,
      t_committed_state (cl_txn c) = Some s /\ t_committed_blob (cl_txn c) = bl /\ t_committed_digest (cl_txn c) = d
      /\ ok a0 /\ loads s (clean a0)
      /\ crun z0 (cl_done c) (clean a0, bl)
      /\ chain a0 bl d s (cl_pending c) ay bly dy sy
      /\ (cl_usable c = true ->
           t_yield_state (cl_txn c) = Some sy /\ t_yield_blob (cl_txn c) = bly /\ t_yield_digest (cl_txn c) = dy
           /\ exists acur, Rel (t_pl (cl_txn c)) acur /\ ok acur /\ reaches ay acur)
  }.

  Notation fetch := (fetch fd shape cf comp token_digest decode).

  Lemma fetch_batch fuel t tok out t' ay acur bly dy sy :
    fetch fuel t = Ok (Some (tok, out), t') ->
    t_yield_state t = Some sy -> t_yield_blob t = bly -> t_yield_digest t = dy ->
    ok ay -> Rel (t_pl t) acur -> ok acur -> reaches ay acur ->
    same_commit t t' /\ exists a1 bl1 d1 s1, tok_ok ay bly dy sy (tok, out) a1 bl1 d1 s1
      /\ t_yield_state t' = Some s1 /\ t_yield_blob t' = bl1 /\ t_yield_digest t' = d1
      /\ Rel (t_pl t') a1 /\ ok a1.
  Proof.
    intros H Ys Yb Yd Hay HR Hcur Hr. unfold TransactionsObs.fetch, next_transactional in H.
    inv_bind H. destruct v as [otok t1]. inv_bind Hm. destruct v as [ob p1].
    destruct (next_back HF Hcf Huniform Hfuel HR (ok_inv Hcur) Hm0) as (c & a1 & E1 & HR1).
    destruct ob as [b|]; [|injection Hm as <- <-; discriminate].
    assert (acur = ay) as ->.
    { destruct Hr as [-> |[_ (c' & Hn)]]; auto. destruct (a_next_end_facts Hcf Huniform (ok_inv Hay) Hn) as [Hf _].
      destruct (a_next_finished Hf E1). discriminate. }
    pose proof (ok_next Hay E1) as Ha1. destruct (snapshot_loads HR1 Ha1) as (s1 & Es & Hl).
    unfold snapshot in Hm. rewrite Es in Hm. cbn [bind] in Hm. injection Hm as <- <-.
    destruct (a_next_batch_facts Hcf Huniform (ok_inv Hay) E1) as (F0 & F1 & F2 & F3 & F4 & F5).
    cbn [tk_batch] in H. destruct (decode b) as [data|] eqn:Hd; cbn [bind] in H; [|discriminate].
    destruct (prepare_pipeline comp token_digest _ _ data) as [[[out1 tok1] t2]|] eqn:Hp in H; cbn [bind] in H; [|discriminate].
    injection H as -> -> ->.
    unfold prepare_pipeline in Hp.
    destruct comp as [cp|] eqn:Ec.
    - apply guard_Ok in Hp as [_ Hp]. cbn [tk_batch tk_before_blob] in Hp.
      destruct (cp_prepare cp b data (t_yield_blob t)) as [[out2 blob]|] eqn:Hp2; cbn [bind] in Hp; [|discriminate].
      injection Hp as -> <- <-.
      split; [split; auto|]. exists a1, blob, (token_digest (t_yield_digest t) b blob), s1.
      conj; auto. constructor; cbn [fst snd tk_before_state tk_before_digest tk_before_blob tk_epoch tk_index tk_after_state tk_after_digest tk_after_blob tk_batch].
      + conj; auto; congruence.
      + auto.
      + exists c, b, a1. conj; auto; try reflexivity.
        * unfold prep. rewrite Hd, Ec. cbn [bind]. rewrite <- Yb. exact Hp2.
        * intros Hb. left. congruence.
      + exact Hl.
    - injection Hp as -> <- <-. split; [split; auto|].
      exists a1, bly, (token_digest (t_yield_digest t) b (t_yield_blob t)), s1.
      conj; auto. constructor; cbn [fst snd tk_before_state tk_before_digest tk_before_blob tk_epoch tk_index tk_after_state tk_after_digest tk_after_blob tk_batch].
      + conj; auto; congruence.
      + auto.
      + exists c, b, a1. conj; auto; try reflexivity.
        * unfold prep. rewrite Hd, Ec. reflexivity.
        * intros Hb. left. congruence.
      + exact Hl.
  Qed.

  Lemma fetch_end fuel t t' ay acur :
    fetch fuel t = Ok (None, t') -> ok ay -> Rel (t_pl t) acur -> ok acur -> reaches ay acur ->
    same_commit t t' /\ t_yield_state t' = t_yield_state t /\ t_yield_blob t' = t_yield_blob t
    /\ t_yield_digest t' = t_yield_digest t
    /\ exists acur', Rel (t_pl t') acur' /\ ok acur' /\ reaches ay acur'.
  Proof.
    intros H Hay HR Hcur Hr. unfold TransactionsObs.fetch, next_transactional in H.
    destruct (next_batch fd shape cf fuel (t_pl t)) as [[ob p1]|] eqn:Hn; cbn [bind] in H; [|discriminate].
    destruct (next_back HF Hcf Huniform Hfuel HR (ok_inv Hcur) Hn) as (c & a1 & E1 & HR1).
    destruct ob as [b|].
    { exfalso. destruct (snapshot fd cf true p1); cbn [bind] in H; [|discriminate]. cbn [tk_batch] in H.
      destruct (decode b); cbn [bind] in H; [|discriminate].
      destruct (prepare_pipeline _ _ _ _ _) as [[[? ?] ?]|]; cbn [bind] in H; discriminate. }
    cbn [bind] in H. injection H as <-. cbn. conj; auto; [split; auto|].
    exists a1. conj; auto; [eapply ok_next; eauto|].
    destruct Hr as [-> |[Hf (c' & Hc)]].
    - destruct (a_finished ay) eqn:Ef; [destruct (a_next_finished Ef E1) as [_ ->]; left; reflexivity|right; split; eauto].
    - destruct (a_next_end_facts Hcf Huniform (ok_inv Hay) Hc) as [Hf' _].
      destruct (a_next_finished Hf' E1) as [_ ->]. right. eauto.
  Qed.

  Lemma finalize_step pend tok out tok' t t' a0 bl d s ay bly dy sy acur :
    finalize_terminal fd cf true token_digest t tok = Ok (tok', t') ->
    ok a0 -> chain a0 bl d s (pend ++ [(tok, out)]) ay bly dy sy ->
    t_yield_blob t = bly ->
    Rel (t_pl t) acur -> ok acur -> reaches ay acur ->
    same_commit t t' /\ exists dy' sy', chain a0 bl d s (pend ++ [(tok', out)]) acur bly dy' sy'
      /\ t_yield_state t' = Some sy' /\ t_yield_blob t' = bly /\ t_yield_digest t' = dy'
      /\ Rel (t_pl t') acur.
  Proof.
    intros H H0 Hc Yb HR Hcur Hr. unfold finalize_terminal in H.
    apply guard_Ok in H as [Hfin H]. apply guard_Ok in H as [_ H].
    destruct (snapshot_loads HR Hcur) as (s1 & Es & Hl). unfold snapshot in H. rewrite Es in H. cbn [bind] in H.
    injection H as <- <-. split; [split; auto|].
    destruct (chain_split Hc) as (ap & blp & dp & sp & C1 & C2). inversion C2; subst.
    match goal with K : chain _ _ _ _ [] _ _ _ _ |- _ => inversion K; subst; clear K end.
    match goal with K : tok_ok _ _ _ _ _ _ _ _ _ |- _ => destruct K as [B1 B2 (c & b & a1 & N1 & N2 & N3 & N4 & N5) B4] end.
    cbn [fst snd] in *. destruct B1 as (B11 & B12 & B13 & B14 & B15). destruct B2 as (B21 & B22 & B23).
    rewrite (rl_finished HR) in Hfin.
    eexists _, s1. conj; [|reflexivity|first [exact Yb|reflexivity]|reflexivity|exact HR].
    eapply chain_app; [exact C1|]. econstructor; [|constructor].
    constructor; cbn [fst snd tk_before_state tk_before_digest tk_before_blob tk_epoch tk_index tk_after_state tk_after_digest tk_after_blob tk_batch].
    - conj; auto.
    - conj; auto; congruence.
    - exists c, b, a1. conj; auto.
      + intros _. destruct Hr as [E|[Hf (c' & Hn)]].
        * destruct N5 as [E1|[Hf1 (c1 & N5)]]; [left; congruence|right; eauto].
        * destruct N5 as [E1|[Hf1 (c1 & N5)]]; [right; subst; eauto|right; eauto].
      + destruct Hr as [E|[Hf (c' & Hn)]].
        * subst. exact N5.
        * destruct N5 as [E1|[Hf1 (c1 & N5)]].
          -- subst. right. eauto.
          -- assert (Ha1 : ok a1).
             { eapply ok_next; [|exact N1]. eapply chain_ok; [exact C1|exact H0]. }
             destruct (a_next_end_facts Hcf Huniform (ok_inv Ha1) N5) as [Hf2 _]. congruence.
    - exact Hl.
  Qed.

  Lemma check_chain toks : forall a bl d s am blm dm sm ep n x0 bl' d',
    chain a bl d s toks am blm dm sm -> toks <> [] ->
    check_tokens true comp state_eqb (map fst toks) ep n d bl (Some s) = Ok (d', bl') ->
    d' = dm /\ bl' = blm /\ tk_after_state (last (map fst toks) x0) = Some sm.
  Proof.
    induction toks as [|x toks IH]; intros a bl d s am blm dm sm ep n x0 bl' d' Hc Hne H; [congruence|].
    inversion Hc; subst. cbn [map check_tokens] in H.
    do 4 apply guard_Ok in H as [_ H]. 
    match goal with K : tok_ok _ _ _ _ _ _ _ _ _ |- _ => pose proof (to_after K) as (B21 & B22 & B23) end.
    destruct (match comp with Some c => cp_decode c (tk_after_blob (fst x)) | None => _ end) as [[]|]; cbn [bind] in H; [|discriminate].
    apply guard_Ok in H as [_ H]. rewrite B21, B22, B23 in H.
    match goal with K : chain _ _ _ _ toks _ _ _ _ |- _ => rename K into Hc2 end.
    destruct toks as [|y toks].
    - inversion Hc2; subst. cbn in H. injection H as <- <-. cbn. auto.
    - destruct (IH _ _ _ _ _ _ _ _ _ _ x0 _ _ Hc2 ltac:(discriminate) H) as (E1 & E2 & E3). conj; auto.
  Qed.

  Lemma chain_loads a bl d s toks am blm dm sm : chain a bl d s toks am blm dm sm -> toks <> [] -> loads sm (clean am).
  Proof.
    induction 1 as [|a bl d s x a1 bl1 d1 s1 xs a2 bl2 d2 s2 Ht Hc IH]; [congruence|]. intros _.
    destruct xs as [|y xs]; [inversion Hc; subst; apply Ht|apply IH; discriminate].
  Qed.

  Notation does := (does fd shape cf comp initial_digest token_digest state_eqb decode).

  Lemma does_inv z0 c c' : cinv z0 c -> does c c' -> cinv z0 c'.
  Proof.
    intros [(a0 & bl & d & s & ay & bly & dy & sy & Cs & Cb & Cd & H0 & Hl & Hrun & Hc & Hu)] Hd.
    pose proof (chain_ok Hc H0) as Hay.
    destruct Hd as [fuel t pend done tok out t' H|fuel t pend done t' H|t pend done t' H|t pend tok out done tok' t' H
      |t u now later done cm t' H1 H2|t u pend done t' H|t u pend done sd t' H1 H2|t done t' H]; cbn [cl_txn cl_usable cl_pending cl_done] in *.
    - destruct (Hu eq_refl) as (Ys & Yb & Yd & acur & HR & Hcur & Hr).
      destruct (fetch_batch H Ys Yb Yd Hay HR Hcur Hr) as ((S1 & S2 & S3) & a1 & bl1 & d1 & s1 & K1 & K2 & K3 & K4 & K5 & K6).
      constructor. exists a0, bl, d, s, a1, bl1, d1, s1. cbn. conj; auto; try congruence.
      + eapply chain_app; [exact Hc|]. econstructor; [exact K1|constructor].
      + intros _. conj; auto. exists a1. conj; auto. left. reflexivity.
    - destruct (Hu eq_refl) as (Ys & Yb & Yd & acur & HR & Hcur & Hr).
      destruct (fetch_end H Hay HR Hcur Hr) as ((S1 & S2 & S3) & K2 & K3 & K4 & acur' & K5 & K6 & K7).
      constructor. exists a0, bl, d, s, ay, bly, dy, sy. cbn. conj; auto; try congruence.
      intros _. conj; try congruence. eauto.
    - destruct H as (S1 & S2 & S3). constructor. exists a0, bl, d, s, ay, bly, dy, sy. cbn. conj; auto; try congruence.
    - destruct (Hu eq_refl) as (Ys & Yb & Yd & acur & HR & Hcur & Hr).
      destruct (finalize_step H H0 Hc Yb HR Hcur Hr) as ((S1 & S2 & S3) & dy' & sy' & K1 & K2 & K3 & K4 & K5).
      constructor. exists a0, bl, d, s, acur, bly, dy', sy'. cbn. conj; auto; try congruence.
      intros _. conj; auto. exists acur. conj; auto. left. reflexivity.
    - destruct (chain_split Hc) as (am & blm & dm & sm & C1 & C2).
      assert (Hne : now <> []) by (intros ->; discriminate H1).
      unfold prepare_commit in H1. destruct now as [|x0 now]; [congruence|]. cbn [map] in H1. rewrite Cs in H1.
      destruct (check_tokens true comp state_eqb _ _ _ _ _ _) as [[d' bl']|] eqn:Ek in H1; cbn [bind] in H1; [|discriminate].
      injection H1 as <-. change (fst x0 :: map fst now) with (map fst (x0 :: now)) in *. rewrite Cd, Cb in Ek.
      destruct (check_chain (fst x0) C1 Hne Ek) as (-> & -> & El).
      unfold commit_prepared in H2. apply guard_Ok in H2 as [_ H2]. apply guard_Ok in H2 as [_ H2]. injection H2 as <-.
      constructor. exists am, blm, dm, sm, ay, bly, dy, sy. cbn [cl_txn cl_usable cl_pending cl_done t_committed_state t_committed_blob t_committed_digest pr_after_state pr_after_digest pr_after_blob t_yield_state t_yield_blob t_yield_digest t_pl].
      conj; auto.
      + eapply chain_ok; eauto.
      + eapply chain_loads; eauto.
      + eapply crun_app; [exact Hrun|]. eapply chain_crun; eauto.
    - unfold rollback in H. rewrite Cs in H. cbn [bind] in H.
      destruct (ld_restore Hl) as (p & Er & HR). rewrite Er in H. cbn [bind] in H. injection H as <-.
      constructor. exists (clean a0), bl, d, s, (clean a0), bl, d, s. cbn. conj; auto.
      + apply ok_clean; auto.
      + rewrite (clean_clean (ok_inv H0)). exact Hl.
      + rewrite (clean_clean (ok_inv H0)). exact Hrun.
      + constructor.
      + intros _. conj; auto. exists (clean a0). conj; auto; [apply ok_clean; auto|left; reflexivity].
    - unfold state_dict in H1. cbn in H1. injection H1 as <-. unfold load_state_dict in H2.
      cbn [sd_signature sd_cursor sd_digest sd_blob] in H2. apply guard_Ok in H2 as [_ H2]. rewrite Cs in H2.
      apply guard_Ok in H2 as [_ H2].
      destruct (match comp with Some c => cp_decode c (t_committed_blob t) | None => _ end) as [[]|]; cbn [bind] in H2; [|discriminate].
      destruct (ld_restore Hl) as (p & Er & HR). rewrite Er in H2. cbn [bind] in H2. injection H2 as <-.
      constructor. exists (clean a0), bl, d, s, (clean a0), bl, d, s. cbn. conj; auto.
      + apply ok_clean; auto.
      + rewrite (clean_clean (ok_inv H0)). exact Hl.
      + rewrite (clean_clean (ok_inv H0)). exact Hrun.
      + constructor.
      + intros _. conj; auto. exists (clean a0). conj; auto; [apply ok_clean; auto|left; reflexivity].
    - destruct (Hu eq_refl) as (Ys & Yb & Yd & acur & HR & Hcur & Hr).
      inversion Hc; subst. unfold begin_next_epoch in H. apply guard_Ok in H as [Hf H]. apply guard_Ok in H as [_ H].
      rewrite (rl_finished HR) in Hf. rewrite (rl_epoch HR) in H.
      pose proof (start_sim HF (a_epoch acur + 1)) as Hst.
      destruct (a_start stream (a_epoch acur + 1)) as [a'|] eqn:Ea; [|rewrite Hst in H; discriminate].
      destruct Hst as (p & Ep & HRp). rewrite Ep in H. cbn [bind] in H.
      pose proof (ok_start Ea) as Ha'. destruct (snapshot_loads HRp Ha') as (s' & Es & Hls).
      unfold snapshot in H. rewrite Es in H. cbn [bind] in H. injection H as <-.
      constructor. cbn. eexists a', _, _, s', a', _, _, s'. conj; [reflexivity|reflexivity|reflexivity|auto|auto| |constructor|].
      + rewrite (clean_start Ea). rewrite <- (app_nil_r done). eapply crun_app; [exact Hrun|].
        assert (Hep : crun (clean acur, t_committed_blob t) [] (a', t_committed_blob t)).
        { eapply crun_epoch; [exact Hf|exact Ea|constructor]. }
        destruct Hr as [E|[Hfy (c & Hn)]].
        * subst. exact Hep.
        * destruct (a_next_clean Hcf Huniform (ok_inv H0) Hn) as (a2 & E1 & E2).
          eapply crun_end; [exact Hfy|exact E1|]. rewrite E2. exact Hep.
      + intros _. conj; auto. exists a'. conj; auto. left. reflexivity.
  Qed.

  Definition first_blob : bytes := match comp with Some c => cp_initial c | None => [] end.

  Lemma init_inv t : txn_init fd cf true comp initial_digest = Ok t ->
    exists a, a_start stream 0 = Ok a
      /\ cinv (a, first_blob) {| cl_txn := t; cl_usable := true; cl_pending := []; cl_done := [] |}.
  Proof.
    intros H. unfold txn_init in H. pose proof (start_sim HF 0) as Hst.
    destruct (a_start stream 0) as [a|] eqn:Ea; [|rewrite Hst in H; discriminate].
    destruct Hst as (p & Ep & HRp). rewrite Ep in H. cbn [bind] in H.
    pose proof (ok_start Ea) as Ha. destruct (snapshot_loads HRp Ha) as (s & Es & Hls).
    unfold snapshot in H. rewrite Es in H. cbn [bind] in H. injection H as <-.
    exists a. split; auto. constructor. cbn. eexists a, _, _, s, a, _, _, s.
    conj; [reflexivity|reflexivity|reflexivity|auto|auto| |constructor|].
    - rewrite (clean_start Ea). constructor.
    - intros _. conj; auto. exists a. conj; auto. left. reflexivity.
  Qed.

  Notation history := (history fd shape cf comp initial_digest token_digest state_eqb decode).

  Lemma history_inv c : history c -> exists a, a_start stream 0 = Ok a /\ cinv (a, first_blob) c.
  Proof.
    induction 1 as [t H|c c' H IH Hd].
    - apply init_inv. exact H.
    - destruct IH as (a & E & HI). exists a. split; auto. eapply does_inv; eauto.
  Qed.

  Lemma cinv_crun z0 c : cinv z0 c -> exists z, crun z0 (published c) z.
  Proof.
    intros [(a0 & bl & d & s & ay & bly & dy & sy & Cs & Cb & Cd & H0 & Hl & Hrun & Hc & Hu)].
    eexists. unfold published. eapply crun_app; [exact Hrun|]. eapply chain_crun; eauto.
  Qed.

  Theorem histories_agree c1 c2 : history c1 -> history c2 ->
    (exists r, map content (published c2) = map content (published c1) ++ r)
    \/ (exists r, map content (published c1) = map content (published c2) ++ r).
  Proof.
    intros H1 H2. destruct (history_inv H1) as (a & Ea & I1). destruct (history_inv H2) as (a' & Ea' & I2).
    assert (a' = a) as -> by congruence. destruct (cinv_crun I1) as (z1 & R1). destruct (cinv_crun I2) as (z2 & R2).
    eapply crun_agree; eauto.
  Qed.

  Theorem history_numbered c : history c -> numbered false (0, 0) (published c).
  Proof.
    intros H1. destruct (history_inv H1) as (a & Ea & I1). destruct (cinv_crun I1) as (z1 & R1).
    pose proof (crun_numbered Hcf Huniform R1 (ok_inv (ok_start Ea))) as [Hn _]. cbn [fst] in Hn.
    unfold a_start in Ea. apply guard_Ok in Ea as [_ Ea]. inv_bind Ea. injection Ea as <-. exact Hn.
  Qed.

  (** Fetching the outstanding batches again. *)
  Lemma fetch_again a bl d s x a1 bl1 d1 s1 t s0 a2 : tok_ok a bl d s x a1 bl1 d1 s1 -> ok a ->
    Rel (t_pl t) a2 -> ok a2 -> asim cf a a2 -> t_yield_state t = Some s0 -> t_yield_blob t = bl ->
    exists fuel y t', fetch fuel t = Ok (Some y, t') /\ content (shown_of y) = content (shown_of x)
      /\ (exists a1', (a1' = a1 \/ a_finished a1' = false /\ exists c, a_next c a1' = Ok (None, a1)) /\ ok a1'
          /\ exists a2', Rel (t_pl t') a2' /\ ok a2' /\ asim cf a1' a2')
      /\ (exists s0', t_yield_state t' = Some s0') /\ t_yield_blob t' = bl1 /\ same_commit t t'.
  Proof.
    intros [B1 B2 (c & b & am & N1 & N2 & N3 & N4 & N5) B4] Ha HR Ha2 Hsim Ys Yb.
    destruct (next_asim Hcf Huniform Hsim (ok_inv Ha) N1) as (am2 & E2 & Hsim2).
    pose proof (next_run HF Hcf Huniform c HR (ok_inv Ha2)) as Hn. rewrite E2 in Hn.
    destruct Hn as (F & p1 & Hn & HR1). specialize (Hn F (le_n _)).
    pose proof (ok_next Ha2 E2) as Ham2. destruct (snapshot_loads HR1 Ham2) as (s2 & Es & _).
    exists F. unfold TransactionsObs.fetch, next_transactional. rewrite Hn. cbn [bind]. unfold snapshot. rewrite Es. cbn [bind tk_batch].
    unfold prep in N2. destruct (decode b) as [data|]; cbn [bind] in *; [|discriminate].
    assert (Hlast : exists a1', (a1' = a1 \/ a_finished a1' = false /\ exists c, a_next c a1' = Ok (None, a1)) /\ ok a1'
          /\ exists a2', Rel p1 a2' /\ ok a2' /\ asim cf a1' a2').
    { exists am. split; [destruct N5 as [N5|N5]; [left; congruence|right; exact N5]|].
      split; [eapply ok_next; [exact Ha|exact N1]|]. exists am2. auto. }
    unfold prepare_pipeline. destruct comp as [cp|] eqn:Ec.
    - cbn [tk_after_digest t_yield_digest tk_batch tk_before_blob tk_before_digest]. rewrite zlist_eqb_refl, Yb, N2. cbn [bind].
      eexists _, _. split; [reflexivity|]. split; [rewrite N3; reflexivity|]. split; [exact Hlast|].
      split; [cbn; eauto|]. split; [reflexivity|]. split; auto.
    - injection N2 as E1 E2'. cbn [bind]. eexists _, _. split; [reflexivity|].
      split; [unfold shown_of in *; cbn [fst snd tk_batch] in *; rewrite N3; cbn; congruence|]. split; [exact Hlast|].
      split; [cbn; eauto|]. split; [cbn; congruence|]. split; auto.
  Qed.

  Lemma fetches_again a bl d s xs ay bly dy sy : chain a bl d s xs ay bly dy sy -> ok a ->
    forall t s0 a2, Rel (t_pl t) a2 -> ok a2 -> asim cf a a2 -> t_yield_state t = Some s0 -> t_yield_blob t = bl ->
    exists ys t', fetches fd shape cf comp token_digest decode t ys t'
      /\ map (fun y => content (shown_of y)) ys = map (fun x => content (shown_of x)) xs /\ same_commit t t'.
  Proof.
    induction 1 as [|a bl d s x a1 bl1 d1 s1 xs a2 bl2 d2 s2 Ht Hc IH]; intros Ha t s0 a3 HR Ha3 Hsim Ys Yb.
    - exists [], t. conj; [constructor|reflexivity|split; auto].
    - destruct (fetch_again Ht Ha HR Ha3 Hsim Ys Yb) as (F & y & t1 & E1 & E2 & (a1' & Hl & Ha1' & a4 & HR4 & Ha4 & Hsim4) & (s4 & E3) & E4 & E5).
      pose proof (tok_ok_next Ht Ha) as Ha1. destruct Hl as [-> |[Hf (c & Hn)]].
      + destruct (IH Ha1 t1 s4 a4 HR4 Ha4 Hsim4 E3 E4) as (ys & t' & K1 & K2 & K3).
        exists (y :: ys), t'. conj.
        * econstructor; eauto.
        * cbn [map]. congruence.
        * destruct E5 as (? & ? & ?), K3 as (? & ? & ?). split; [|split]; congruence.
      + assert (xs = []) as ->.
        { inversion Hc as [|? ? ? ? ? ? ? ? ? ? ? ? ? ? Ht2 ? ]; subst; auto.
          destruct Ht2 as [_ _ (c2 & b2 & am2 & N1 & _) _].
          destruct (a_next_end_facts Hcf Huniform (ok_inv Ha1') Hn) as [Hf2 _].
          destruct (a_next_finished Hf2 N1). discriminate. }
        exists [y], t1. conj; [econstructor; [exact E1|constructor]|cbn [map]; congruence|exact E5].
  Qed.

  Theorem rollback_replays c : history c ->
    exists t, rollback fd shape cf true (cl_txn c) = Ok t /\ same_commit (cl_txn c) t
      /\ exists ys t', fetches fd shape cf comp token_digest decode t ys t'
        /\ map (fun y => content (shown_of y)) ys = map (fun x => content (shown_of x)) (cl_pending c).
  Proof.
    intros H. destruct (history_inv H) as (a & Ea & [I1]).
    destruct I1 as (a0 & bl & d & s & ay & bly & dy & sy & Cs & Cb & Cd & H0 & Hl & Hrun & Hc & Hu).
    unfold rollback. rewrite Cs. cbn [bind]. destruct (ld_restore Hl) as (p & Er & HR). rewrite Er. cbn [bind].
    eexists. split; [reflexivity|]. split; [split; auto|].
    edestruct (fetches_again Hc H0) as (ys & t' & K1 & K2 & K3).
    6:{ eexists ys, t'. split; [exact K1|exact K2]. }
    - exact HR.
    - apply ok_clean. exact H0.
    - eapply clean_sim; apply H0.
    - reflexivity.
    - exact Cb.
  Qed.

  (** Only an initial part of the outstanding tokens can be committed. *)
  Lemma chain_place xs : forall a bl d s ay bly dy sy, chain a bl d s xs ay bly dy sy -> ok a ->
    forall i x, nth_error xs i = Some x -> tk_epoch (fst x) = a_epoch a /\ tk_index (fst x) = a_index a + Z.of_nat i.
  Proof.
    induction xs as [|x xs IH]; intros a bl d s ay bly dy sy Hc Ha i y Hy; [destruct i; discriminate|].
    inversion Hc as [|a' bl' d' s' x' a1 bl1 d1 s1 xs' a2 bl2 d2 s2 Ht Hc2]; subst.
    pose proof (tok_ok_next Ht Ha) as Ha1. destruct Ht as [(_ & _ & _ & E4 & E5) _ (c & b & am & N1 & _ & _ & _ & N5) _].
    destruct i as [|i]; cbn [nth_error] in Hy; [injection Hy as <-; split; [auto|lia]|].
    destruct (a_next_batch_facts Hcf Huniform (ok_inv Ha) N1) as (_ & _ & _ & F3 & F4 & _).
    destruct N5 as [-> |[Hf (c' & N5)]].
    - destruct (IH _ _ _ _ _ _ _ _ Hc2 Ha1 _ _ Hy) as [G1 G2]. split; [congruence|lia].
    - exfalso. destruct xs as [|z xs]; [destruct i; discriminate|].
      inversion Hc2 as [|? ? ? ? ? ? ? ? ? ? ? ? ? ? Ht2 ?]; subst.
      destruct Ht2 as [_ _ (c2 & b2 & am2 & K1 & _) _].
      destruct (a_next_end_facts Hcf Huniform (ok_inv (ok_next Ha N1)) N5) as [Hf2 _].
      destruct (a_next_finished Hf2 K1). discriminate.
  Qed.

  Lemma check_places toks : forall ep n d bl s r, check_tokens true comp state_eqb toks ep n d bl s = Ok r ->
    forall i tok, nth_error toks i = Some tok -> tk_epoch tok = ep /\ tk_index tok = n + Z.of_nat i.
  Proof.
    induction toks as [|t toks IH]; intros ep n d bl s r H i tok Hi; [destruct i; discriminate|].
    cbn [check_tokens] in H. apply guard_Ok in H as [_ H]. apply guard_Ok in H as [Hp H].
    do 2 apply guard_Ok in H as [_ H].
    destruct (match comp with Some c => cp_decode c (tk_after_blob t) | None => _ end) as [[]|]; cbn [bind] in H; [|discriminate].
    apply guard_Ok in H as [_ H]. apply andb_true_iff in Hp as [H1 H2]. apply Z.eqb_eq in H1, H2.
    destruct i as [|i]; cbn [nth_error] in Hi; [injection Hi as <-; split; [auto|lia]|].
    destruct (IH _ _ _ _ _ _ H _ _ Hi). split; [auto|lia].
  Qed.

  Lemma prefix_of_nth {V} (l : list V) : forall m, (forall i x, nth_error m i = Some x -> nth_error l i = Some x) ->
    exists r, l = m ++ r.
  Proof.
    clear. induction l as [|x l IH]; intros [|y m] H; try (eexists; reflexivity).
    - specialize (H 0%nat y eq_refl). discriminate.
    - pose proof (H 0%nat y eq_refl) as E. cbn in E. injection E as ->.
      destruct (IH m) as (r & ->); [|exists r; reflexivity]. intros i z Hz. exact (H (S i) z Hz).
  Qed.

  Theorem commit_prefix c toks cm : history c -> incl toks (map fst (cl_pending c)) ->
    prepare_commit true comp state_eqb (cl_txn c) toks = Ok cm ->
    exists now later, cl_pending c = now ++ later /\ toks = map fst now.
  Proof.
    intros H Hi Hc. destruct (history_inv H) as (a & Ea & [I1]).
    destruct I1 as (a0 & bl & d & s & ay & bly & dy & sy & Cs & Cb & Cd & H0 & Hl & Hrun & Hch & Hu).
    unfold prepare_commit in Hc. destruct toks as [|x0 toks]; [discriminate|]. rewrite Cs in Hc.
    destruct (check_tokens true comp state_eqb _ _ _ _ _ _) as [[d' bl']|] eqn:Ek in Hc; cbn [bind] in Hc; [|discriminate].
    pose proof (check_places Ek) as Hp. rewrite (ld_epoch Hl), (ld_index Hl) in Hp. cbn [clean a_epoch a_index] in Hp.
    assert (Hpre : exists r, map fst (cl_pending c) = (x0 :: toks) ++ r).
    { apply prefix_of_nth. intros i x Hx. destruct (Hp _ _ Hx) as [P1 P2].
      pose proof (Hi x (nth_error_In _ _ Hx)) as Hin. apply In_nth_error in Hin as (j & Hj).
      rewrite nth_error_map in Hj. destruct (nth_error (cl_pending c) j) as [y|] eqn:Ey; cbn in Hj; [|discriminate].
      injection Hj as Hj. destruct (chain_place Hch H0 Ey) as [Q1 Q2]. rewrite Hj in Q1, Q2.
      change (a_index (clean a0)) with (a_index a0) in P2. assert (j = i) by lia. subst j. rewrite nth_error_map, Ey. cbn. congruence. }
    destruct Hpre as (r & Hr).
    exists (firstn (List.length (x0 :: toks)) (cl_pending c)), (skipn (List.length (x0 :: toks)) (cl_pending c)).
    rewrite firstn_skipn. split; auto. rewrite <- firstn_map. rewrite Hr, firstn_app, Nat.sub_diag, firstn_all, app_nil_r. reflexivity.
  Qed.

  (** Outstanding batches block the next epoch. *)
  Lemma chain_last xs x : forall a bl d s ay bly dy sy, chain a bl d s (xs ++ [x]) ay bly dy sy -> tk_after_digest (fst x) = dy.
  Proof.
    intros a bl d s ay bly dy sy Hc. destruct (chain_split Hc) as (a1 & bl1 & d1 & s1 & _ & C2).
    inversion C2 as [|? ? ? ? ? ? ? ? ? ? ? ? ? ? Ht Hn]; subst. inversion Hn; subst. apply Ht.
  Qed.

  Theorem next_epoch_needs_commit c pend x t : history c -> cl_usable c = true -> cl_pending c = pend ++ [x] ->
    begin_next_epoch fd cf true initial_digest (cl_txn c) = Ok t ->
    tk_after_digest (fst x) = t_committed_digest (cl_txn c).
  Proof.
    intros H Hus Hp Hb. destruct (history_inv H) as (a & Ea & [I1]).
    destruct I1 as (a0 & bl & d & s & ay & bly & dy & sy & Cs & Cb & Cd & H0 & Hl & Hrun & Hch & Hu).
    destruct (Hu Hus) as (_ & _ & Yd & _). unfold begin_next_epoch in Hb. apply guard_Ok in Hb as [_ Hb].
    apply guard_Ok in Hb as [Hb _]. apply zlist_eqb_eq in Hb. rewrite Hp in Hch.
    rewrite (chain_last Hch). congruence.
  Qed.

  (** Restarting from the saved state gives what rolling back gives. *)
  Theorem restart_is_rollback c s t : history c -> state_dict cf true (cl_txn c) = Ok s ->
    load_state_dict fd shape cf comp s = Ok t -> rollback fd shape cf true (cl_txn c) = Ok t.
  Proof.
    intros H Hs Hl. unfold state_dict in Hs. cbn in Hs. injection Hs as <-. unfold load_state_dict in Hl.
    cbn [sd_signature sd_cursor sd_digest sd_blob] in Hl. apply guard_Ok in Hl as [_ Hl]. unfold rollback.
    destruct (t_committed_state (cl_txn c)) as [cur|]; [|discriminate]. apply guard_Ok in Hl as [_ Hl].
    destruct (match comp with Some c => cp_decode c _ | None => _ end) as [[]|]; cbn [bind] in Hl; [|discriminate].
    cbn. destruct (planner_restore fd shape cf cur); cbn [bind] in *; [|discriminate]. exact Hl.
  Qed.

  (** When every digest has 64 digits and every blob the pipelines write can be read
      back, the saved state of every history loads. *)
  Section Loads.
    Hypothesis Hi : forall ep bl, List.length (initial_digest ep bl) = 64%nat.
    Hypothesis Ht : forall d b bl, List.length (token_digest d b bl) = 64%nat.
    Hypothesis Hb : match comp with
      | Some cp => cp_decode cp (cp_initial cp) = Ok tt
          /\ (forall b o bl o' bl', cp_prepare cp b o bl = Ok (o', bl') -> cp_decode cp bl' = Ok tt)
      | None => True
      end.

    Definition readable (bl : bytes) : Prop :=
      match comp with Some cp => cp_decode cp bl = Ok tt | None => bl = [] end.
    Definition sound (d bl : bytes) : Prop := List.length d = 64%nat /\ readable bl.
    Record csound (c : client X A T O) : Prop := {
      cs_commit : sound (t_committed_digest (cl_txn c)) (t_committed_blob (cl_txn c));
      cs_yield : cl_usable c = true -> sound (t_yield_digest (cl_txn c)) (t_yield_blob (cl_txn c));
      cs_pend : Forall (fun x => sound (tk_after_digest (fst x)) (tk_after_blob (fst x))) (cl_pending c)
    }.

    Lemma check_sound toks : forall ep n d bl s r, sound d bl ->
      Forall (fun t => sound (tk_after_digest t) (tk_after_blob t)) toks ->
      check_tokens true comp state_eqb toks ep n d bl s = Ok r -> sound (fst r) (snd r).
    Proof.
      induction toks as [|t toks IH]; intros ep n d bl s r Hs Hf H; cbn [check_tokens] in H.
      - injection H as <-. exact Hs.
      - do 4 apply guard_Ok in H as [_ H].
        destruct (match comp with Some c => cp_decode c (tk_after_blob t) | None => _ end) as [[]|]; cbn [bind] in H; [|discriminate].
        apply guard_Ok in H as [_ H]. inversion Hf; subst. eapply IH; eauto.
    Qed.

    Lemma does_sound c c' : csound c -> does c c' -> csound c'.
    Proof.
      intros [Q1 Q2 Q3] Hd.
      destruct Hd as [fuel t pend done tok out t' H|fuel t pend done t' H|t pend done t' H|t pend tok out done tok' t' H
        |t u now later done cm t' H1 H2|t u pend done t' H|t u pend done sd t' H1 H2|t done t' H];
        cbn [cl_txn cl_usable cl_pending cl_done] in *.
      - unfold TransactionsObs.fetch, next_transactional in H.
        destruct (next_batch _ _ _ _ _) as [[[b|] p]|]; cbn [bind] in H; try discriminate.
        destruct (snapshot _ _ _ _) as [after|]; cbn [bind] in H; [|discriminate]. cbn [tk_batch] in H.
        destruct (decode b) as [data|]; cbn [bind] in H; [|discriminate].
        destruct (Q2 eq_refl) as [Y1 Y2]. unfold prepare_pipeline in H.
        destruct comp as [cp|] eqn:Ec.
        + cbn [tk_after_digest t_yield_digest tk_batch tk_before_blob] in H. rewrite zlist_eqb_refl in H.
          destruct (cp_prepare cp b data _) as [[o' bl']|] eqn:Ep; cbn [bind] in H; [|discriminate].
          injection H as <- <- <-. destruct Hb as [_ Hb2]. constructor; cbn.
          * exact Q1.
          * intros _. split; [apply Ht|]. unfold readable. rewrite Ec. eapply Hb2. exact Ep.
          * apply Forall_app. split; auto. constructor; [|constructor]. cbn. unfold sound, readable. rewrite Ec.
            split; [apply Ht|eapply Hb2; exact Ep].
        + cbn [bind] in H. injection H as <- <- <-. constructor; cbn.
          * exact Q1.
          * intros _. split; [apply Ht|exact Y2].
          * apply Forall_app. split; auto. constructor; [|constructor]. cbn. split; [apply Ht|exact Y2].
      - unfold TransactionsObs.fetch, next_transactional in H.
        destruct (next_batch _ _ _ _ _) as [[[b|] p]|]; cbn [bind] in H; try discriminate.
        + destruct (snapshot _ _ _ _) as [after|]; cbn [bind] in H; [|discriminate]. cbn [tk_batch] in H.
          destruct (decode b); cbn [bind] in H; [|discriminate].
          destruct (prepare_pipeline _ _ _ _ _) as [[[? ?] ?]|]; cbn [bind] in H; discriminate.
        + injection H as <-. constructor; cbn; auto.
      - destruct H as (E1 & E2 & E3). constructor; cbn; auto; [rewrite E2, E3; exact Q1|discriminate].
      - unfold finalize_terminal in H. do 2 apply guard_Ok in H as [_ H].
        destruct (snapshot _ _ _ _) as [after|]; cbn [bind] in H; [|discriminate]. injection H as <- <-.
        apply Forall_app in Q3 as [Q3 Q4]. inversion Q4 as [|? ? [Q5 Q6] _]; subst. cbn [fst] in *. destruct (Q2 eq_refl).
        constructor; cbn; auto; [intros _; split; [apply Ht|auto]|].
        apply Forall_app. split; auto. constructor; [|constructor]. split; [apply Ht|exact Q6].
      - unfold prepare_commit in H1. destruct (map fst now) as [|x0 ts] eqn:En; [discriminate|].
        destruct (match t_committed_state t with Some s => _ | None => _ end) as [ep n].
        destruct (check_tokens true comp state_eqb _ _ _ _ _ _) as [r|] eqn:Ek in H1; cbn [bind] in H1; [|discriminate].
        destruct r as [d' bl']. injection H1 as <-. unfold commit_prepared in H2.
        do 2 apply guard_Ok in H2 as [_ H2]. injection H2 as <-. apply Forall_app in Q3 as [Q3 Q4].
        constructor; cbn; auto. change d' with (fst (d', bl')) at 1. change bl' with (snd (d', bl')) at 2.
        eapply check_sound; [exact Q1| |exact Ek]. rewrite <- En. rewrite Forall_forall in Q3 |- *.
        intros y Hy. apply in_map_iff in Hy as (z & <- & Hz). apply Q3. exact Hz.
      - unfold rollback in H. cbn in H. destruct (t_committed_state t) as [s|]; [|discriminate].
        destruct (planner_restore _ _ _ _); cbn [bind] in H; [|discriminate]. injection H as <-. constructor; cbn; auto.
      - unfold state_dict in H1. cbn in H1. injection H1 as <-. unfold load_state_dict in H2.
        cbn [sd_signature sd_cursor sd_digest sd_blob] in H2. apply guard_Ok in H2 as [_ H2].
        destruct (t_committed_state t) as [cur|]; [|discriminate]. apply guard_Ok in H2 as [_ H2].
        destruct (match comp with Some c => cp_decode c _ | None => _ end) as [[]|]; cbn [bind] in H2; [|discriminate].
        destruct (planner_restore _ _ _ _); cbn [bind] in H2; [|discriminate]. injection H2 as <-. constructor; cbn; auto.
      - unfold begin_next_epoch in H. do 2 apply guard_Ok in H as [_ H].
        destruct (start_epoch _ _) as [p|]; cbn [bind] in H; [|discriminate].
        destruct (snapshot _ _ _ _) as [s|]; cbn [bind] in H; [|discriminate]. injection H as <-. destruct Q1 as [_ Q1].
        constructor; cbn; auto; [|intros _]; (split; [apply Hi|exact Q1]).
    Qed.

    Theorem restart_loads c : history c ->
      exists s t, state_dict cf true (cl_txn c) = Ok s /\ load_state_dict fd shape cf comp s = Ok t.
    Proof.
      intros H. assert (Hs : csound c).
      { induction H as [t H|c c' H IH Hd]; [|eapply does_sound; eauto].
        unfold txn_init in H. destruct (start_epoch _ _) as [p|]; cbn [bind] in H; [|discriminate].
        destruct (snapshot _ _ _ _) as [s|]; cbn [bind] in H; [|discriminate]. injection H as <-.
        assert (G : readable match comp with Some c => cp_initial c | None => [] end).
        { unfold readable. destruct comp; [apply Hb|reflexivity]. }
        constructor; cbn; auto; [|intros _]; (split; [apply Hi|exact G]). }
      destruct (history_inv H) as (a & Ea & [I1]).
      destruct I1 as (a0 & bl & d & s & ay & bly & dy & sy & Cs & Cb & Cd & H0 & Hl & Hrun & Hch & Hu).
      destruct Hs as [[S1 S2] _ _]. unfold state_dict. eexists. cbn.
      destruct (ld_restore Hl) as (p & Er & _).
      eexists. split; [reflexivity|]. unfold load_state_dict. cbn [sd_signature sd_cursor sd_digest sd_blob].
      rewrite zlist_eqb_refl, Cs, S1. cbn. unfold readable in S2. destruct comp as [cp|].
      - rewrite S2. cbn [bind]. rewrite Er. reflexivity.
      - rewrite S2. cbn. rewrite Er. reflexivity.
    Qed.

    (** Every initial part of the outstanding tokens can be committed. *)
    Hypothesis Heq : forall s, state_eqb s s = true.

    Lemma history_sound c : history c -> csound c.
    Proof.
      intros H. induction H as [t H|c c' H IH Hd]; [|eapply does_sound; eauto].
      unfold txn_init in H. destruct (start_epoch _ _) as [p|]; cbn [bind] in H; [|discriminate].
      destruct (snapshot _ _ _ _) as [s|]; cbn [bind] in H; [|discriminate]. injection H as <-.
      assert (G : readable match comp with Some c => cp_initial c | None => [] end).
      { unfold readable. destruct comp; [apply Hb|reflexivity]. }
      constructor; cbn; auto; [|intros _]; (split; [apply Hi|exact G]).
    Qed.

    Lemma check_passes xs : forall a bl d s ay bly dy sy, chain a bl d s xs ay bly dy sy -> ok a ->
      Forall (fun x => sound (tk_after_digest (fst x)) (tk_after_blob (fst x))) xs ->
      exists r, check_tokens true comp state_eqb (map fst xs) (a_epoch a) (a_index a) d bl (Some s) = Ok r.
    Proof.
      induction xs as [|x xs IH]; intros a bl d s ay bly dy sy Hc Ha Hs; [cbn; eauto|].
      pose proof (fun i y H => proj2 (chain_place Hc Ha (i := i) (x := y) H)) as Hpl2.
      pose proof (fun i y H => proj1 (chain_place Hc Ha (i := i) (x := y) H)) as Hpl1.
      inversion Hc as [|a' bl' d' s' x' a1 bl1 d1 s1 xs' a2 bl2 d2 s2 Ht1 Hc2]; subst.
      inversion Hs as [|? ? [Hx1 Hx2] Hs2]; subst. pose proof (tok_ok_next Ht1 Ha) as Ha1.
      destruct Ht1 as [(E1 & E2 & E3 & E4 & E5) (F1 & F2 & F3) (c & b & am & N1 & _ & _ & _ & N5) _].
      cbn [map check_tokens]. rewrite E1, E2, E3, E4, E5, !zlist_eqb_refl, !Z.eqb_refl. cbn [andb opt_state_eqb].
      rewrite Heq. cbn [negb]. rewrite Hx1.
      assert (Hdec : match comp with Some c => cp_decode c (tk_after_blob (fst x))
        | None => if nonempty (tk_after_blob (fst x)) then Err RuntimeError else Ok tt end = Ok tt).
      { unfold readable in Hx2. destruct comp; [exact Hx2|]. rewrite Hx2. reflexivity. }
      rewrite Hdec. cbn [bind Nat.eqb]. rewrite F1, F2, F3.
      destruct (a_next_batch_facts Hcf Huniform (ok_inv Ha) N1) as (_ & _ & _ & G3 & G4 & _).
      destruct N5 as [-> |[Hf (c' & N5)]].
      - rewrite <- G3, <- G4. eapply IH; eauto.
      - destruct xs as [|y xs]; [cbn; eauto|]. exfalso.
        inversion Hc2 as [|? ? ? ? ? ? ? ? ? ? ? ? ? ? Ht2 ?]; subst.
        destruct Ht2 as [_ _ (c2 & b2 & am2 & K1 & _) _].
        destruct (a_next_end_facts Hcf Huniform (ok_inv (ok_next Ha N1)) N5) as [Hf2 _].
        destruct (a_next_finished Hf2 K1). discriminate.
    Qed.

    Theorem commit_succeeds c now later : history c -> cl_pending c = now ++ later -> now <> [] ->
      exists cm t, prepare_commit true comp state_eqb (cl_txn c) (map fst now) = Ok cm
        /\ commit_prepared true (cl_txn c) cm = Ok t.
    Proof.
      intros H Hp Hne. pose proof (history_sound H) as [_ _ HS3]. rewrite Hp in HS3. apply Forall_app in HS3 as [HS3 _].
      destruct (history_inv H) as (a & Ea & [I1]).
      destruct I1 as (a0 & bl & d & s & ay & bly & dy & sy & Cs & Cb & Cd & H0 & Hl & Hrun & Hch & Hu).
      rewrite Hp in Hch. destruct (chain_split Hch) as (am & blm & dm & sm & C1 & C2).
      destruct (check_passes C1 H0 HS3) as ([d' bl'] & Hk). destruct now as [|x0 now]; [congruence|].
      unfold prepare_commit. cbn [map]. rewrite Cs, Cb, Cd, (ld_epoch Hl), (ld_index Hl).
      change (a_epoch (clean a0)) with (a_epoch a0). change (a_index (clean a0)) with (a_index a0).
      cbn [map] in Hk. rewrite Hk. cbn [bind]. eexists _, _. split; [reflexivity|].
      unfold commit_prepared. cbn [pr_before_digest pr_after_state]. rewrite Cd, zlist_eqb_refl.
      assert (Hl2 : tk_after_state (last (fst x0 :: map fst now) (fst x0)) = Some sm).
      { destruct (check_chain (fst x0) C1 Hne Hk) as (_ & _ & E). exact E. }
      rewrite Hl2. reflexivity.
    Qed.
  End Loads.
End Client.
