(** Facts about the training loop. *)
From Verif Require Import Base BaseFacts TrainLoop TrainLoopSpec.
Set Implicit Arguments. Unset Strict Implicit.

Lemma saves_at_iff c i : saves_at c i <-> save_due c i = true.
Proof.
  unfold saves_at, save_due, multiple, every. rewrite !orb_true_iff, !Z.eqb_eq. destruct (state_save_interval c) as [n|].
  - rewrite Z.eqb_eq. split; [intros [H|[H|(k & E & H)]]; [auto|auto|injection E as ->; auto]|intros [[H|H]|H]; eauto].
  - split; [intros [H|[H|(k & E & H)]]; [auto|auto|discriminate]|intros [[H|H]|H]; [auto|auto|discriminate]].
Qed.
Lemma validates_at_iff c i : validates_at c i <-> val_due c i = true.
Proof. unfold validates_at, val_due, multiple, every. rewrite andb_true_iff, Z.eqb_eq. tauto. Qed.
Lemma state_saved_at_iff c i : state_saved_at c i <-> state_due c false i = true.
Proof.
  unfold state_saved_at, state_due, multiple, every. cbn [orb]. destruct (state_save_interval c) as [n|]; [rewrite Z.eqb_eq; split; [auto|intros H k E; injection E as <-; exact H]|].
  split; [reflexivity|discriminate].
Qed.
Lemma due_not b P : (P <-> b = true) -> b = false -> ~ P.
Proof. intros H E X. apply H in X. congruence. Qed.

Section Facts.
Variables W batch : Type.
Variable batch_at : nat -> batch.
Variable clip : W -> W.
Variable step : Z -> W -> list batch -> W.
Variable observe : Z -> W -> W.
Variables early_finite last_finite : Z -> W -> list batch -> bool.
Variable w0 : W.
Variables (size : Z) (acc : nat).
Hypothesis acc_pos : (0 < acc)%nat.
Variable x : session W.
Notation cfg := (the_cfg x). Notation sky := (the_sky x).
Hypothesis same : same_data size acc x.
Variable Calm : Prop.
Hypothesis calms : Calm -> calm x.
Variable n0 : nat.
Notation st := (st W). Notation op := (op W).
Notation after := (after batch_at clip step observe w0 acc).
Notation batches := (batches batch_at acc).
Notation F := (finite_step batch_at clip step observe early_finite last_finite w0 acc).
Notation exact := (exact batch_at clip step observe w0 size acc).
Notation "a >> b" := (then_ a b) (at level 61, right associativity).

(** ** Pre- and postconditions *)
Definition triple (P : st -> Prop) (a : op) (Q E : st -> Prop) : Prop := forall s, P s -> match a s with (s', true) => Q s' | (s', false) => E s' end.
Lemma t_seq P Q R E a b : triple P a Q E -> triple Q b R E -> triple P (a >> b) R E.
Proof. intros H1 H2 s Hs. unfold then_. specialize (H1 s Hs). destruct (a s) as (s', []); [apply H2; exact H1|exact H1]. Qed.
Lemma t_do (P Q E : st -> Prop) f : (forall s, P s -> Q (f s)) -> triple P (do_ f) Q E.
Proof. intros H s Hs. apply H. exact Hs. Qed.
Lemma t_raise (P E : st -> Prop) b : (b = true -> forall s, P s -> E s) -> triple P (raise_if b) (fun s => P s /\ b = false) E.
Proof. intros H s Hs. unfold raise_if. destruct b; cbn; auto. Qed.
Lemma t_conseq (P P' Q Q' E E' : st -> Prop) a : triple P a Q E -> (forall s, P' s -> P s) -> (forall s, Q s -> Q' s) -> (forall s, E s -> E' s) -> triple P' a Q' E'.
Proof. intros H HP HQ HE s Hs. specialize (H s (HP s Hs)). destruct (a s) as (s', []); auto. Qed.
Lemma t_raise' (P Q E : st -> Prop) b : (b = true -> forall s, P s -> E s) -> (forall s, P s -> Q s) -> triple P (raise_if b) Q E.
Proof. intros H1 H2. eapply t_conseq; [apply t_raise; exact H1|auto| |auto]. cbn. intros s (Hs & _). auto. Qed.

(** ** Where the loop is *)
Definition queue (fl : list bool) (s : st) : Prop :=
  List.length (slots s) = 2%nat /\
  match fl with
  | [] => in_flight s = []
  | [a] => exists k i, in_flight s = [(k, i)] /\ (k < 2)%nat /\ (counter s mod 2 = 1 - k)%nat /\ nth k (slots s) false = a
  | [a; b] => exists k i k' i', in_flight s = [(k, i); (k', i')] /\ (k < 2)%nat /\ (k' = 1 - k)%nat /\ (counter s mod 2 = k)%nat /\ nth k (slots s) false = a /\ nth k' (slots s) false = b
  | _ => False
  end.
Definition sees (i r : Z) (v : W) (c p : nat) (sf : bool) (fl : list bool) (D : list (ckpt W) * option Z * bool) (s : st) : Prop :=
  iteration s = i /\ rows s = r /\ w s = v /\ committed s = c /\ pending s = p /\ safe s = sf /\ (divergent s = false /\ attempt_failed s = false) /\ queue fl s
  /\ (disk s, last_saved s, writer_failed s) = D.
Definition good_disk (d : list (ckpt W)) : Prop := forall c, In c d -> exists n, exact n c /\ (Calm -> forall m, (m < n)%nat -> F m).
(** After n steps exactly. *)
Definition good (n : nat) (s : st) : Prop :=
  iteration s = Z.of_nat n /\ rows s = Z.of_nat n * (size * Z.of_nat acc) /\ w s = after n /\ committed s = (n * acc)%nat.
Definition bad (s : st) : Prop :=
  good_disk (disk s) /\ (safe s = true -> divergent s = false -> exists n, good n s /\ (Calm -> forall m, (m < n)%nat -> F m)).
Definition stored (d : list (ckpt W)) (i : Z) (with_state : bool) : Prop := exists c, In c d /\ at_iteration c = i /\ (with_state = true -> full c = true).
(** An interrupt, and nothing lost. *)
Notation Smooth := (smooth batch_at clip step observe early_finite last_finite w0 acc n0 x).
Definition intact (s : st) : Prop :=
  safe s = true /\ divergent s = false /\ attempt_failed s = false /\ writer_failed s = false /\ (forall i, last_saved s = Some i -> stored (disk s) i true) /\ interrupted x.
Definition worse (s : st) : Prop := bad s /\ (Smooth -> intact s).
Definition quiet (D : list (ckpt W) * option Z * bool) (s : st) : Prop := safe s = false /\ disk s = fst (fst D).
Lemma unsafe_bad s : good_disk (disk s) -> safe s = false -> bad s.
Proof. intros H E. split; [exact H|congruence]. Qed.

Lemma queue_keep fl s s' : queue fl s -> slots s' = slots s -> counter s' = counter s -> in_flight s' = in_flight s -> queue fl s'.
Proof. unfold queue. intros H -> -> ->. exact H. Qed.
Ltac see := intros (Ei & Er & Ew & Ec & Ep & Es & Ed & Eq & Ef).
Ltac nine := refine (conj _ (conj _ (conj _ (conj _ (conj _ (conj _ (conj _ (conj _ _)))))))).
Ltac sees := unfold sees; cbn -[Nat.modulo]; nine; try assumption; try reflexivity; try (eapply queue_keep; [eassumption|reflexivity|reflexivity|reflexivity]).

Lemma sees_quiet i r v c p fl D s : sees i r v c p false fl D s -> quiet D s.
Proof. see. subst D. split; [exact Es|reflexivity]. Qed.
Lemma t_fetch i r v c p fl D b :
  triple (sees i r v c p false fl D) (fetch b) (sees i r v c (S p) false fl D) (fun s => quiet D s /\ b = true).
Proof.
  unfold fetch. eapply t_seq; [apply t_raise' with (Q := sees i r v c p false fl D); [|auto]|].
  - intros Hb s H. split; [eapply sees_quiet; exact H|exact Hb].
  - apply t_do. intros s. see. sees. congruence.
Qed.
Lemma t_more i r v c fl D wx : forall todo n p,
  triple (sees i r v c p false fl D) (more_fetches wx n todo) (sees i r v c (p + todo) false fl D) (fun s => quiet D s /\ fetch_fails wx <> None).
Proof.
  induction todo as [|todo IH]; intros n p; cbn [more_fetches].
  - rewrite Nat.add_0_r. apply t_do. auto.
  - eapply t_seq; [eapply t_conseq; [apply t_fetch|intros s H; exact H|intros s H; exact H|]; intros s (H1 & H2); split; [exact H1|destruct (fetch_fails wx); congruence]|]. replace (p + S todo)%nat with (S p + todo)%nat by lia. apply IH.
Qed.
Lemma mod2 n : (n mod 2 = 0 \/ n mod 2 = 1)%nat.
Proof. pose proof (Nat.mod_upper_bound n 2). lia. Qed.
Lemma mod2_S n : (S n mod 2 = 1 - n mod 2)%nat.
Proof. rewrite <- Nat.add_1_r, Nat.add_mod by lia. destruct (mod2 n) as [-> | ->]; reflexivity. Qed.
Lemma slots2 (l : list bool) k b : List.length l = 2%nat -> (k < 2)%nat -> List.length (upd l k b) = 2%nat /\ nth k (upd l k b) false = b /\ nth (1 - k) (upd l k b) false = nth (1 - k) l false.
Proof. intros L K. destruct l as [|a0 [|a1 [|]]]; try discriminate. destruct k as [|[|]]; [| |lia]; cbn; auto. Qed.
Lemma t_enqueue i r v c p fl D b : (List.length fl <= 1)%nat ->
  triple (sees i r v c p false fl D) (enqueue b) (sees i r v c p false (fl ++ [b]) D) (fun _ => False).
Proof.
  intros L. apply t_do. intros s. see. assert (Q : queue (fl ++ [b]) (set_queue (upd (slots s) (counter s mod 2) b) (S (counter s)) (in_flight s ++ [((counter s mod 2)%nat, iteration s)]) s)).
  { destruct Eq as (L2 & Q). assert (K : (counter s mod 2 < 2)%nat) by (destruct (mod2 (counter s)); lia). destruct (slots2 b L2 K) as (S1 & S2 & S3).
    split; [exact S1|]. destruct fl as [|a [|]]; cbn in L; [| |lia]; cbn [app].
    - exists (counter s mod 2)%nat, (iteration s). cbn [in_flight counter slots set_queue]. rewrite Q. split; [reflexivity|]. split; [exact K|]. split; [apply mod2_S|exact S2].
    - destruct Q as (k & j & Qi & Qk & Qc & Qn). exists k, j, (counter s mod 2)%nat, (iteration s). cbn [in_flight counter slots set_queue]. rewrite Qi. split; [reflexivity|]. split; [exact Qk|]. split; [exact Qc|].
      split; [rewrite mod2_S; lia|]. split; [|exact S2]. replace k with (1 - counter s mod 2)%nat at 1 by lia. rewrite S3. replace (1 - counter s mod 2)%nat with k by lia. exact Qn. }
  unfold sees. cbn [iteration rows w committed pending safe divergent disk last_saved writer_failed set_queue]. nine; assumption.
Qed.
(** Draining: everything, or all but the last. *)
Definition judged (all : bool) (fl : list bool) : list bool := if all then fl else firstn (List.length fl - 1) fl.
Definition kept_back (all : bool) (fl : list bool) : list bool := if all then [] else skipn (List.length fl - 1) fl.
Lemma t_drain i r v c p fl D all : (List.length fl <= 2)%nat ->
  triple (sees i r v c p false fl D) (drain all) (fun s => sees i r v c p false (kept_back all fl) D s /\ forallb (fun b => b) (judged all fl) = true)
         (fun s => quiet D s /\ forallb (fun b => b) (judged all fl) = false).
Proof.
  intros L s H. assert (H0 := H). revert H. see. destruct Eq as (L2 & Q). unfold drain.
  destruct fl as [|a [|b [|]]]; cbn in L; [| | |lia].
  - rewrite Q. destruct all; cbn; (split; [exact H0|reflexivity]).
  - destruct Q as (k & j & Qi & Qk & Qc & Qn). rewrite Qi. destruct all; cbn [List.length Nat.sub judge judged kept_back firstn skipn forallb].
    + rewrite Qi. cbn [slots set_queue]. rewrite Qn. destruct a; cbn; [|subst D; cbn; split; [split; [exact Es|reflexivity]|reflexivity]]. split; [|reflexivity]. sees. split; [exact L2|reflexivity].
    + split; [exact H0|reflexivity].
  - destruct Q as (k & j & k' & j' & Qi & Qk & Qk' & Qc & Qn & Qn'). rewrite Qi. destruct all; cbn [List.length Nat.sub judge judged kept_back firstn skipn forallb].
    + rewrite Qi. cbn [slots set_queue in_flight counter]. rewrite Qn. destruct a; [|subst D; split; [split; [exact Es|reflexivity]|reflexivity]]. rewrite Qn'. destruct b; cbn; [|subst D; cbn; split; [split; [exact Es|reflexivity]|reflexivity]]. split; [|reflexivity]. sees. split; [exact L2|reflexivity].
    + rewrite Qi. cbn [slots set_queue]. rewrite Qn. destruct a; [|subst D; cbn; split; [split; [exact Es|reflexivity]|reflexivity]]. split; [|reflexivity]. sees. split; [exact L2|]. exists k', j'. cbn [in_flight counter slots set_queue]. split; [reflexivity|]. split; [lia|]. split; [lia|exact Qn'].
Qed.

Notation train_step := (train_step batch_at clip step early_finite last_finite).
Lemma t_step i r v c fl D wx : (List.length fl <= 1)%nat ->
  let bs := map batch_at (seq c acc) in
  triple (sees i r v c 1 false fl D) (train_step cfg wx)
    (fun s => sees i r (step i (clip v) bs) (c + acc) 0 false (fl ++ if deferred cfg then [last_finite i (clip v) bs] else []) D s
              /\ early_finite i (clip v) bs = true /\ (deferred cfg = false -> last_finite i (clip v) bs = true))
    (fun s => quiet D s /\ ~ (clear wx /\ early_finite i (clip v) bs = true /\ last_finite i (clip v) bs = true)).
Proof.
  intros L bs. destruct same as (_ & Ha). unfold TrainLoop.train_step. rewrite Ha.
  set (E := fun s => quiet D s /\ ~ (clear wx /\ early_finite i (clip v) bs = true /\ last_finite i (clip v) bs = true)).
  eapply t_seq with (Q := sees i r (clip v) c 1 false fl D); [apply t_do; intros s; see; sees; congruence|].
  eapply t_seq with (Q := sees i r (clip v) c acc false fl D).
  { replace acc with (1 + (acc - 1))%nat at 2 by lia. eapply t_conseq; [apply t_more|intros s H; exact H|intros s H; exact H|]. intros s (H1 & H2). split; [exact H1|]. intros ((X & _) & _). exact (H2 X). }
  eapply t_seq with (Q := sees i r (clip v) c acc false fl D).
  { apply t_raise'; [|auto]. intros Hb s H. split; [eapply sees_quiet; exact H|]. intros ((_ & _ & X & _) & _). congruence. }
  assert (T : forall q fl' s, sees i r q c acc false fl' D s -> taken batch_at s = bs /\ iteration s = i /\ w s = q).
  { intros q fl' s. see. unfold taken. rewrite Ec, Ep. auto. }
  eapply t_seq with (Q := fun s => sees i r (clip v) c acc false fl D s /\ early_finite i (clip v) bs = true).
  { intros s H. destruct (T _ _ _ H) as (-> & -> & ->). destruct (early_finite i (clip v) bs) eqn:Ee; [auto|]. revert H. see. split; [subst D; split; [exact Es|reflexivity]|]. intros (_ & X & _). congruence. }
  set (fl' := fl ++ if deferred cfg then [last_finite i (clip v) bs] else []).
  set (ok := early_finite i (clip v) bs = true /\ (deferred cfg = false -> last_finite i (clip v) bs = true)).
  eapply t_seq with (Q := fun s => sees i r (clip v) c acc false fl' D s /\ ok).
  { intros s (H & He). destruct (T _ _ _ H) as (-> & -> & ->). unfold fl', ok. destruct (deferred cfg).
    - pose proof (t_enqueue (last_finite i (clip v) bs) L H) as X. cbn in X. cbn. split; [exact X|]. split; [exact He|discriminate].
    - destruct (last_finite i (clip v) bs) eqn:El; [rewrite app_nil_r; auto|]. revert H. see. split; [subst D; split; [exact Es|reflexivity]|]. intros (_ & _ & X). congruence. }
  eapply t_seq with (Q := fun s => sees i r (clip v) c acc false fl' D s /\ ok).
  { intros s (H & Ho). destruct (commit_fails wx) eqn:Ecf; [|auto]. revert H. see. split; [subst D; split; [exact Es|reflexivity]|]. intros ((_ & _ & _ & X & _) & _). congruence. }
  eapply t_seq with (Q := fun s => sees i r (clip v) c acc false fl' D s /\ ok).
  { apply t_do. intros s (H & Ho). split; [|exact Ho]. revert H. see. sees. }
  eapply t_seq with (Q := fun s => sees i r (step i (clip v) bs) c acc false fl' D s /\ ok).
  { intros s (H & Ho). destruct (T _ _ _ H) as (-> & -> & ->). destruct (change_fails wx) as [junk|] eqn:Ech; revert H; see; [split; [subst D; split; [exact Es|reflexivity]|]; intros ((_ & _ & _ & _ & X & _) & _); congruence|]. split; [|exact Ho]. sees. }
  eapply t_seq with (Q := fun s => sees i r (step i (clip v) bs) (c + acc) 0 false fl' D s /\ ok).
  { apply t_do. intros s (H & Ho). split; [|exact Ho]. revert H. see. sees. congruence. }
  apply t_raise'; [|auto]. intros Hb s (H & _). split; [eapply sees_quiet; exact H|]. intros ((_ & _ & _ & _ & _ & X & _) & _). congruence.
Qed.
Lemma t_metrics i r v c fl D wx : triple (sees i r v c 0 false fl D) (metrics cfg wx) (sees i r v c 0 false fl D) (fun s => quiet D s /\ ~ clear wx).
Proof.
  unfold metrics. eapply t_seq with (Q := sees i r v c 0 false fl D); [apply t_do; intros s; see; sees|].
  intros s H. set (m := sums s). set (s' := if every (log_interval cfg) (iteration s) || every (show_interval cfg) (iteration s) then set_metrics [] (records s) s else s).
  assert (H' : sees i r v c 0 false fl D s') by (unfold s'; destruct (_ || _); [revert H; see; sees|exact H]). clearbody s' m. clear H s.
  revert s' H'. set (E := fun s => quiet D s /\ ~ clear wx). change (triple (sees i r v c 0 false fl D) (when (fun s => every (log_interval cfg) (iteration s)) (raise_if (log_fails wx) >> do_ (fun s => set_metrics (sums s) (records s ++ [(iteration s, m)]) s))
         >> when (fun s => every (show_interval cfg) (iteration s)) (raise_if (show_fails wx))) (sees i r v c 0 false fl D) E).
  assert (Wh : forall b a, triple (sees i r v c 0 false fl D) a (sees i r v c 0 false fl D) E -> triple (sees i r v c 0 false fl D) (when b a) (sees i r v c 0 false fl D) E).
  { intros b a Ha s Hs. unfold when. destruct (b s); [apply Ha; exact Hs|exact Hs]. }
  eapply t_seq; apply Wh.
  - eapply t_seq; [apply t_raise' with (Q := sees i r v c 0 false fl D); [|auto]|].
    + intros Hb s H. split; [eapply sees_quiet; exact H|]. intros (_ & _ & _ & _ & _ & _ & X & _). congruence.
    + apply t_do. intros s. see. sees.
  - apply t_raise'; [|auto]. intros Hb s H. split; [eapply sees_quiet; exact H|]. intros (_ & _ & _ & _ & _ & _ & _ & X & _). congruence.
Qed.

(** ** Saving *)
Notation view n := (sees (Z.of_nat n) (Z.of_nat n * (size * Z.of_nat acc)) (after n) (n * acc)).
Definition saves (force : bool) (n : nat) (D D' : list (ckpt W) * option Z * bool) : Prop :=
  snd D = false /\ incl (fst (fst D)) (fst (fst D')) /\ good_disk (fst (fst D'))
  /\ (snd D' = false -> stored (fst (fst D')) (Z.of_nat n) (state_due cfg force (Z.of_nat n)))
  /\ (snd (fst D') = snd (fst D) \/ (snd (fst D') = Some (Z.of_nat n) /\ state_due cfg force (Z.of_nat n) = true)).
Lemma view_good n p sf fl D s : view n p sf fl D s -> good n s.
Proof. see. split; [exact Ei|]. split; [exact Er|]. split; [exact Ew|exact Ec]. Qed.
Lemma good_exact n s b : good n s -> exact n {| at_iteration := iteration s; at_rows := rows s; at_w := w s; at_cursor := committed s; full := b |}.
Proof. intros (A & B & C & E). split; [exact A|]. split; [exact B|]. split; [exact C|exact E]. Qed.
Lemma good_disk_cons n c d : exact n c -> (Calm -> forall m, (m < n)%nat -> F m) -> good_disk d -> good_disk (c :: d).
Proof. intros E Fi G y [<-|I]; [exists n; auto|apply G; exact I]. Qed.
Lemma t_save force n fl D a : good_disk (fst (fst D)) -> (Calm -> forall m, (m < n)%nat -> F m) ->
  triple (view n 0 true fl D) (save_checkpoint cfg force a) (fun s => exists D', view n 0 true fl D' s /\ saves force n D D' /\ (fine a -> snd D' = false))
    (fun s => bad s /\ ~ (snd D = false /\ fine a)).
Proof.
  intros G Fi s H. assert (Go := view_good H). revert H. see. subst D. cbn [fst snd] in *.
  set (c := {| at_iteration := iteration s; at_rows := rows s; at_w := w s; at_cursor := committed s; full := state_due cfg force (iteration s) |}).
  assert (Xc : exact n c) by (apply good_exact; exact Go).
  assert (Gc : good_disk (c :: disk s)) by (eapply good_disk_cons; eassumption).
  assert (B : forall f l b, bad (set_saved f l b (disk s) s)) by (intros f l b; split; [exact G|]; intros _ _; exists n; split; [exact Go|exact Fi]).
  unfold save_checkpoint. fold c. destruct (writer_failed s) eqn:Ewf; [split; [apply B|]; intros (X & _); discriminate|].
  destruct (state_due cfg force (iteration s) && kept a && existsb (fun c0 => (at_iteration c0 =? iteration s) && full c0) (disk s)) eqn:Ex.
  - apply andb_true_iff in Ex. destruct Ex as (Ex & Fx). apply andb_true_iff in Ex. destruct Ex as (Dx & _). apply existsb_exists in Fx. destruct Fx as (c0 & I0 & E0). apply andb_true_iff in E0. destruct E0 as (E0 & F0). apply Z.eqb_eq in E0.
    destruct (equal a) eqn:Eqa; [|split; [apply B|]; intros (_ & X & _); congruence]. exists (disk s, Some (iteration s), false). split; [sees|]. split; [|reflexivity]. unfold saves. cbn. split; [reflexivity|]. split; [apply incl_refl|]. split; [exact G|].
    split; [intros _; exists c0; split; [exact I0|]; split; [congruence|auto]|]. right. rewrite <- Ei. auto.
  - clear Ex. assert (So : stored (c :: disk s) (Z.of_nat n) (state_due cfg force (Z.of_nat n))) by (exists c; split; [left; reflexivity|]; split; [exact Ei|]; rewrite <- Ei; auto).
    assert (No : (if state_due cfg force (iteration s) then Some (iteration s) else last_saved s) = last_saved s \/ ((if state_due cfg force (iteration s) then Some (iteration s) else last_saved s) = Some (Z.of_nat n) /\ state_due cfg force (Z.of_nat n) = true)).
    { rewrite <- Ei. destruct (state_due cfg force (iteration s)); [right; auto|left; reflexivity]. }
    destruct (outcome a) eqn:Eo.
    + eexists. split; [sees|]. split; [|reflexivity]. unfold saves. cbn. split; [reflexivity|]. split; [intros y I; right; exact I|]. split; [exact Gc|]. split; [auto|exact No].
    + split; [apply B|]. intros (_ & _ & X). congruence.
    + split; [split; [exact Gc|]; intros _ _; exists n; split; [exact Go|exact Fi]|]. intros (_ & _ & X). congruence.
    + eexists. split; [sees|]. split; [|intros (_ & X); congruence]. unfold saves. cbn. split; [reflexivity|]. split; [apply incl_refl|]. split; [exact G|]. split; [discriminate|exact No].
Qed.

(** ** The loop *)
Definition checks (n : nat) (fl : list bool) : Prop :=
  match fl with
  | [] => forall m, (n0 <= m < n)%nat -> F m
  | [a] => deferred cfg = true /\ save_due cfg (Z.of_nat n) = false /\ val_due cfg (Z.of_nat n) = false
           /\ exists m, n = S m /\ (n0 <= m)%nat /\ (forall j, (n0 <= j < m)%nat -> F j) /\ early_finite (Z.of_nat n) (clip (after m)) (batches m) = true
                        /\ a = last_finite (Z.of_nat n) (clip (after m)) (batches m)
  | _ => False
  end.
Definition files (n : nat) (D : list (ckpt W) * option Z * bool) : Prop :=
  snd D = false ->
  (forall i, snd (fst D) = Some i -> stored (fst (fst D)) i true)
  /\ (forall k, (n0 < k <= n)%nat -> save_due cfg (Z.of_nat k) = true -> stored (fst (fst D)) (Z.of_nat k) (state_due cfg false (Z.of_nat k))).
Definition recent (n : nat) (fl : list bool) (l : option Z) : Prop := forall i, l = Some i -> i <= Z.of_nat n /\ (i = Z.of_nat n -> fl = []).
Definition Inv (n : nat) (s : st) : Prop :=
  exists fl D, view n 0 true fl D s /\ good_disk (fst (fst D)) /\ files n D /\ recent n fl (snd (fst D)) /\ checks n fl /\ (n0 <= n)%nat /\ (Smooth -> snd D = false).
Hypothesis before : Calm -> forall m, (m < n0)%nat -> F m.
Lemma stored_incl d d' i b : incl d d' -> stored d i b -> stored d' i b.
Proof. intros I (c & Hc & H). exists c. split; [apply I; exact Hc|exact H]. Qed.
Lemma files_saved force n D D' : files n D -> saves force n D D' -> files n D'.
Proof.
  intros H (E & I & _ & St & L) W'. destruct (H E) as (H1 & H2). split.
  - intros i Hi. destruct L as [L|(L & Fd)].
    + eapply stored_incl; [exact I|]. apply H1. congruence.
    + rewrite L in Hi. injection Hi as <-. specialize (St W'). rewrite Fd in St. exact St.
  - intros k Hk Hd. eapply stored_incl; [exact I|]. apply H2; assumption.
Qed.
Lemma files_next n D D' : files n D -> saves false (S n) D D' -> files (S n) D'.
Proof.
  intros H (E & I & G & St & L) W'. destruct (H E) as (H1 & H2). split.
  - intros i Hi. destruct L as [L|(L & Fd)].
    + eapply stored_incl; [exact I|]. apply H1. congruence.
    + rewrite L in Hi. injection Hi as <-. specialize (St W'). rewrite Fd in St. exact St.
  - intros k Hk Hd. destruct (Nat.eq_dec k (S n)) as [-> |N]; [apply St; exact W'|]. eapply stored_incl; [exact I|]. apply H2; [lia|assumption].
Qed.
Lemma sure n : (forall m, (n0 <= m < n)%nat -> F m) -> Calm -> forall m, (m < n)%nat -> F m.
Proof. intros H C m Hm. destruct (Nat.le_gt_cases n0 m); [apply H; lia|apply before; assumption]. Qed.
Lemma after_S n : after (S n) = observe (Z.of_nat (S n)) (step (Z.of_nat (S n)) (clip (after n)) (batches n)).
Proof. reflexivity. Qed.
(** What is known about the checks when one more step is done and the queue drained. *)
Lemma checks_next n fl (bs := batches n) : checks n fl -> (n0 <= n)%nat ->
  early_finite (Z.of_nat (S n)) (clip (after n)) bs = true -> (deferred cfg = false -> last_finite (Z.of_nat (S n)) (clip (after n)) bs = true) ->
  let all := save_due cfg (Z.of_nat (S n)) || val_due cfg (Z.of_nat (S n)) in
  let fl' := fl ++ if deferred cfg then [last_finite (Z.of_nat (S n)) (clip (after n)) bs] else [] in
  forallb (fun b => b) (judged all fl') = true -> checks (S n) (kept_back all fl') /\ (all = true -> kept_back all fl' = []).
Proof.
  intros Hc Hn He Hl all fl' J.
  assert (X : forall b, last_finite (Z.of_nat (S n)) (clip (after n)) bs = b -> (forall m, (n0 <= m < n)%nat -> F m) -> b = true -> forall m, (n0 <= m < S n)%nat -> F m).
  { intros b Eb Hm -> m Hm'. destruct (Nat.eq_dec m n) as [-> |N]; [split; assumption|apply Hm; lia]. }
  assert (P : forall a, fl = [a] -> a = true -> forall m, (n0 <= m < n)%nat -> F m).
  { intros a -> ->. destruct Hc as (_ & _ & _ & m & -> & H0 & H1 & H2 & H3). intros j Hj. destruct (Nat.eq_dec j m) as [-> |N]; [split; [exact H2|congruence]|apply H1; lia]. }
  destruct (deferred cfg) eqn:Ed.
  - destruct fl as [|a [|]]; [| |destruct Hc]; unfold fl' in *; cbn [app] in *; destruct all eqn:Ea; cbn in *.
    + split; [|reflexivity]. apply andb_true_iff in J. destruct J as (J & _). apply (X _ J Hc eq_refl).
    + split; [|discriminate]. apply orb_false_iff in Ea. destruct Ea as (E1 & E2). split; [exact Ed|]. split; [exact E1|]. split; [exact E2|]. exists n. auto 8.
    + split; [|reflexivity]. apply andb_true_iff in J. destruct J as (Ja & J). apply andb_true_iff in J. destruct J as (J & _). apply (X _ J (P a eq_refl Ja) eq_refl).
    + split; [|discriminate]. apply andb_true_iff in J. destruct J as (Ja & _). apply orb_false_iff in Ea. destruct Ea as (E1 & E2). split; [exact Ed|]. split; [exact E1|]. split; [exact E2|]. exists n. pose proof (P a eq_refl Ja). auto 8.
  - destruct fl as [|a [|]]; [|destruct Hc as (D & _); congruence|destruct Hc]. unfold fl' in *. assert (K : kept_back all ([] ++ []) = []) by (destruct all; reflexivity). rewrite K.
    split; [|reflexivity]. exact (X _ (Hl eq_refl) Hc eq_refl).
Qed.
(** Nothing in the queue is false if all steps are finite. *)
Lemma queue_true n fl : Smooth -> checks n fl -> (fl <> [] -> Z.of_nat n <= iterations cfg) -> forallb (fun b => b) fl = true.
Proof.
  intros (_ & _ & _ & Sm) Hc Hi. destruct fl as [|a [|]]; [reflexivity| |destruct Hc]. destruct Hc as (_ & _ & _ & m & -> & H0 & _ & _ & ->). specialize (Hi ltac:(discriminate)).
  destruct (Sm m H0 ltac:(lia)) as (_ & _ & L). cbn. rewrite andb_true_r. exact L.
Qed.
Lemma forallb_firstn (l : list bool) n : forallb (fun b => b) l = true -> forallb (fun b => b) (firstn n l) = true.
Proof. revert n. induction l as [|b l IH]; intros [|n]; cbn; auto. rewrite !andb_true_iff. intros (A & B). auto. Qed.
Notation turn := (turn batch_at clip step observe early_finite last_finite cfg).
Lemma calm_bad n s fl D : view n 0 true fl D s -> good_disk (fst (fst D)) -> checks n fl -> (n0 <= n)%nat ->
  (Calm -> fl = []) -> bad s.
Proof.
  intros H G Hc Hn Hcalm. assert (Go := view_good H). revert H. see. subst D. split; [exact G|]. intros _ _. exists n. split; [exact Go|].
  intros C. specialize (Hcalm C). subst fl. apply sure; assumption.
Qed.
Lemma view_intact n s fl D : view n 0 true fl D s -> files n D -> snd D = false -> interrupted x -> intact s.
Proof.
  see. intros Hf Wf Hi. destruct (Hf Wf) as (H1 & _). subst D. destruct Ed as (Ed1 & Ed2). split; [exact Es|]. split; [exact Ed1|]. split; [exact Ed2|]. split; [exact Wf|]. split; [exact H1|exact Hi].
Qed.
Lemma t_turn n : Z.of_nat n < iterations cfg -> triple (Inv n) (turn (sky (Z.of_nat n + 1))) (Inv (S n)) worse.
Proof.
  intros Ln s0 (fl & D & H & G & Hf & Hr & Hc & Hn & Hw). revert s0 H. set (wx := sky (Z.of_nat n + 1)).
  change (triple (view n 0 true fl D) (turn wx) (Inv (S n)) worse). unfold TrainLoop.turn.
  set (bs := batches n).
  assert (Sm : Smooth -> clear wx /\ early_finite (Z.of_nat (S n)) (clip (after n)) bs = true /\ last_finite (Z.of_nat (S n)) (clip (after n)) bs = true).
  { intros (_ & _ & _ & X). apply X; assumption. }
  assert (Qb : forall s, quiet D s -> bad s). { intros s (A & B). apply unsafe_bad; [rewrite B; exact G|exact A]. }
  assert (Qw : forall s P, quiet D s -> ~ P -> (Smooth -> P) -> worse s). { intros s P A B C. split; [apply Qb; exact A|]. intros X. destruct (B (C X)). }
  assert (Lf : (List.length fl <= 1)%nat) by (destruct fl as [|a [|]]; [cbn; lia|cbn; lia|destruct Hc]).
  eapply t_seq with (Q := view n 0 true fl D).
  { apply t_raise'; [|auto]. intros Et s H. split.
    - eapply calm_bad; eauto. intros C. destruct fl as [|a [|]]; [reflexivity| |destruct Hc].
      destruct Hc as (Dd & S1 & S2 & _). destruct (calms C Dd) as (_ & K). destruct (K _ (due_not (saves_at_iff _ _) S1) (due_not (validates_at_iff _ _) S2)) as (_ & K2). unfold wx in Et. congruence.
    - intros X. eapply view_intact; eauto. right. right. right. exists (Z.of_nat n + 1). right. exact Et. }
  eapply t_seq with (Q := view n 0 false fl D); [apply t_do; intros s; see; sees|].
  eapply t_seq with (Q := view n 1 false fl D).
  { eapply t_conseq; [apply t_fetch|intros s H; exact H|intros s H; exact H|]. intros s (H1 & H2). apply Qw with (P := fetch_fails wx = None); [exact H1|destruct (fetch_fails wx); [discriminate|discriminate]|]. intros X. apply Sm. exact X. }
  eapply t_seq with (Q := sees (Z.of_nat (S n)) (Z.of_nat n * (size * Z.of_nat acc)) (after n) (n * acc) 1 false fl D); [apply t_do; intros s; see; sees; rewrite Ei; lia|].
  eapply t_seq with (Q := sees (Z.of_nat (S n)) (Z.of_nat n * (size * Z.of_nat acc)) (after n) (n * acc) 1 false fl D).
  { apply t_raise'; [|auto]. intros Hb s H. apply Qw with (P := between_counters wx = false); [eapply sees_quiet; exact H|congruence|]. intros X. apply Sm. exact X. }
  set (r' := Z.of_nat (S n) * (size * Z.of_nat acc)).
  eapply t_seq with (Q := sees (Z.of_nat (S n)) r' (after n) (n * acc) 1 false fl D).
  { apply t_do. destruct same as (Sb & Sa). intros s. see. sees. rewrite Er, Sb, Sa. unfold r'. lia. }
  set (v' := step (Z.of_nat (S n)) (clip (after n)) bs).
  set (fl' := fl ++ if deferred cfg then [last_finite (Z.of_nat (S n)) (clip (after n)) bs] else []).
  set (ok := early_finite (Z.of_nat (S n)) (clip (after n)) bs = true /\ (deferred cfg = false -> last_finite (Z.of_nat (S n)) (clip (after n)) bs = true)).
  eapply t_seq with (Q := fun s => sees (Z.of_nat (S n)) r' v' (S n * acc) 0 false fl' D s /\ ok).
  { intros s H. pose proof (t_step wx Lf H) as T. cbv zeta in T. destruct (train_step cfg wx s) as (s', []).
    - replace (S n * acc)%nat with (n * acc + acc)%nat by lia. exact T.
    - destruct T as ((T1 & T2) & T3). eapply Qw; [|exact T3|exact Sm]. destruct (mutated _); (split; cbn; [exact T1|exact T2]). }
  eapply t_seq with (Q := fun s => sees (Z.of_nat (S n)) r' v' (S n * acc) 0 false fl' D s /\ ok).
  { intros s (H & Ho). pose proof (t_metrics wx H) as T. destruct (metrics cfg wx s) as (s', []); [auto|]. destruct T as (T1 & T2). eapply Qw; [exact T1|exact T2|]. intros X. apply Sm. exact X. }
  set (all := save_due cfg (Z.of_nat (S n)) || val_due cfg (Z.of_nat (S n))).
  assert (Lf' : (List.length fl' <= 2)%nat) by (unfold fl'; rewrite app_length; destruct (deferred cfg); cbn; lia).
  eapply t_seq with (Q := fun s => sees (Z.of_nat (S n)) r' v' (S n * acc) 0 false (kept_back all fl') D s /\ checks (S n) (kept_back all fl') /\ (all = true -> kept_back all fl' = [])).
  { intros s (H & Ho1 & Ho2). assert (Ei : iteration s = Z.of_nat (S n)) by (apply H). rewrite Ei. fold all. pose proof (t_drain all Lf' H) as T. destruct (drain all s) as (s', []).
    - destruct T as (T & J). split; [exact T|]. apply checks_next; assumption.
    - destruct T as (T & J). apply Qw with (P := forallb (fun b => b) (judged all fl') = true); [exact T|congruence|]. intros X.
      assert (A : forallb (fun b => b) fl' = true). { unfold fl'. rewrite forallb_app, (queue_true X Hc) by lia. destruct (deferred cfg); [|reflexivity]. cbn. destruct (Sm X) as (_ & _ & ->). reflexivity. }
      destruct all; [exact A|apply forallb_firstn; exact A]. }
  clear Lf'. generalize (kept_back all fl'). intros fn.
  set (known := checks (S n) fn /\ (all = true -> fn = [])).
  eapply t_seq with (Q := fun s => sees (Z.of_nat (S n)) r' v' (S n * acc) 0 false fn D s /\ known).
  { intros s (H & Ho). unfold when. destruct (val_due cfg (iteration s)); [|split; [exact H|exact Ho]]. unfold raise_if. destruct (val_fails wx) eqn:Ev; cbn; [|split; [exact H|exact Ho]].
    apply Qw with (P := val_fails wx = false); [eapply sees_quiet; exact H|congruence|]. intros X. apply Sm. exact X. }
  eapply t_seq with (Q := fun s => view (S n) 0 false fn D s /\ known).
  { apply t_do. intros s (H & Ho). split; [|exact Ho]. revert H. see. sees. rewrite Ei, Ew. apply after_S. }
  eapply t_seq with (Q := fun s => view (S n) 0 false fn D s /\ known).
  { apply t_raise'; [|auto]. intros Hb s (H & _). apply Qw with (P := profiler_fails wx = false); [eapply sees_quiet; exact H|congruence|]. intros X. apply Sm. exact X. }
  eapply t_seq with (Q := fun s => view (S n) 0 true fn D s /\ known).
  { apply t_do. intros s (H & Ho). split; [|exact Ho]. revert H. see. sees. }
  eapply t_seq with (Q := fun s => view (S n) 0 true fn D s /\ known).
  { apply t_raise'; [|auto]. intros Eg s (H & Hc' & Ha). split.
    - eapply calm_bad; eauto. intros C. destruct fn as [|a [|]]; [reflexivity| |destruct Hc'].
      destruct Hc' as (Dd & S1 & S2 & _). destruct (calms C Dd) as (_ & K). destruct (K _ (due_not (saves_at_iff _ _) S1) (due_not (validates_at_iff _ _) S2)) as (K1 & _). unfold wx in Eg. replace (Z.of_nat n + 1) with (Z.of_nat (S n)) in Eg by lia. congruence.
    - intros X. specialize (Hw X). destruct (Hf Hw) as (H1 & _). destruct D as ((dd & ll) & ww). cbn in Hw, H1. subst ww. revert H. see. injection Ef as Ef1 Ef2 Ewf. destruct Ed as (Ed1 & Ed2).
      split; [exact Es|]. split; [exact Ed1|]. split; [exact Ed2|]. split; [exact Ewf|]. split; [rewrite Ef1, Ef2; exact H1|]. right. right. right. exists (Z.of_nat n + 1). left. exact Eg. }
  intros s (H & Hc' & Ha). assert (Ei : iteration s = Z.of_nat (S n)) by (apply H). unfold when. rewrite Ei. destruct (save_due cfg (Z.of_nat (S n))) eqn:Es.
  - unfold all in Ha. specialize (Ha eq_refl). subst fn. pose proof (@t_save false (S n) [] D (save wx) G (sure Hc') s H) as T. destruct (save_checkpoint cfg false (save wx) s) as (s', []).
    + destruct T as (D' & T & Sv & Fv). exists [], D'. split; [exact T|]. split; [apply Sv|]. split; [eapply files_next; eassumption|]. split; [|split; [exact Hc'|split; [lia|]]].
      * intros i Hi. split; [|reflexivity]. destruct Sv as (_ & _ & _ & _ & [L|(L & _)]); [destruct (Hr i); [congruence|lia]|]. rewrite L in Hi. injection Hi as <-. lia.
      * intros X. apply Fv. apply Sm in X. apply X.
    + destruct T as (T1 & T2). split; [exact T1|]. intros X. exfalso. apply T2. split; [apply Hw; exact X|]. apply Sm in X. apply X.
  - exists fn, D. split; [exact H|]. split; [exact G|]. split; [|split; [|split; [exact Hc'|split; [lia|exact Hw]]]].
    + intros Wf. destruct (Hf Wf) as (H1 & H2). split; [exact H1|]. intros k Hk Hd. destruct (Nat.eq_dec k (S n)) as [-> |N]; [congruence|]. apply H2; [lia|exact Hd].
    + intros i Hi. destruct (Hr i Hi) as (A & _). split; lia.
Qed.
Lemma t_turns : forall fuel n, triple (Inv n) (turns batch_at clip step observe early_finite last_finite cfg sky fuel)
  (fun s => exists m, Inv m s /\ (n <= m)%nat /\ (m = (n + fuel)%nat \/ iterations cfg <= Z.of_nat m) /\ ((n < m)%nat -> Z.of_nat m <= iterations cfg)) worse.
Proof.
  induction fuel as [|fuel IH]; intros n s H; cbn [turns].
  - exists n. split; [exact H|]. split; [lia|]. split; [left; lia|lia].
  - assert (Ei : iteration s = Z.of_nat n) by (destruct H as (fl & D & H & _); apply H). rewrite Ei. destruct (Z.ltb_spec (Z.of_nat n) (iterations cfg)) as [L|L].
    + pose proof (t_seq (t_turn L) (IH (S n)) H) as T. destruct ((turn (sky (Z.of_nat n + 1)) >> turns batch_at clip step observe early_finite last_finite cfg sky fuel) s) as (s', []); [|exact T].
      destruct T as (m & T & A & B & C). exists m. split; [exact T|]. split; [lia|]. split; [destruct B; [left; lia|right; exact H0]|]. intros Lm. destruct (Nat.eq_dec m (S n)) as [-> |N]; [lia|apply C; lia].
    + exists n. split; [exact H|]. split; [lia|]. split; [right; lia|lia].
Qed.
(** What the emergency save writes. *)
Lemma any_save n s a : good_disk (disk s) -> good n s -> (Calm -> forall m, (m < n)%nat -> F m) -> good_disk (disk (fst (save_checkpoint cfg true a s))).
Proof.
  intros G Go Fi. assert (Gc : forall b, good_disk ({| at_iteration := iteration s; at_rows := rows s; at_w := w s; at_cursor := committed s; full := b |} :: disk s)).
  { intros b. eapply good_disk_cons; [apply good_exact; exact Go|exact Fi|exact G]. }
  unfold save_checkpoint. destruct (writer_failed s); [exact G|]. destruct (_ && _ && _); [destruct (equal a); exact G|]. destruct (outcome a); [apply Gc|exact G|apply Gc|exact G].
Qed.
Lemma fine_save s a : writer_failed s = false -> fine a -> iteration (fst (save_checkpoint cfg true a s)) = iteration s /\ stored (disk (fst (save_checkpoint cfg true a s))) (iteration s) true.
Proof.
  intros Wf (E & O). unfold save_checkpoint. rewrite Wf, E, O. cbn [state_due orb]. destruct (true && kept a && existsb _ _) eqn:Ex.
  - split; [reflexivity|]. apply andb_true_iff in Ex. destruct Ex as (_ & Ex). apply existsb_exists in Ex. destruct Ex as (c & I & H). apply andb_true_iff in H. destruct H as (H1 & H2). apply Z.eqb_eq in H1. exists c. auto.
  - split; [reflexivity|]. eexists. split; [left; reflexivity|]. split; reflexivity.
Qed.

(** How a process starts, and how it ends. *)
Definition starts (s : st) : Prop :=
  good n0 s /\ List.length (slots s) = 2%nat /\ good_disk (disk s) /\ writer_failed s = false /\ attempt_failed s = false
  /\ (forall i, last_saved s = Some i -> i = Z.of_nat n0 /\ stored (disk s) i true).
Definition finished (s : st) : Prop :=
  exists n, (n0 <= n)%nat /\ Z.of_nat n = Z.max (Z.of_nat n0) (iterations cfg) /\ good n s /\ (forall m, (n0 <= m < n)%nat -> F m)
    /\ stored (disk s) (Z.of_nat n) true
    /\ (forall k, (n0 < k <= n)%nat -> save_due cfg (Z.of_nat k) = true -> stored (disk s) (Z.of_nat k) (state_due cfg false (Z.of_nat k))).
Notation runs := (runs batch_at clip step observe early_finite last_finite).
Lemma run_facts s : starts s ->
  good_disk (disk (fst (runs x s))) /\ (snd (runs x s) = true -> finished (fst (runs x s)))
  /\ (Smooth -> stored (disk (fst (runs x s))) (iteration (fst (runs x s))) true /\ (~ interrupted x -> snd (runs x s) = true)).
Proof.
  intros (Go & L2 & G & Wf & Af & Ls). unfold TrainLoopSpec.runs, run. set (e := the_ending x).
  set (s1 := set_queue (slots s) (counter s) [] (set_divergent false (set_safe false s))).
  match goal with |- context [let '(s, ok) := ?a s1 in _] => set (body := a) end.
  assert (T : triple (fun t => t = s1) body (fun t => finished t /\ bad t) worse).
  { set (D := (disk s, last_saved s, false)). assert (GD : good_disk (fst (fst D))) by exact G. unfold body. destruct Go as (Gi & Gr & Gw & Gc).
    eapply t_seq with (Q := fun t => t = s1).
    { apply t_raise'; [|auto]. intros Ha t ->. split; [apply unsafe_bad; [exact G|reflexivity]|]. intros (X & _). unfold e in Ha. congruence. }
    assert (Hn : Z.to_nat (iterations cfg - iteration s1) = Z.to_nat (iterations cfg - Z.of_nat n0)) by (cbn; rewrite Gi; reflexivity). rewrite Hn.
    eapply t_seq with (Q := view n0 0 true [] D).
    { apply t_do. intros t ->. unfold sees. cbn. nine; try assumption; try reflexivity; [split; [reflexivity|exact Af]|split; [exact L2|reflexivity]|unfold D; rewrite Wf; reflexivity]. }
    assert (C0 : checks n0 []) by (intros m Hm; lia).
    assert (F0 : files n0 D) by (intros _; split; [intros i Hi; apply Ls; exact Hi|intros k Hk; lia]).
    eapply t_seq with (Q := view n0 0 true [] D).
    { apply t_raise'; [|auto]. intros Hb t H. split; [eapply calm_bad; eauto|]. intros _. eapply view_intact; eauto. left. exact Hb. }
    eapply t_seq with (Q := fun t => exists m, Inv m t /\ Z.of_nat m = Z.max (Z.of_nat n0) (iterations cfg)).
    { intros t H. assert (I0 : Inv n0 t).
      { exists [], D. split; [exact H|]. split; [exact GD|]. split; [exact F0|]. split; [|split; [exact C0|split; [lia|reflexivity]]].
        intros i Hi. destruct (Ls i Hi) as (-> & _). split; [lia|reflexivity]. }
      pose proof (t_turns (S (Z.to_nat (iterations cfg - Z.of_nat n0))) I0) as T. destruct (turns _ _ _ _ _ _ _ _ _ t) as (t', []); [|exact T]. destruct T as (m & T & A & B & C). exists m. split; [exact T|].
      destruct (Nat.eq_dec m n0) as [-> |N]; [|specialize (C ltac:(lia))]; lia. }
    eapply t_seq with (Q := fun t => exists m, Inv m t /\ Z.of_nat m = Z.max (Z.of_nat n0) (iterations cfg)).
    { apply t_raise'; [|auto]. intros Ea t (m & (fl & D' & H & G' & Hf & Hr & Hc & Hm & Hw) & _). split.
      - eapply calm_bad; eauto. intros C. destruct fl as [|a [|]]; [reflexivity| |destruct Hc]. destruct Hc as (Dd & _). destruct (calms C Dd) as (K & _). unfold e in Ea. congruence.
      - intros X. eapply view_intact; eauto. right. left. exact Ea. }
    eapply t_seq with (Q := fun t => exists m D', Z.of_nat m = Z.max (Z.of_nat n0) (iterations cfg) /\ view m 0 true [] D' t /\ (n0 <= m)%nat /\ good_disk (fst (fst D')) /\ files m D' /\ checks m []
                                    /\ (snd D' = false -> stored (fst (fst D')) (Z.of_nat m) true) /\ (Smooth -> snd D' = false)).
    { intros t (m & (fl & D' & H & G' & Hf & Hr & Hc & Hm & Hw) & Em). assert (Hv := H). revert Hv. see. unfold when.
      assert (Sv : match last_saved t with Some i => negb (i =? iteration t) | None => true end = true \/ last_saved t = Some (Z.of_nat m)).
      { destruct (last_saved t) as [i|]; [|auto]. rewrite Ei. destruct (Z.eqb_spec i (Z.of_nat m)); [right; congruence|left; reflexivity]. }
      destruct (match last_saved t with Some i => negb (i =? iteration t) | None => true end) eqn:Eb.
      - clear Sv. assert (Lf : (List.length fl <= 1)%nat) by (destruct fl as [|a [|]]; [cbn; lia|cbn; lia|destruct Hc]).
        assert (Td : match drain true t with (t', true) => view m 0 true [] D' t' /\ checks m [] | (t', false) => worse t' end).
        { unfold drain. destruct fl as [|a [|]]; [| |destruct Hc]; destruct Eq as (Q2 & Q).
          - rewrite Q. cbn. split; [exact H|exact Hc].
          - destruct Q as (k & j & Qi & Qk & Qc & Qn). rewrite Qi. cbn [List.length judge]. rewrite Qi. cbn [slots set_queue]. rewrite Qn. destruct a.
            + split; [sees; split; [exact Q2|reflexivity]|]. destruct Hc as (_ & _ & _ & q & -> & H0 & H1 & H2 & H3). intros u Hu. destruct (Nat.eq_dec u q) as [-> |N]; [split; [exact H2|congruence]|apply H1; lia].
            + split; [split; [|discriminate]; cbn; subst D'; exact G'|]. intros X. exfalso. assert (Y : forallb (fun b => b) [false] = true); [|discriminate]. eapply queue_true; [exact X|exact Hc|].
              intros _. destruct Hc as (_ & _ & _ & q & -> & H0 & _). lia. }
        unfold then_. destruct (drain true t) as (t', []); [|exact Td]. destruct Td as (V & C). pose proof (@t_save true m [] D' (final_save e) G' (sure C) t' V) as T.
        destruct (save_checkpoint cfg true (final_save e) t') as (t'', []).
        + destruct T as (D'' & V' & Sv & Fv). exists m, D''. split; [exact Em|]. split; [exact V'|]. split; [exact Hm|]. split; [apply Sv|].
          split; [eapply files_saved; eassumption|]. split; [exact C|]. split; [|intros (_ & X & _); apply Fv; exact X]. destruct Sv as (_ & _ & _ & St & _). exact St.
        + destruct T as (T1 & T2). split; [exact T1|]. intros X. exfalso. apply T2. split; [apply Hw; exact X|]. destruct X as (_ & X & _). exact X.
      - destruct Sv as [Sv|Sv]; [discriminate|]. assert (Sl : snd (fst D') = Some (Z.of_nat m)) by (subst D'; exact Sv). destruct (Hr _ Sl) as (_ & E). specialize (E eq_refl). subst fl.
        exists m, D'. split; [exact Em|]. split; [exact H|]. split; [exact Hm|]. split; [exact G'|]. split; [exact Hf|]. split; [exact Hc|]. split; [|exact Hw]. intros Wf'. destruct (Hf Wf') as (A & _). apply A. exact Sl. }
    eapply t_seq with (Q := fun t => (finished t /\ bad t) /\ (interrupted x -> intact t)).
    { intros t (m & D' & Em & V & Hm & G' & Hf & Hc & St & Hw). assert (Bt : bad t) by (eapply calm_bad; eauto). assert (Gt := view_good V). assert (V' := V). revert V'. see. unfold flush. destruct (writer_failed t) eqn:Ewf.
      - subst D'. split; [split; [exact G'|]; intros _ _; exists m; split; [exact Gt|apply sure; exact Hc]|]. intros X. specialize (Hw X). discriminate.
      - assert (Wd : snd D' = false) by (subst D'; reflexivity). split; [|intros X; eapply view_intact; eauto]. split; [|exact Bt]. assert (Dd : fst (fst D') = disk t) by (subst D'; reflexivity). destruct (Hf Wd) as (_ & H2). specialize (St Wd). rewrite Dd in *.
        exists m. split; [exact Hm|]. split; [exact Em|]. split; [exact Gt|]. split; [exact Hc|]. split; [exact St|exact H2]. }
    apply t_raise'; [|intros t (H & _); exact H]. intros Hb t ((_ & B) & I). split; [exact B|]. intros _. apply I. right. right. left. exact Hb. }
  specialize (T s1 eq_refl). destruct (body s1) as (t, []).
  - cbn [fst snd]. destruct T as (T & (Gt & _)). split; [exact Gt|]. split; [intros _; exact T|]. intros _. split; [|reflexivity]. destruct T as (n & _ & _ & (Ei & _) & _ & St & _). rewrite Ei. exact St.
  - destruct T as ((Gt & Ht) & Hi). destruct (safe t && negb (divergent t) && negb (attempt_failed t) && match last_saved t with Some i => negb (i =? iteration t) | None => true end) eqn:Ec; cbn [fst snd].
    + apply andb_true_iff in Ec. destruct Ec as (Ec & _). apply andb_true_iff in Ec. destruct Ec as (Ec & _). apply andb_true_iff in Ec. destruct Ec as (Es & Ed). apply negb_true_iff in Ed.
      split; [destruct (Ht Es Ed) as (n & Gn & Fn); eapply any_save; eauto|]. split; [discriminate|]. intros X. assert (Y := Hi X). destruct Y as (_ & _ & _ & Y & _ & Z0). split; [|intros N; destruct (N Z0)].
      destruct X as (_ & _ & X & _). destruct (@fine_save t (emergency e) Y X) as (A & B). rewrite A. exact B.
    + split; [exact Gt|]. split; [discriminate|]. intros X. destruct (Hi X) as (A1 & A2 & A3 & A4 & A5 & A6). split; [|intros N; destruct (N A6)]. rewrite A1, A2, A3 in Ec. cbn in Ec.
      destruct (last_saved t) as [i|] eqn:El; [|discriminate]. apply negb_false_iff, Z.eqb_eq in Ec. rewrite <- Ec. apply A5. reflexivity.
Qed.
End Facts.
