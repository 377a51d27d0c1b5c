(** C70-C73: vector quantization in training on one or several ranks (Vq.v, VqSpec.v). *)
From Coq Require Import QArith Qcanon.
From Verif Require Import Base BaseFacts Vq VqSpec VqFacts VqExpire VqStep VqInit.
Set Implicit Arguments. Unset Strict Implicit.
Local Open Scope Qc_scope.

Section Theorems.
Context {U : setup}.
(** What happens to a module: a forward of all ranks, an update of the codebook by the optimizer, a checkpoint loaded into new modules. *)
Inductive event := Forward (ranks : list (luck * matrix)) | Update (e : matrix) | Restart.
Definition happens (ev : event) (states : list vq) : res (list vq) := match ev with
  | Forward ranks => step (combine ranks states)
  | Update e => Ok (map (set_embed e) states)
  | Restart => Ok (map reload states) end.
Fixpoint history (evs : list event) (states : list vq) : res (list vq) := match evs with [] => Ok states | ev :: evs => states <- happens ev states ;; history evs states end.
Definition good_event (ev : event) : Prop := match ev with
  | Forward ranks => good_inputs ranks | Update e => is_matrix e /\ List.length e = codebook_size | Restart => True end.
Definition start (kmeans_init : bool) (e : matrix) : list vq := repeat (fresh kmeans_init e) processes.
(** the same in terms of VqSpec *)
Definition spec_event (ev : event) (g : global) : global := match ev with
  | Forward ranks => spec_step ranks g
  | Update e => {| g_inited := g_inited g; g_rows := g_rows g; g_embed := e; g_avg := g_avg g; g_sizes := g_sizes g |}
  | Restart => g end.
Definition spec_history (evs : list event) (g : global) : global := fold_left (fun g ev => spec_event ev g) evs g.
Definition spec_start (kmeans_init : bool) (e : matrix) : global :=
  {| g_inited := negb kmeans_init; g_rows := repeat [] processes; g_embed := e; g_avg := e; g_sizes := repeat 1 codebook_size |}.

Lemma start_linked b e : good_setup -> is_matrix e -> List.length e = codebook_size -> linked (start b e) (spec_start b e).
Proof.
  intros (HK & _) H1 H2. refine (conj (repeat_length _ _) (conj _ (conj _ _))).
  - apply Forall_forall. intros st Hst. apply repeat_spec in Hst. subst. split; [exact (conj eq_refl (conj eq_refl (conj eq_refl eq_refl)))|intros _; exact I].
  - refine (conj (conj H1 H2) (conj (conj H1 H2) (conj (repeat_length _ _) _))).
    assert (Hone : Forall (fun s => 0 <= s) (repeat 1 codebook_size)). { apply Forall_forall. intros s Hs. apply repeat_spec in Hs. now subst. }
    split; [exact Hone|]. apply total_pos with 0%nat; [exact Hone|cbn; now rewrite repeat_length|]. cbn. rewrite nth_indep with (d' := 1) by (now rewrite repeat_length). now rewrite nth_repeat.
  - intros _. cbn. split; [|apply Forall_forall; intros r Hr; apply repeat_spec in Hr; subst; split; [constructor|cbn; lia]].
    unfold start. generalize processes at 1 2. intros n. induction n as [|n IH]; [reflexivity|]. cbn [repeat map]. rewrite IH. reflexivity.
Qed.
Lemma map_combine A B (l : list A) : forall m : list B, List.length l = List.length m -> map fst (combine l m) = l /\ map snd (combine l m) = m.
Proof. induction l as [|a l IH]; intros [|b m] H; try discriminate; [easy|]. injection H as H. destruct (IH m H) as [E1 E2]. cbn. now rewrite E1, E2. Qed.
Lemma event_linked ev states g : good_setup -> good_event ev -> linked states g -> exists states', happens ev states = Ok states' /\ linked states' (spec_event ev g).
Proof.
  intros HU Hev HL. destruct ev as [ranks|e|]; cbn [happens spec_event].
  - destruct (map_combine (l := ranks) (m := states)) as [E1 E2]; [rewrite (proj1 HL); apply Hev|].
    destruct (@forward_correct U (combine ranks states) g HU) as (states' & H1 & H2); [now rewrite E1|now rewrite E2|]. rewrite E1 in H2. now exists states'.
  - exists (map (set_embed e) states). split; [reflexivity|]. destruct HL as (Hl & Hf & (H1 & H2) & Hr). refine (conj _ (conj _ (conj (conj Hev H2) _))).
    + now rewrite map_length.
    + apply Forall_forall. intros st Hst. apply in_map_iff in Hst as (s & <- & Hs). rewrite Forall_forall in Hf. destruct (Hf s Hs) as [(E1 & E2 & E3 & E4) Hb]. split; [exact (conj E1 (conj eq_refl (conj E3 E4)))|exact Hb].
    + intros Ei. destruct (Hr Ei) as [R1 R2]. split; [|exact R2]. rewrite map_map. exact R1.
  - exists (map reload states). split; [reflexivity|]. destruct HL as (Hl & Hf & Hw & Hr). refine (conj _ (conj _ (conj Hw _))).
    + now rewrite map_length.
    + apply Forall_forall. intros st Hst. apply in_map_iff in Hst as (s & <- & Hs). rewrite Forall_forall in Hf. destruct (Hf s Hs) as [Hsame Hb]. split; [exact Hsame|intros _; exact I].
    + intros Ei. destruct (Hr Ei) as [R1 R2]. split; [|exact R2]. rewrite map_map, <- R1. apply map_ext_in. intros st Hst. rewrite Forall_forall in Hf. destruct (Hf st Hst) as [(E1 & _) _].
      cbn [batches reload]. rewrite E1, Ei. destruct (List.concat (batches st)) as [|v l]; [reflexivity|]. cbn [List.concat]. now rewrite app_nil_r.
Qed.
Lemma history_linked evs : good_setup -> forall states g, Forall good_event evs -> linked states g -> exists states', history evs states = Ok states' /\ linked states' (spec_history evs g).
Proof.
  intros HU. induction evs as [|ev evs IH]; intros states g Hev HL; [now exists states|]. inversion_clear Hev as [|? ? He Hevs].
  destruct (event_linked HU He HL) as (s1 & E1 & L1). destruct (IH s1 _ Hevs L1) as (s2 & E2 & L2). exists s2. cbn [history]. rewrite E1. now split.
Qed.
Lemma history_app e1 e2 states : history (e1 ++ e2) states = (s <- history e1 states ;; history e2 s).
Proof. revert states; induction e1 as [|e e1 IH]; intros; [reflexivity|]. cbn. destruct (happens e states); [apply IH|reflexivity]. Qed.

(** ** C70 *)
(** No forward fails or leaves a rank waiting, and the ranks hold the same codebook, averages and sizes, and are initialised together. *)
Theorem C70_ranks_agree b e evs : good_setup -> is_matrix e -> List.length e = codebook_size -> Forall good_event evs ->
  exists states, history evs (start b e) = Ok states /\ List.length states = processes
    /\ forall s t, List.In s states -> List.In t states -> inited s = inited t /\ embed s = embed t /\ embed_avg s = embed_avg t /\ cluster_size s = cluster_size t.
Proof.
  intros HU H1 H2 Hev. destruct (history_linked HU Hev (start_linked b HU H1 H2)) as (states & E & Hl & Hf & _). exists states. split; [exact E|]. split; [exact Hl|].
  intros s t Hs Ht. rewrite Forall_forall in Hf. destruct (Hf s Hs) as [(A1 & A2 & A3 & A4) _], (Hf t Ht) as [(B1 & B2 & B3 & B4) _].
  exact (conj (eq_trans A1 (eq_sym B1)) (conj (eq_trans A2 (eq_sym B2)) (conj (eq_trans A3 (eq_sym B3)) (eq_trans A4 (eq_sym B4))))).
Qed.

(** ** C71 *)
(** The codebook, its averages and its sizes are those of one run over the rows of all ranks together. *)
Theorem C71_codebook_of_all_ranks b e evs : good_setup -> is_matrix e -> List.length e = codebook_size -> Forall good_event evs ->
  exists states, history evs (start b e) = Ok states /\ List.length states = processes
    /\ Forall (fun st => let g := spec_history evs (spec_start b e) in inited st = g_inited g /\ embed st = g_embed g /\ embed_avg st = g_avg g /\ cluster_size st = g_sizes g) states.
Proof.
  intros HU H1 H2 Hev. destruct (history_linked HU Hev (start_linked b HU H1 H2)) as (states & E & Hl & Hf & _). exists states. split; [exact E|]. split; [exact Hl|].
  eapply Forall_impl; [|exact Hf]. intros st [Hs _]. exact Hs.
Qed.
(** The sizes are never negative, and some are positive. *)
Theorem C71_sizes b e evs states : good_setup -> is_matrix e -> List.length e = codebook_size -> Forall good_event evs -> history evs (start b e) = Ok states ->
  Forall (fun st => List.length (cluster_size st) = codebook_size /\ Forall (fun s => 0 <= s) (cluster_size st) /\ 0 < total (cluster_size st)) states.
Proof.
  intros HU H1 H2 Hev Eh. destruct (history_linked HU Hev (start_linked b HU H1 H2)) as (states' & E & Hl & Hf & (_ & _ & W1 & W2 & W3) & _). assert (states' = states) by congruence. subst states'.
  eapply Forall_impl; [|exact Hf]. intros st [(_ & _ & _ & Es) _]. cbv beta. rewrite Es. exact (conj W1 (conj W2 W3)).
Qed.

(** ** C72 *)
(** Whatever the history, an initialised module's next forward replaces the codes below the threshold, and no other, by rows of the batch; then come the averages. *)
Theorem C72_dead_codes b e evs states ranks : good_setup -> is_matrix e -> List.length e = codebook_size -> Forall good_event evs -> good_inputs ranks ->
  history evs (start b e) = Ok states -> Forall (fun st => inited st = true) states ->
  exists states' mid, history (evs ++ [Forward ranks]) (start b e) = Ok states' /\
    Forall (fun st => List.length (g_embed mid) = codebook_size /\ List.length (g_avg mid) = codebook_size /\ List.length (g_sizes mid) = codebook_size /\
      forall c, (c < codebook_size)%nat ->
        if negb (if Qc_eq_dec threshold 0 then true else false) && lt (nth c (cluster_size st) 0 * K / total (cluster_size st)) threshold
        then exists row, List.In row (flat_map snd ranks) /\ nth c (g_embed mid) [] = row /\ nth c (g_avg mid) [] = map (Qcmult reset_cluster_size) row /\ nth c (g_sizes mid) 0 = reset_cluster_size
        else nth c (g_embed mid) [] = nth c (embed st) [] /\ nth c (g_avg mid) [] = nth c (embed_avg st) [] /\ nth c (g_sizes mid) 0 = nth c (cluster_size st) 0) states /\
    Forall (fun st => let g := ema (flat_map (fun lx => combine (search (fst lx) (code_view (g_embed mid)) (snd lx)) (snd lx)) ranks) mid in
      embed st = g_embed g /\ embed_avg st = g_avg g /\ cluster_size st = g_sizes g) states'.
Proof.
  intros HU H1 H2 Hev Hin Eh Hi. destruct (history_linked HU Hev (start_linked b HU H1 H2)) as (s0 & E & HL). assert (s0 = states) by congruence. subst s0.
  set (g := spec_history evs (spec_start b e)) in *. destruct (event_linked (ev := Forward ranks) HU Hin HL) as (states' & E' & HL'). cbn [spec_event] in HL'.
  pose proof HL as (Hl & Hf & Hw & _). pose proof HU as (_ & HP & _). destruct (good_inputs_parts Hin) as (Hrl & Hrg & _).
  assert (Eg : g_inited g = true). { destruct states as [|st l]; [cbn in Hl; lia|]. inversion_clear Hf as [|? ? [(E1 & _) _] _]. inversion_clear Hi. congruence. }
  exists states', (after_expiry ranks g). split; [|split].
  - rewrite history_app, E. cbn. cbn in E'. now rewrite E'.
  - apply Forall_forall. intros st Hst. rewrite Forall_forall in Hf. destruct (Hf st Hst) as [(_ & S2 & S3 & S4) _].
    pose proof (wf_after HU Hw Hrl Hrg) as ((_ & W1) & (_ & W2) & W3 & _). refine (conj W1 (conj W2 (conj W3 _))). intros c Hc.
    assert (Ed : negb (if Qc_eq_dec threshold 0 then true else false) && lt (nth c (cluster_size st) 0 * K / total (cluster_size st)) threshold = dead g c).
    { unfold dead. rewrite S4. destruct (Qc_eq_dec threshold 0); [reflexivity|]. cbn [negb andb]. f_equal. unfold Qcdiv. ring. }
    rewrite Ed. unfold after_expiry. cbv zeta. rewrite S2, S3, S4. destruct (Nat.eqb_spec (dead_before g codebook_size) 0) as [E0|E0].
    + destruct (dead g c) eqn:Edc; [exfalso|repeat split]. pose proof (dead_before_S Edc) as X. pose proof (@dead_before_mono U g (S c) codebook_size ltac:(lia)). lia.
    + cbn [replaced g_embed g_avg g_sizes]. rewrite !nth_codes by exact Hc. destruct (dead g c) eqn:Edc; [|repeat split].
      exists (nth (dead_before g c) (picked ranks (dead_before g codebook_size)) []). split; [|repeat split].
      apply picked_in with (n := dead_before g codebook_size); [exact Hrg|]. apply nth_In. rewrite picked_length by easy.
      apply Nat.lt_le_trans with (dead_before g (S c)); [rewrite (dead_before_S Edc); lia|]. apply dead_before_mono. lia.
  - destruct HL' as (_ & Hf' & _). eapply Forall_impl; [|exact Hf']. intros st [(_ & S2 & S3 & S4) _]. unfold spec_step in S2, S3, S4. rewrite Eg in S2, S3, S4. cbv zeta in *. unfold after_expiry. cbv zeta.
    exact (conj S2 (conj S3 S4)).
Qed.

(** ** C73 *)
(** rows seen by the ranks so far *)
Definition seen (evs : list (list (luck * matrix))) (i : nat) : matrix := flat_map (fun ranks => snd (nth i ranks ({| draw := fun _ _ => []; search := fun _ _ => [] |}, []))) evs.
Definition full (evs : list (list (luck * matrix))) : bool := forallb (fun i => (target <=? List.length (seen evs i))%nat) (seq 0 processes).
Lemma collect_twice a x y : collect y (collect x a) = collect (x ++ y) a.
Proof.
  unfold collect. rewrite app_assoc. destruct (Nat.le_gt_cases (List.length (a ++ x)) target) as [H|H].
  - f_equal. f_equal. now apply firstn_all2.
  - assert (E : forall p q : matrix, (target <= List.length p)%nat -> firstn target (p ++ q) = firstn target p).
    { intros p q Hp. rewrite firstn_app. replace (target - List.length p)%nat with 0%nat by lia. now rewrite firstn_O, app_nil_r. }
    rewrite (E (firstn target (a ++ x)) y), (E (a ++ x) y); [|lia|rewrite firstn_length; lia]. rewrite firstn_firstn. now rewrite Nat.min_id.
Qed.
Lemma map2_nth A B C (f : A -> B -> C) (da : A) l : forall m g, List.length l = List.length m -> (forall i, nth_error m i = if (i <? List.length l)%nat then Some (g i) else None) ->
  map2 f l m = map (fun i => f (nth i l da) (g i)) (seq 0 (List.length l)).
Proof.
  induction l as [|a l IH]; intros [|b m] g Hl Hg; try discriminate; [reflexivity|]. cbn [map2 List.length seq map nth]. f_equal.
  - f_equal. specialize (Hg 0%nat). cbn in Hg. congruence.
  - rewrite <- seq_shift, map_map. rewrite (IH m (fun i => g (S i))); [reflexivity|cbn in Hl; lia|]. intros i. exact (Hg (S i)).
Qed.
Lemma nth_error_table A (f : nat -> A) n i : nth_error (map f (seq 0 n)) i = if (i <? n)%nat then Some (f i) else None.
Proof.
  destruct (Nat.ltb_spec i n) as [H|H]; [|apply nth_error_None; now rewrite map_length, seq_length].
  rewrite nth_error_nth' with (d := f 0%nat) by (now rewrite map_length, seq_length). f_equal. rewrite map_nth, seq_nth by exact H. reflexivity.
Qed.
(** What the state is before the first forward at which all ranks have enough rows *)
Lemma collecting e evs : Forall good_inputs evs -> (forall n, (n < S (List.length evs))%nat -> full (firstn n evs) = false) ->
  spec_history (map Forward evs) (spec_start true e) =
  {| g_inited := false; g_rows := map (fun i => firstn target (seen evs i)) (seq 0 processes); g_embed := e; g_avg := e; g_sizes := repeat 1 codebook_size |}.
Proof.
  induction evs as [|ranks evs IH] using rev_ind; intros Hg Hn.
  - unfold spec_history, spec_start. cbn [map fold_left negb]. f_equal. unfold seen. cbn [flat_map]. rewrite firstn_nil. generalize processes. intros n. generalize 0%nat. induction n as [|n IH]; intros a; cbn; [reflexivity|]. f_equal. apply IH.
  - apply Forall_app in Hg as [Hg Hr]. inversion_clear Hr as [|? ? Hr1 _]. rewrite map_app. unfold spec_history. rewrite fold_left_app. fold (spec_history (map Forward evs) (spec_start true e)).
    rewrite IH; [|exact Hg|intros n Hlt; specialize (Hn n); rewrite app_length in Hn; cbn in Hn; rewrite firstn_app in Hn; replace (n - List.length evs)%nat with 0%nat in Hn by lia; rewrite firstn_O, app_nil_r in Hn; apply Hn; lia].
    cbn [map fold_left spec_event]. unfold spec_step. cbn [g_inited g_rows g_embed g_avg g_sizes]. destruct Hr1 as [Hl _].
    rewrite (@map2_nth _ _ _ (fun lx r => collect (snd lx) r) ({| draw := fun _ _ => []; search := fun _ _ => [] |}, []) ranks _ (fun i => firstn target (seen evs i)));
      [|rewrite map_length, seq_length; exact Hl|intros i; rewrite Hl; apply nth_error_table].
    rewrite Hl.
    assert (Er : map (fun i => collect (snd (nth i ranks ({| draw := fun _ _ => []; search := fun _ _ => [] |}, []))) (firstn target (seen evs i))) (seq 0 processes) = map (fun i => firstn target (seen (evs ++ [ranks]) i)) (seq 0 processes)).
    { apply map_ext. intros i. change (firstn target (seen evs i)) with (collect (seen evs i) []). rewrite collect_twice. unfold collect, seen. rewrite flat_map_app. cbn [flat_map app]. now rewrite app_nil_r. }
    rewrite Er. 
    assert (Ef : forallb (fun r => (target <=? List.length r)%nat) (map (fun i => firstn target (seen (evs ++ [ranks]) i)) (seq 0 processes)) = full (evs ++ [ranks])).
    { unfold full. generalize (seq 0 processes) as idx. induction idx as [|i idx IHl]; [reflexivity|]. cbn [map forallb]. rewrite IHl. f_equal. rewrite firstn_length.
      destruct (Nat.leb_spec target (List.length (seen (evs ++ [ranks]) i))); [apply Nat.leb_le; lia|apply Nat.leb_gt; lia]. 
    }
    rewrite Ef. assert (E : full (evs ++ [ranks]) = false). { specialize (Hn (List.length (evs ++ [ranks]))). rewrite firstn_all in Hn. apply Hn. lia. }
    now rewrite E.
Qed.
(** While some rank has seen too few rows, the codebook stays. *)
Theorem C73_waits e evs : good_setup -> is_matrix e -> List.length e = codebook_size -> Forall good_inputs evs ->
  (forall n, (n <= List.length evs)%nat -> exists i, (i < processes)%nat /\ (List.length (seen (firstn n evs) i) < target)%nat) ->
  exists states, history (map Forward evs) (start true e) = Ok states /\ List.length states = processes
    /\ Forall (fun st => inited st = false /\ embed st = e) states
    /\ forall i st, nth_error states i = Some st -> List.concat (batches st) = firstn target (seen evs i).
Proof.
  intros HU H1 H2 Hg Hn. assert (Hev : Forall good_event (map Forward evs)). { apply Forall_forall. intros ev Hin. apply in_map_iff in Hin as (r & <- & Hr). rewrite Forall_forall in Hg. now apply Hg. }
  destruct (history_linked HU Hev (start_linked true HU H1 H2)) as (states & E & Hl & Hf & _ & Hr). exists states.
  assert (Hfull : forall n, (n < S (List.length evs))%nat -> full (firstn n evs) = false).
  { intros n Hlt. destruct (Hn n ltac:(lia)) as (i & Hi & Hlen). apply not_true_is_false. intros Hc. unfold full in Hc. rewrite forallb_forall in Hc. specialize (Hc i ltac:(apply in_seq; lia)). apply Nat.leb_le in Hc. lia. }
  rewrite (collecting e Hg Hfull) in Hf, Hr. refine (conj E (conj Hl (conj _ _))).
  - eapply Forall_impl; [|exact Hf]. intros st [(E1 & E2 & _) _]. now split.
  - destruct (Hr eq_refl) as [Hr1 _]. cbn [g_rows] in Hr1. intros i st Hst.
    pose proof (map_nth_error (fun st => List.concat (batches st)) _ _ Hst) as Hm. rewrite Hr1, nth_error_table in Hm. destruct (i <? processes)%nat; [congruence|discriminate].
Qed.
(** The first forward at which all have seen enough starts k-means over the first rows of every rank. *)
Theorem C73_starts e evs ranks : good_setup -> is_matrix e -> List.length e = codebook_size -> Forall good_inputs evs -> good_inputs ranks ->
  (forall n, (n <= List.length evs)%nat -> exists i, (i < processes)%nat /\ (List.length (seen (firstn n evs) i) < target)%nat) ->
  (forall i, (i < processes)%nat -> (target <= List.length (seen (evs ++ [ranks]) i))%nat) ->
  exists states, history (map Forward (evs ++ [ranks])) (start true e) = Ok states /\ List.length states = processes
    /\ Forall (fun st => let g := started (map fst ranks) {| g_inited := false; g_rows := map (fun i => firstn target (seen (evs ++ [ranks]) i)) (seq 0 processes); g_embed := e; g_avg := e; g_sizes := repeat 1 codebook_size |} in
        inited st = true /\ embed st = g_embed g /\ embed_avg st = g_avg g /\ cluster_size st = g_sizes g) states.
Proof.
  intros HU H1 H2 Hg Hr Hn Hall. assert (Hev : Forall good_event (map Forward (evs ++ [ranks]))).
  { apply Forall_forall. intros ev Hin. apply in_map_iff in Hin as (r & <- & Hin). apply in_app_or in Hin as [Hin|[<-|[]]]; [|exact Hr]. rewrite Forall_forall in Hg. now apply Hg. }
  destruct (history_linked HU Hev (start_linked true HU H1 H2)) as (states & E & Hl & Hf & _). exists states. refine (conj E (conj Hl _)).
  assert (Hfull : forall n, (n < S (List.length evs))%nat -> full (firstn n evs) = false).
  { intros n Hlt. destruct (Hn n ltac:(lia)) as (i & Hi & Hlen). apply not_true_is_false. intros Hc. unfold full in Hc. rewrite forallb_forall in Hc. specialize (Hc i ltac:(apply in_seq; lia)). apply Nat.leb_le in Hc. lia. }
  rewrite map_app in Hf. unfold spec_history in Hf. rewrite fold_left_app in Hf. fold (spec_history (map Forward evs) (spec_start true e)) in Hf. rewrite (collecting e Hg Hfull) in Hf.
  cbn [map fold_left spec_event] in Hf. unfold spec_step in Hf. cbn [g_inited g_rows g_embed g_avg g_sizes] in Hf. destruct Hr as [Hrl _].
  rewrite (@map2_nth _ _ _ (fun lx r => collect (snd lx) r) ({| draw := fun _ _ => []; search := fun _ _ => [] |}, []) ranks _ (fun i => firstn target (seen evs i))) in Hf;
    [|rewrite map_length, seq_length; exact Hrl|intros i; rewrite Hrl; apply nth_error_table].
  rewrite Hrl in Hf.
  assert (Er : map (fun i => collect (snd (nth i ranks ({| draw := fun _ _ => []; search := fun _ _ => [] |}, []))) (firstn target (seen evs i))) (seq 0 processes) = map (fun i => firstn target (seen (evs ++ [ranks]) i)) (seq 0 processes)).
  { apply map_ext. intros i. change (firstn target (seen evs i)) with (collect (seen evs i) []). rewrite collect_twice. unfold collect, seen. rewrite flat_map_app. cbn [flat_map app]. now rewrite app_nil_r. }
  rewrite Er in Hf.
  assert (Ef : forallb (fun r => (target <=? List.length r)%nat) (map (fun i => firstn target (seen (evs ++ [ranks]) i)) (seq 0 processes)) = true).
  { apply forallb_forall. intros m Hm. apply in_map_iff in Hm as (i & <- & Hi). apply in_seq in Hi. apply Nat.leb_le. rewrite firstn_length. specialize (Hall i ltac:(lia)). lia. }
  cbv zeta in Hf. rewrite Ef in Hf. eapply Forall_impl; [|exact Hf]. intros st [(S1 & S2 & S3 & S4) _]. cbv zeta. refine (conj _ (conj S2 (conj S3 S4))).
  rewrite S1. unfold started. cbv zeta. now destruct (_ <? _)%nat.
Qed.
(** A checkpoint at any point, loaded into new modules, changes nothing. *)
Theorem C73_restart b e evs1 evs2 : good_setup -> is_matrix e -> List.length e = codebook_size -> Forall good_event evs1 -> Forall good_event evs2 ->
  exists states states', history (evs1 ++ evs2) (start b e) = Ok states /\ history (evs1 ++ Restart :: evs2) (start b e) = Ok states'
    /\ Forall2 (fun s t => inited s = inited t /\ embed s = embed t /\ embed_avg s = embed_avg t /\ cluster_size s = cluster_size t
                           /\ (inited s = false -> List.concat (batches s) = List.concat (batches t))) states states'.
Proof.
  intros HU H1 H2 Hev1 Hev2.
  destruct (@history_linked (evs1 ++ evs2) HU _ _ ltac:(apply Forall_app; now split) (start_linked b HU H1 H2)) as (s1 & E1 & L1).
  destruct (@history_linked (evs1 ++ Restart :: evs2) HU _ _ ltac:(apply Forall_app; split; [assumption|constructor; [exact I|assumption]]) (start_linked b HU H1 H2)) as (s2 & E2 & L2).
  exists s1, s2. refine (conj E1 (conj E2 _)).
  assert (Eg : spec_history (evs1 ++ Restart :: evs2) (spec_start b e) = spec_history (evs1 ++ evs2) (spec_start b e)).
  { unfold spec_history. rewrite !fold_left_app. reflexivity. }
  rewrite Eg in L2. destruct L1 as (Hl1 & Hf1 & _ & Hr1), L2 as (Hl2 & Hf2 & _ & Hr2). set (g := spec_history (evs1 ++ evs2) (spec_start b e)) in *. clearbody g.
  assert (Hr : g_inited g = false -> map (fun st => List.concat (batches st)) s1 = map (fun st => List.concat (batches st)) s2).
  { intros Ei. destruct (Hr1 Ei) as [R1 _], (Hr2 Ei) as [R2 _]. congruence. }
  clear - Hl1 Hl2 Hf1 Hf2 Hr. assert (Hl : List.length s1 = List.length s2) by congruence. clear Hl1 Hl2. revert s2 Hl Hf2 Hr. induction Hf1 as [|s l [(A1 & A2 & A3 & A4) _] Hf1 IH]; intros [|t m] Hl Hf2 Hr; try discriminate; constructor.
  - inversion_clear Hf2 as [|? ? [(B1 & B2 & B3 & B4) _] _]. refine (conj _ (conj _ (conj _ (conj _ _)))); try congruence.
    intros Ei. rewrite A1 in Ei. specialize (Hr Ei). cbn in Hr. congruence.
  - inversion_clear Hf2. apply IH; [cbn in Hl; lia|assumption|]. intros Ei. specialize (Hr Ei). cbn in Hr. congruence.
Qed.
End Theorems.

(** ** One process *)
Definition alone (U : setup) : setup := {|
  codebook_size := codebook_size; dim_feature := dim_feature; processes := 1; kmeans_sample_multiplier := kmeans_sample_multiplier; kmeans_iter := kmeans_iter;
  ema_decay := ema_decay; threshold := threshold; reset_cluster_size := reset_cluster_size; ema_update := ema_update;
  nearest := nearest; l2_norm := l2_norm; cosine := cosine; code_view := code_view |}.
Lemma alone_good U : good_setup -> @good_setup (alone U).
Proof. intros (H1 & H2 & H). split; [exact H1|]. split; [cbn; lia|exact H]. Qed.
Lemma combine_rows_map A B (f : B -> A) (l : list B) : combine (map f l) l = map (fun x => (f x, x)) l.
Proof. induction l; cbn; congruence. Qed.
(** Where no code expires, several ranks train as one process does on their batches in one: the distribution is invisible. *)
Theorem C71_as_one_process (U : setup) (code_of : matrix -> vec -> nat) (l0 : luck) e (evs : list (list (luck * matrix))) :
  good_setup -> threshold = 0 -> is_matrix e -> List.length e = codebook_size -> Forall good_inputs evs ->
  (forall ranks l x cb y, List.In ranks evs -> List.In (l, x) ranks -> search l cb y = map (code_of cb) y) -> (forall cb y, search l0 cb y = map (code_of cb) y) ->
  (forall n k, List.length (draw l0 n k) = k /\ (n <> 0%nat -> Forall (fun i => (i < n)%nat) (draw l0 n k))) -> (forall cb y, (code_of cb y < codebook_size)%nat) ->
  exists states st, history (map Forward evs) (start false e) = Ok states /\ @history (alone U) (map (fun ranks => Forward [(l0, flat_map snd ranks)]) evs) (@start (alone U) false e) = Ok [st]
    /\ Forall (fun s => embed s = embed st /\ embed_avg s = embed_avg st /\ cluster_size s = cluster_size st) states.
Proof.
  intros HU Ht H1 H2 Hg Hs Hs0 Hd Hc. pose proof (alone_good HU) as HU1. pose proof HU as (_ & HP & _).
  assert (Hev : Forall good_event (map Forward evs)). { apply Forall_forall. intros ev Hin. apply in_map_iff in Hin as (r & <- & Hr). rewrite Forall_forall in Hg. now apply Hg. }
  assert (Hev1 : Forall (@good_event (alone U)) (map (fun ranks => Forward [(l0, flat_map snd ranks)]) evs)).
  { apply Forall_forall. intros ev Hin. apply in_map_iff in Hin as (r & <- & Hr). rewrite Forall_forall in Hg. destruct (Hg r Hr) as [Hl Hx]. split; [reflexivity|].
    intros l x [E|[]]. injection E as <- <-. refine (conj _ (conj _ (conj Hd _))).
    - destruct r as [|[l x] r]; [cbn in Hl; lia|]. cbn. destruct (Hx l x ltac:(now left)) as [Hn _]. destruct x; [congruence|discriminate].
    - apply Forall_forall. intros v Hv. apply in_flat_map in Hv as ([l x] & Hlx & Hv). destruct (Hx l x Hlx) as (_ & Hm & _). unfold is_matrix in Hm. rewrite Forall_forall in Hm. now apply Hm.
    - intros cb. rewrite Hs0, map_length. split; [reflexivity|]. apply Forall_forall. intros i Hi. apply in_map_iff in Hi as (y & <- & _). apply Hc. }
  destruct (history_linked HU Hev (start_linked false HU H1 H2)) as (states & E & Hl & Hf & _).
  destruct (@history_linked (alone U) _ HU1 _ _ Hev1 (@start_linked (alone U) false e HU1 H1 H2)) as (states1 & E1 & Hl1 & Hf1 & _).
  destruct states1 as [|st [|]]; cbn in Hl1; try discriminate. exists states, st. split; [exact E|]. split; [exact E1|].
  inversion_clear Hf1 as [|? ? [(_ & B2 & B3 & B4) _] _].
  (* the two specifications agree *)
  assert (Hspec : forall g g1, g_inited g = true -> g_inited g1 = true -> g_embed g = g_embed g1 -> g_avg g = g_avg g1 -> g_sizes g = g_sizes g1 ->
    let r := spec_history (map Forward evs) g in let r1 := @spec_history (alone U) (map (fun ranks => Forward [(l0, flat_map snd ranks)]) evs) g1 in g_embed r = g_embed r1 /\ g_avg r = g_avg r1 /\ g_sizes r = g_sizes r1).
  { clear - Ht Hs Hs0. induction evs as [|ranks evs IH]; intros g g1 I0 I1 Ee Ea Es; [cbn; auto|].
    assert (Hs' : forall ranks l x cb y, List.In ranks evs -> List.In (l, x) ranks -> search l cb y = map (code_of cb) y) by (intros ranks' l x cb y Hin Hlx; apply (Hs ranks' l x cb y); [now right|exact Hlx]).
    specialize (IH Hs'). cbn [map spec_history fold_left]. cbv zeta in IH |- *. unfold spec_history in *. cbn [fold_left spec_event].
    assert (D : forall g, dead_before g codebook_size = 0%nat). { intros g'. apply none_dead. intros c _. unfold dead. destruct (Qc_eq_dec threshold 0); [reflexivity|contradiction]. }
    set (pairs := flat_map (fun lx => combine (search (fst lx) (code_view (g_embed g)) (snd lx)) (snd lx)) ranks).
    assert (Ep : pairs = combine (map (code_of (code_view (g_embed g1))) (flat_map snd ranks)) (flat_map snd ranks)).
    { unfold pairs. rewrite Ee. rewrite combine_rows_map. assert (Hr : forall l x, List.In (l, x) ranks -> forall cb, search l cb x = map (code_of cb) x) by (intros l x Hin cb; apply (Hs ranks l x cb x); [now left|exact Hin]).
      clear - Hr. induction ranks as [|[l x] ranks IH]; [reflexivity|]. cbn [flat_map fst snd]. rewrite map_app, (Hr l x) by now left. rewrite combine_rows_map. f_equal. apply IH. intros l' x' Hin. apply Hr. now right. }
    assert (S1 : spec_step ranks g = ema pairs g). { unfold spec_step. rewrite I0. cbv zeta. rewrite D. reflexivity. }
    assert (S2 : @spec_step (alone U) [(l0, flat_map snd ranks)] g1 = @ema U pairs g1).
    { unfold spec_step. rewrite I1. cbv zeta. pose proof (D g1) as D1. change (@dead_before (alone U) g1 (@codebook_size (alone U))) with (@dead_before U g1 codebook_size). rewrite D1. cbn [Nat.eqb]. cbn [flat_map fst snd]. rewrite app_nil_r, Hs0.
      change (@code_view (alone U)) with (@code_view U). rewrite <- Ep. reflexivity. }
    rewrite S1, S2. apply IH; unfold ema; cbv zeta; destruct ema_update; cbn [g_inited g_embed g_avg g_sizes]; try assumption; unfold ema_avg, ema_sizes; rewrite ?Ea, ?Es; reflexivity. }
  destruct (Hspec (@spec_start U false e) (@spec_start (alone U) false e) eq_refl eq_refl eq_refl eq_refl eq_refl) as (P1 & P2 & P3).
  eapply Forall_impl; [|exact Hf]. intros s [(_ & A2 & A3 & A4) _]. refine (conj _ (conj _ _)); [rewrite A2, B2; exact P1|rewrite A3, B3; exact P2|rewrite A4, B4; exact P3].
Qed.

(** ** Examples *)
Definition shown (states : list vq) : list (bool * list (list Q) * list (list Q) * list Q) :=
  map (fun s => (inited s, map (map this) (embed s), map (map this) (embed_avg s), map this (cluster_size s))) states.
Definition near (means : matrix) (x : vec) : nat := let d c := let y := nth 0 x 0 - nth 0 (nth c means []) 0 in y * y in if lt (d 1%nat) (d 0%nat) then 1%nat else 0%nat.
Definition toy (p : nat) (thr : Qc) : setup := {| codebook_size := 2; dim_feature := 1; processes := p; kmeans_sample_multiplier := 2; kmeans_iter := 2; ema_decay := Q2Qc (1 # 2);
  threshold := thr; reset_cluster_size := 1; ema_update := true; nearest := near; l2_norm := fun v => v; cosine := false; code_view := fun m => m |}.
Lemma near_lt means x : (near means x < 2)%nat.
Proof. unfold near. cbv zeta. destruct (lt _ _); lia. Qed.
Lemma toy_good p thr : (0 < p)%nat -> 0 <= thr -> @good_setup (toy p thr).
Proof.
  intros Hp Ht. refine (conj _ (conj Hp (conj _ (conj _ (conj _ (conj _ (conj _ (conj Ht (conj _ _))))))))); cbn; try lia; try easy.
  intros means x _. apply near_lt.
Qed.
Definition dice : luck := {| draw := fun n k => map (fun i => Nat.modulo i n) (seq 0 k); search := fun cb x => map (near cb) x |}.
Definition v (z : BinNums.Z) : vec := [Q2Qc (inject_Z z)].
Lemma toy_inputs p thr (xs : list matrix) : List.length xs = p -> Forall (fun x => x <> [] /\ Forall (fun w => List.length w = 1%nat) x) xs -> @good_inputs (toy p thr) (map (fun x => (dice, x)) xs).
Proof.
  intros Hl Hx. split; [cbn; now rewrite map_length|]. intros l x Hin. apply in_map_iff in Hin as (x' & E & Hin). injection E as <- <-. rewrite Forall_forall in Hx. destruct (Hx _ Hin) as [H1 H2].
  refine (conj H1 (conj H2 (conj _ _))).
  - intros n k. split; [cbn; now rewrite map_length, seq_length|]. intros Hn. apply Forall_forall. intros i Hi. apply in_map_iff in Hi as (j & <- & _). apply Nat.mod_upper_bound. exact Hn.
  - intros cb. split; [cbn; now rewrite map_length|]. apply Forall_forall. intros i Hi. apply in_map_iff in Hi as (j & <- & _). apply near_lt.
Qed.
Definition two_ranks (a b : matrix) : event := Forward [(dice, a); (dice, b)].
Definition one_rank (a : matrix) : event := Forward [(dice, a)].
(** Two ranks: k-means starts at the second forward (target 2 rows per rank), then one step of averages *)
Definition evs2 : list event := [two_ranks [v 0] [v 8; v 10]; Restart; two_ranks [v 2; v 99] [v 50]; two_ranks [v 1] [v 9; v 9]].
Example toy_good_events : Forall (@good_event (toy 2 (Q2Qc (1 # 2)))) evs2.
Proof.
  constructor; [|constructor; [exact I|constructor; [|constructor; [|constructor]]]].
  - apply (@toy_inputs 2 (Q2Qc (1 # 2)) [[v 0]; [v 8; v 10]]); [reflexivity|]. repeat (constructor; [split; [intros E; inversion E|repeat constructor]|]). constructor.
  - apply (@toy_inputs 2 (Q2Qc (1 # 2)) [[v 2; v 99]; [v 50]]); [reflexivity|]. repeat (constructor; [split; [intros E; inversion E|repeat constructor]|]). constructor.
  - apply (@toy_inputs 2 (Q2Qc (1 # 2)) [[v 1]; [v 9; v 9]]); [reflexivity|]. repeat (constructor; [split; [intros E; inversion E|repeat constructor]|]). constructor.
Qed.
Example toy_two_ranks : match @history (toy 2 (Q2Qc (1 # 2))) (firstn 3 evs2) (@start (toy 2 (Q2Qc (1 # 2))) true [v 0; v 0]) with Ok l => shown l | Err _ => [] end
  = repeat (true, [[1]; [9]]%Q, [[2]; [18]]%Q, [2; 2]%Q) 2.
Proof. vm_compute. reflexivity. Qed.
Example toy_two_ranks_ema : match @history (toy 2 (Q2Qc (1 # 2))) evs2 (@start (toy 2 (Q2Qc (1 # 2))) true [v 0; v 0]) with Ok l => map (fun s => (snd (fst s), snd s)) (shown l) | Err _ => [] end
  = repeat ([[3 # 2]; [18]]%Q, [3 # 2; 2]%Q) 2.
Proof. vm_compute. reflexivity. Qed.
(** One rank: the bounds are cached at the first forward; code 1 finds no row, and is replaced at the fourth. *)
Definition evs1 : list event := [one_rank [v 0; v 0]; one_rank [v 0; v 0]; one_rank [v 0; v 0]].
Example toy_cached : match @history (toy 1 (Q2Qc (1 # 2))) (firstn 1 evs1) (@start (toy 1 (Q2Qc (1 # 2))) false [v 0; v 9]) with Ok [s] => match bounds s with Some _ => true | None => false end | _ => false end = true.
Proof. vm_compute. reflexivity. Qed.
Example toy_alive : match @history (toy 1 (Q2Qc (1 # 2))) (firstn 2 evs1) (@start (toy 1 (Q2Qc (1 # 2))) false [v 0; v 9]) with Ok l => map snd (shown l) | Err _ => [] end = [[7 # 4; 1 # 4]%Q].
Proof. vm_compute. reflexivity. Qed.
Example toy_replaced : match @history (toy 1 (Q2Qc (1 # 2))) evs1 (@start (toy 1 (Q2Qc (1 # 2))) false [v 0; v 9]) with Ok l => map snd (shown l) | Err _ => [] end = [[15 # 8; 1 # 2]%Q].
Proof. vm_compute. reflexivity. Qed.
(** Without expiry (threshold 0): a code that k-means left without rows keeps its row, but its average is zero, and the first step of averages makes the code zero. *)
Definition evs0 : list event := [one_rank [v 5; v 5; v 5; v 5]; one_rank [v 5]].
Example toy_empty_cluster : match @history (toy 1 0) (firstn 1 evs0) (@start (toy 1 0) true [v 0; v 0]) with Ok l => map (fun s => (snd (fst (fst s)), snd s)) (shown l) | Err _ => [] end = [([[5]; [5]]%Q, [4; 0]%Q)].
Proof. vm_compute. reflexivity. Qed.
Example toy_empty_cluster_zero : match @history (toy 1 0) evs0 (@start (toy 1 0) true [v 0; v 0]) with Ok l => map (fun s => (nth 1 (snd (fst (fst s))) [], nth 1 (snd s) 1%Q)) (shown l) | Err _ => [] end = [([0]%Q, 0%Q)].
Proof. vm_compute. reflexivity. Qed.
