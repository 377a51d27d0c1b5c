(** * C44: the array cache of the processed NPZ decoder

    [exec_all abspath initial ls = Some w]: [w] is reached from a fresh decoder
    by the schedule [ls].  Everything below holds for every schedule: any number
    of calls, any interleaving, any outcome of every file read, any
    reconfiguration at any moment. *)
From Coq Require Import ZArith List Bool Lia.
From Verif Require Import Base BaseFacts NpzCache NpzCacheSpec NpzCacheFacts NpzCacheInv NpzCacheTrace.
Import ListNotations.
Set Implicit Arguments.
Unset Strict Implicit.
Open Scope Z_scope.

Definition reaches (abspath : path -> path) (ls : list label) (w : world) : Prop :=
  exec_all abspath initial ls = Some w.

Lemma reaches_inv abspath ls w : reaches abspath ls w -> inv w.
Proof. intros H. eapply inv_run; [apply inv_initial|exact H]. Qed.

Lemma reaches_prov abspath ls w : reaches abspath ls w -> prov ls w.
Proof. intros H. exact (prov_run inv_initial prov_initial H). Qed.

(** ** Results *)

(** The paths asked for, in order. *)
Definition invocations (ls : list label) : list path :=
  flat_map (fun l => match l with Invoke p => [p] | _ => [] end) ls.

Lemma paths_phase w i p ph ph' : call_at w i p ph ->
  map c_path (w_calls (set_phase w i ph')) = map c_path (w_calls w).
Proof.
  intros H. destruct (set_phase_calls ph' H) as [l1 [l2 [E1 E2]]]. rewrite E1, E2, !map_app. reflexivity.
Qed.

Lemma paths_wake cs : map c_path (map wake cs) = map c_path cs.
Proof. rewrite map_map. apply map_ext. intros [p ph]. destruct ph; reflexivity. Qed.

(** Call number [i] is for the absolute form of the [i]-th path asked for: two
    spellings of one path share one cache entry and one read. *)
Theorem C44_calls_use_absolute_paths : forall abspath ls w,
  reaches abspath ls w -> map c_path (w_calls w) = map abspath (invocations ls).
Proof.
  intros abspath ls w H. unfold reaches in H.
  enough (G : forall ls w0, inv w0 -> exec_all abspath w0 ls = Some w ->
    map c_path (w_calls w) = map c_path (w_calls w0) ++ map abspath (invocations ls)).
  { rewrite (G ls initial inv_initial H). reflexivity. }
  clear H ls. induction ls as [|l ls IH]; intros w0 Hi; cbn.
  - intros E. injection E as <-. rewrite app_nil_r. reflexivity.
  - destruct (exec abspath w0 l) as [w1|] eqn:E; [|discriminate]. intros H.
    rewrite (IH w1 (inv_step Hi E) H), map_app, app_assoc. f_equal.
    pose proof (step_cases Hi E) as Hk. destruct Hk; cbn [map app]; rewrite ?app_nil_r.
    + cbn in E. injection E as <-. cbn. rewrite map_app. reflexivity.
    + eapply paths_phase; eauto.
    + exact (paths_phase (w := set_cache w0 _) _ H0).
    + exact (paths_phase (w := set_loading w0 _) _ H0).
    + eapply paths_phase; eauto.
    + assert (Hc' : call_at (notify_all (set_loading (set_cache w0 d') l')) i p (woken (ReadOk a)))
        by (apply call_at_notify; eauto).
      rewrite (paths_phase _ Hc'). apply paths_wake.
    + assert (Hc' : call_at (notify_all (set_loading w0 l')) i p (woken (ReadErr e)))
        by (apply call_at_notify; eauto).
      rewrite (paths_phase _ Hc'). apply paths_wake.
    + rewrite H1. reflexivity.
Qed.

(** What a call returns is what some call, its own or another's, read from the
    same file during this history. *)
Theorem C44_result_is_a_read : forall abspath ls w i p a,
  reaches abspath ls w -> path_of w i p -> result_of w i (Ok a) ->
  exists j, path_of w j p /\ read_outcome ls j (Ok a).
Proof.
  intros abspath ls w i p a H Hp Hr. apply result_of_call in Hr. destruct Hr as [q Hr].
  assert (Hq : path_of w i q) by (apply path_of_call; eauto).
  rewrite (path_of_fun Hp Hq). exact (pv_ok (reaches_prov H) Hr).
Qed.

(** So, while a file's contents do not change, every call for it that returns
    returns its contents. *)
Theorem C44_result_is_file_contents : forall abspath ls w (content : path -> entry),
  reaches abspath ls w ->
  (forall j p a, read_outcome ls j (Ok a) -> path_of w j p -> a = content p) ->
  forall i p a, path_of w i p -> result_of w i (Ok a) -> a = content p.
Proof.
  intros abspath ls w content H Hfix i p a Hp Hr.
  destruct (C44_result_is_a_read H Hp Hr) as [j [Hj Hin]]. eapply Hfix; eauto.
Qed.

(** A call raises only what its own read of the file raised: no failure is
    handed to a waiting call, none is cached, and the cache's own checks
    (missing keys, inconsistent accounting) never fire. *)
Theorem C44_failure_is_own_read : forall abspath ls w i e,
  reaches abspath ls w -> result_of w i (Err e) -> read_outcome ls i (Err e).
Proof.
  intros abspath ls w i e H Hr. apply result_of_call in Hr. destruct Hr as [q Hr].
  exact (pv_err (reaches_prov H) Hr).
Qed.

(** When a read fails, the cache keeps its contents, the file is free to be
    read again and nobody stays asleep. *)
Theorem C44_failed_read_released : forall abspath ls w i w' e p,
  reaches abspath ls w -> path_of w i p -> exec abspath w (Publish i) = Some w' ->
  result_of w' i (Err e) ->
  w_cache w' = w_cache w /\
  (forall j c, nth_error (w_calls w') j = Some c ->
     c_phase c <> Asleep /\ (is_reading (c_phase c) = true -> c_path c <> p)).
Proof.
  intros abspath ls w i w' e p H Hp E Hr. pose proof (reaches_inv H) as Hi.
  pose proof (inv_step Hi E) as Hi'.
  apply result_of_call in Hr. destruct Hr as [q Hr]. pose proof (step_cases Hi E) as Hk.
  inversion Hk as [| | | | | ? p1 a d' l' Hc H1 H2 H3 H4 H5 H6 H7 | ? p1 e1 l' Hc H1 H2 |]; subst.
  - exfalso.
    assert (Hc' : call_at (notify_all (set_loading (set_cache w d') l')) i p1 (woken (ReadOk a)))
      by (apply call_at_notify; eauto).
    apply (call_at_set_phase _ _ _ _ Hc') in Hr. destruct Hr as [(_ & _ & Hx)|[Hx _]]; [discriminate|congruence].
  - split; [reflexivity|]. intros j c Hj. apply nth_call in Hj.
    assert (Hc' : call_at (notify_all (set_loading w l')) i p1 (woken (ReadErr e1)))
      by (apply call_at_notify; eauto).
    assert (Hpp : p = p1) by (eapply path_of_fun; [exact Hp|apply path_of_call; eauto]). subst p1.
    split.
    + intros Ea. rewrite Ea in Hj. apply (call_at_set_phase _ _ _ _ Hc') in Hj.
      destruct Hj as [(_ & _ & Hx)|[_ Hj]]; [discriminate|].
      apply call_at_notify in Hj. destruct Hj as [ph0 [_ Hx]]. destruct ph0; discriminate.
    + intros Hrd Ep. rewrite Ep in Hj.
      pose proof (inv_reader Hi' Hj Hrd) as Hin. cbn in Hin. apply H2 in Hin. tauto.
Qed.

(** ** One reader per file *)

Theorem C44_one_reader_per_file : forall abspath ls w i j ci cj,
  reaches abspath ls w ->
  nth_error (w_calls w) i = Some ci -> nth_error (w_calls w) j = Some cj ->
  is_reading (c_phase ci) = true -> is_reading (c_phase cj) = true ->
  c_path ci = c_path cj -> i = j.
Proof.
  intros abspath ls w i j ci cj H Hi Hj Ri Rj E. apply nth_call in Hi. apply nth_call in Hj.
  rewrite E in Hi. exact (inv_one_reader (reaches_inv H) Hi Hj Ri Rj).
Qed.

(** ** The limits *)

(** After every step: no file is cached twice; at most 16 memory-mapped files;
    the files in memory respect both limits unless there is only one. *)
Theorem C44_limits : forall abspath ls w,
  reaches abspath ls w ->
  NoDup (keys (w_cache w)) /\
  zlen (mapped (w_cache w)) <= 16 /\
  zlen (in_memory (w_cache w)) <= w_cap w /\
  (total_bytes (in_memory (w_cache w)) <= w_bytes_cap w \/ zlen (in_memory (w_cache w)) <= 1).
Proof.
  intros abspath ls w H. pose proof (reaches_inv H) as Hi.
  assert (Hm : w_mmap_cap w = 16).
  { clear Hi. unfold reaches in H. change 16 with (w_mmap_cap initial).
    pose proof inv_initial as Hi0. revert Hi0 H. generalize initial as w0.
    induction ls as [|l ls IH]; intros w0 Hi0; cbn; [intros E; injection E as <-; reflexivity|].
    destruct (exec abspath w0 l) as [w1|] eqn:E; [|discriminate]. intros H.
    rewrite (IH w1 (inv_step Hi0 E) H).
    destruct (step_cases Hi0 E); subst; try reflexivity.
    unfold configure. destruct n as [n|]; [|reflexivity]. destruct (n <=? 0); [reflexivity|].
    destruct b as [b|]; [|reflexivity]. destruct (b <=? 0); [reflexivity|]. cbn.
    destruct (evict _ _ _ _); reflexivity. }
  pose proof (inv_mapped Hi) as H1. pose proof (inv_memory Hi) as H2. pose proof (inv_caps Hi) as [_ H3].
  unfold mapped_fits, memory_fits in *. rewrite Hm in H1.
  split; [apply Hi|]. split; [exact H1|]. split; [lia|]. lia.
Qed.

(** [cache_state()] reports the number and the bytes of the files in memory. *)
Theorem C44_cache_state_is_exact : forall w,
  cache_state w =
  (zlen (in_memory (w_cache w)), total_bytes (in_memory (w_cache w)), w_cap w, w_bytes_cap w).
Proof.
  intros w. unfold cache_state.
  assert (E : forall d, filter (fun e => negb (is_mmap_entry e)) (map snd d) = map snd (in_memory d)).
  { unfold in_memory. induction d as [|[k v] d IH]; cbn; [reflexivity|].
    destruct (is_mmap_entry v); cbn; rewrite IH; reflexivity. }
  rewrite E. unfold total_bytes, zlen. rewrite map_length, map_map. reflexivity.
Qed.

(** ** What is kept: least recently used goes first *)

(** Only a step that serves a call or reconfigures changes the cache.  A hit
    makes the file the most recently used and drops nothing.  A successful read
    adds the file as the most recently used; then, of the memory-mapped files
    and of the files in memory separately, exactly the oldest ones beyond the
    limits are dropped and the others keep their order.  The file just read
    stays. *)
Theorem C44_least_recently_used : forall abspath ls w l w',
  reaches abspath ls w -> exec abspath w l = Some w' ->
  match l with
  | Invoke _ | Read _ _ => w_cache w' = w_cache w
  | Enter i =>
      (w_cache w' = w_cache w /\ ~ (exists a, result_of w' i (Ok a))) \/
      (exists p a, path_of w i p /\ result_of w' i (Ok a) /\ In (p, a) (w_cache w) /\
         w_cache w' = filter (fun kv => negb (fst kv =? p)) (w_cache w) ++ [(p, a)])
  | Publish i =>
      (w_cache w' = w_cache w /\ ~ (exists a, result_of w' i (Ok a))) \/
      (exists p a kept, path_of w i p /\ result_of w' i (Ok a) /\ ~ In p (keys (w_cache w)) /\
         w_cache w' = kept ++ [(p, a)] /\
         keeps_some (w_cache w') (w_cache w ++ [(p, a)]) /\
         longest_end (mapped_fits (w_mmap_cap w)) (mapped (w_cache w')) (mapped (w_cache w ++ [(p, a)])) /\
         longest_end (memory_fits (w_cap w) (w_bytes_cap w))
                     (in_memory (w_cache w')) (in_memory (w_cache w ++ [(p, a)])))
  | Configure _ _ =>
      (w' = w) \/
      (keeps_some (w_cache w') (w_cache w) /\ w_calls w' = w_calls w /\
       longest_end (mapped_fits (w_mmap_cap w')) (mapped (w_cache w')) (mapped (w_cache w)) /\
       longest_end (memory_fits (w_cap w') (w_bytes_cap w'))
                   (in_memory (w_cache w')) (in_memory (w_cache w)))
  end.
Proof.
  intros abspath ls w l w' H E. pose proof (reaches_inv H) as Hi. pose proof (step_cases Hi E) as Hk.
  destruct Hk.
  - subst w'. reflexivity.
  - left. split; [reflexivity|]. intros [a Hr]. apply result_of_call in Hr. destruct Hr as [q Hr].
    apply (call_at_set_phase _ _ _ _ H0) in Hr. destruct Hr as [(_ & _ & Hx)|[Hx _]]; [discriminate|congruence].
  - right. exists p, a. split; [apply path_of_call; eauto|]. split.
    + apply result_of_call. exists p. apply (call_at_set_phase (w := set_cache w _) _ _ _ _ H0). left. auto.
    + split; [apply od_get_In; assumption|]. cbn. rewrite od_del_keep by apply Hi. reflexivity.
  - left. split; [reflexivity|]. intros [a Hr]. apply result_of_call in Hr. destruct Hr as [q Hr].
    apply (call_at_set_phase (w := set_loading w _) _ _ _ _ H0) in Hr.
    destruct Hr as [(_ & _ & Hx)|[Hx _]]; [discriminate|congruence].
  - reflexivity.
  - right. destruct H7 as [d0 Ed]. exists p, a, d0. split; [apply path_of_call; eauto|].
    split; [|split; [|split; [exact Ed|split; [assumption|split; assumption]]]].
    + apply result_of_call. exists p.
      assert (Hc' : call_at (notify_all (set_loading (set_cache w d') l')) i p (woken (ReadOk a)))
        by (apply call_at_notify; eauto).
      apply (call_at_set_phase _ _ _ _ Hc'). left. auto.
    + apply (inv_not_cached Hi). exact (inv_reader Hi H0 eq_refl).
  - left. split; [reflexivity|]. intros [a Hr]. apply result_of_call in Hr. destruct Hr as [q Hr].
    assert (Hc' : call_at (notify_all (set_loading w l')) i p (woken (ReadErr e)))
      by (apply call_at_notify; eauto).
    apply (call_at_set_phase _ _ _ _ Hc') in Hr.
    destruct Hr as [(_ & _ & Hx)|[Hx _]]; [discriminate|congruence].
  - subst w'. unfold configure. destruct n as [n|]; [|left; reflexivity].
    destruct (n <=? 0); [left; reflexivity|].
    destruct b as [b|]; [|left; reflexivity]. destruct (b <=? 0); [left; reflexivity|]. right. cbn.
    pose proof (inv_caps Hi) as [Hc1 _].
    destruct (@evict_ok (w_mmap_cap w) n b (w_cache w) ltac:(lia) (inv_keys Hi)) as [d2 (E2 & Hk & H5 & H6)].
    rewrite E2. cbn. auto.
Qed.

(** ** Reconfiguring *)

(** [configure_cache] accepts exactly positive integers; on anything else it
    raises ValueError and changes nothing; otherwise it never fails and the new
    limits hold at once. *)
Theorem C44_configure : forall abspath ls w n b w' r,
  reaches abspath ls w -> configure w n b = (w', r) ->
  (exists en eb, n = PyInt en /\ b = PyInt eb /\ 0 < en /\ 0 < eb /\ r = Ok tt /\
     w_cap w' = en /\ w_bytes_cap w' = eb /\ w_calls w' = w_calls w /\
     keeps_some (w_cache w') (w_cache w) /\
     memory_fits en eb (in_memory (w_cache w')))
  \/ (~ (exists en eb, n = PyInt en /\ b = PyInt eb /\ 0 < en /\ 0 < eb) /\ r = Err ValueError /\ w' = w).
Proof.
  intros abspath ls w n b w' r H E. pose proof (reaches_inv H) as Hi. unfold configure in E.
  destruct n as [n|]; [|right; injection E as <- <-; split; [intros (?&?&?&_); discriminate|auto]].
  destruct (Z.leb_spec n 0).
  { right. injection E as <- <-. split; [|auto]. intros (en & eb & E1 & _ & H1 & _). injection E1 as ->. lia. }
  destruct b as [b|]; [|right; injection E as <- <-; split; [intros (?&?&?&?&_); discriminate|auto]].
  destruct (Z.leb_spec b 0).
  { right. injection E as <- <-. split; [|auto]. intros (en & eb & _ & E1 & _ & H2). injection E1 as ->. lia. }
  left. cbn in E. pose proof (inv_caps Hi) as [Hc1 _].
  destruct (@evict_ok (w_mmap_cap w) n b (w_cache w) ltac:(lia) (inv_keys Hi)) as [d2 (E2 & Hk & H5 & H6)].
  rewrite E2 in E. injection E as <- <-. exists n, b. cbn.
  repeat (split; [first [reflexivity | assumption | lia]|]). apply H6.
Qed.

(** ** Every call is served *)

(** While some call has not returned, some call can move, whatever the files
    contain: nobody sleeps for a wake-up that never comes. *)
Theorem C44_never_stuck : forall abspath ls w (outcome : res entry) i c,
  reaches abspath ls w ->
  nth_error (w_calls w) i = Some c -> is_finished (c_phase c) = false ->
  exists l w', internal l = true /\ exec abspath w l = Some w' /\
    (forall j r, l = Read j r -> r = outcome).
Proof.
  intros abspath ls w outcome i c H Hc Hf. apply (progress abspath outcome (reaches_inv H)).
  exists i, (c_path c), (c_phase c). split; [apply nth_call; exact Hc|exact Hf].
Qed.

(** [n] unfinished calls make at most [n*n + 5*n] steps, under every scheduler;
    when no call can move, every call has returned or raised. *)
Theorem C44_every_call_is_served : forall abspath ls w ms w',
  reaches abspath ls w -> forallb internal ms = true -> exec_all abspath w ms = Some w' ->
  (List.length ms <= unfinished w * unfinished w + 5 * unfinished w)%nat /\
  ((forall l, internal l = true -> exec abspath w' l = None) ->
   forall i c, nth_error (w_calls w') i = Some c -> is_finished (c_phase c) = true).
Proof.
  intros abspath ls w ms w' H Hm E. split.
  - pose proof (run_bound (reaches_inv H) Hm E). pose proof (measure_le w). lia.
  - intros Hstuck i c Hc. destruct (is_finished (c_phase c)) eqn:Hf; [reflexivity|]. exfalso.
    assert (H' : reaches abspath (ls ++ ms) w').
    { unfold reaches. rewrite exec_all_app. unfold reaches in H. rewrite H. exact E. }
    destruct (C44_never_stuck (Err OSError) H' Hc Hf) as [l [w2 (H1 & H2 & _)]].
    rewrite (Hstuck l H1) in H2. discriminate.
Qed.

(** ** No file is read twice when everything fits *)

Theorem C44_read_once_when_everything_fits :
  forall abspath n b (files : list path) (content : path -> entry) ls w,
  let whole := map (fun p => (p, content p)) files in
  1 <= n ->
  (forall p, In p files -> 0 <= entry_bytes (content p)) ->
  zlen (mapped whole) <= 16 ->
  zlen (in_memory whole) <= n -> total_bytes (in_memory whole) <= b ->
  exec_all abspath (mk_world n b 16 [] [] []) ls = Some w ->
  Forall (fun l => match l with Invoke p => In (abspath p) files | Configure _ _ => False | _ => True end) ls ->
  (forall i p a, read_outcome ls i (Ok a) -> path_of w i p -> a = content p) ->
  forall l1 i a l2 j a' l3 p,
    ls = l1 ++ Read i (Ok a) :: l2 ++ Read j (Ok a') :: l3 ->
    path_of w i p -> path_of w j p -> False.
Proof.
  intros abspath n b files content ls w whole Hn Hnn Hm Hc Hb E Hpl Hfix l1 i a l2 j a' l3 p Els Hpi Hpj.
  assert (Ho : once files n b [] (mk_world n b 16 [] [] [])).
  { constructor.
    - constructor; cbn; try constructor; try lia; try tauto; try (intros; unfold call_at in *; cbn in *).
      all: try (match goal with H : nth_error [] ?i = Some _ |- _ => destruct i; discriminate H end).
      all: unfold mapped_fits, memory_fits, zlen; cbn; lia.
    - cbn. auto.
    - constructor; unfold call_at; cbn; try tauto; intros [|k]; discriminate.
    - cbn. tauto.
    - intros k q Hq. apply path_of_call in Hq. destruct Hq as [ph Hq]. unfold call_at in Hq. cbn in Hq.
      destruct k; discriminate.
    - cbn. tauto. }
  assert (F2 : memory_fits n b (in_memory whole)) by (right; auto).
  destruct (@once_run abspath files content n b Hnn Hm F2 [] ls _ w Ho E) as [_ Hone].
  - exact Hpl.
  - intros k a0 q Hin Hq. eapply Hfix; eauto.
  - refine (Hone (l1 ++ Read i (Ok a) :: l2) j a' l3 _ i a p _ Hpj Hpi).
    + rewrite Els, <- app_assoc. reflexivity.
    + cbn. apply in_or_app. cbn. auto.
Qed.

(** ** Cases *)

Definition demo_entry (d : Z) : entry := [mk_array false 100 d].

(** Three calls ask for file 7 at once; the first read fails; the second call
    reads it; the third, which slept twice, gets the second's arrays. *)
Definition demo_schedule : list label :=
  [Invoke 7; Invoke 7; Invoke 7; Enter 0; Enter 1; Enter 2; Read 0 (Err OSError); Publish 0;
   Enter 1; Enter 2; Read 1 (Ok (demo_entry 5)); Publish 1; Enter 2].

Example demo_run : exists w,
  reaches (fun p => p) demo_schedule w /\
  result_of w 0 (Err OSError) /\ result_of w 1 (Ok (demo_entry 5)) /\ result_of w 2 (Ok (demo_entry 5)) /\
  unfinished w = 0%nat.
Proof.
  eexists. split; [vm_compute; reflexivity|].
  repeat split; try (eexists; split; reflexivity).
Qed.

(** One file larger than the byte limit is kept; a second file pushes it out. *)
Example demo_oversize :
  evict 16 6 250 [(1, [mk_array false 300 0])] = Ok [(1, [mk_array false 300 0])] /\
  evict 16 6 250 [(1, [mk_array false 300 0]); (2, [mk_array true 999 0]); (3, demo_entry 1)]
    = Ok [(2, [mk_array true 999 0]); (3, demo_entry 1)].
Proof. split; vm_compute; reflexivity. Qed.

(** The hypotheses of [C44_read_once_when_everything_fits] are met by two files
    and a schedule in which the second is asked for twice. *)
Example demo_once :
  let files := [7; 8] in let content := fun p => demo_entry p in
  let ls := [Invoke 7; Invoke 8; Invoke 8; Enter 0; Enter 1; Read 1 (Ok (demo_entry 8)); Enter 2;
             Publish 1; Read 0 (Ok (demo_entry 7)); Enter 2; Publish 0] in
  exists w, exec_all (fun p => p) (mk_world 2 200 16 [] [] []) ls = Some w /\
    keys (w_cache w) = [8; 7] /\ unfinished w = 0%nat /\
    zlen (in_memory (map (fun p => (p, content p)) files)) = 2.
Proof. eexists. split; [vm_compute; reflexivity|]. repeat split. Qed.
