(** Every step of AsyncWriter.v preserves the invariant. *)
From Verif Require Import Base BaseFacts AsyncWriter AsyncWriterSpec AsyncWriterFacts AsyncWriterInv.
Set Implicit Arguments.
Unset Strict Implicit.

Section Step.
Variables V K O : Type.
Notation tree := (tree K O).
Notation state := (state V K O).
Notation event := (event V K O).
Notation store := (store V).
Notation dop := (dop V).
Variables s0 s1 : store.
Notation told := (@told V K O s0).
Notation inv := (@inv V K O s0).
Notation in_flight := (@in_flight V K O s0).
Notation values := (@values V K O s0).

Definition silent (e : event) : bool := match e with EKernel _ _ _ _ | EHost _ _ _ _ => false | _ => true end.
Lemma values_silent l e : silent e = true -> values (l ++ [e]) = values l.
Proof. intros H. rewrite values_app. destruct e; try discriminate; reflexivity. Qed.

(** A job in flight survives whatever leaves its copies alone. *)
Lemma in_flight_ext (st st' : state) e j i rest hook snap m ps :
  in_flight st e j i rest hook snap m ps -> next_staged st' = next_staged st -> (next_event st <= next_event st')%nat ->
  (forall ph, told (log st) ph -> told (log st') ph) -> cpu (staged st') = cpu (staged st) ->
  (copying st e snap m -> copying st' e snap m) -> in_flight st' e j i rest hook snap m ps.
Proof.
  intros [H1 H2 H3 H4 H5 H6 H7] E1 E2 E3 E4 E5. constructor; auto; [rewrite E1; exact H1|rewrite E4; exact H5|lia].
Qed.
Lemma leaf_staged (m : memo) l n : memo_get m l = Some n -> rho m l = like l n.
Proof. unfold rho. intros ->. reflexivity. Qed.
(** Once the event has fired, staged objects have the content of the snapshot. *)
Lemma staged_content (st : state) e j i rest hook snap m ps : in_flight st e j i rest hook snap m ps -> In e (fired st) ->
  map (content (staged st)) (map (tree_map (rho m)) ps) = map (content snap) ps.
Proof.
  intros [_ H2 _ _ H5 H6 _] He. rewrite map_map. apply map_ext_in. intros p Hp. unfold content. rewrite tree_map_map. apply tree_map_ext.
  intros l Hl. specialize (H2 p l Hp Hl). destruct (memo_get m l) as [n|] eqn:E; [|contradiction]. rewrite (leaf_staged E).
  apply memo_get_In in E. destruct l as [a|a]; cbn.
  - destruct H6 as [pre post e0 _ _ _ X|post w don todo _ X|_ _ H7]; [contradiction|contradiction|]. apply H7. apply gpu_copies_In. exact E.
  - apply H5. exact E.
Qed.

Lemma step_kernel st n f : inv st -> main st = Idle K O -> inv
    {| live := live st; staged := staged st; next_staged := next_staged st; next_event := next_event st; jobs := jobs st;
       compute := compute st ++ [Kernel n f]; copyq := copyq st; fired := fired st; thread := thread st; error := error st;
       disabled := disabled st; main := Idle K O; log := log st ++ [EKernel K O n f] |}.
Proof.
  intros [I1 I2 I3 I4 I5 Ic I6 I7 I8] Hm. rewrite Hm in *.
  assert (Hk : forall ph, told (log st) ph -> told (log st ++ [EKernel K O n f]) ph) by (intros ph Hph; eapply t_snoc; [exact Hph|constructor]).
  constructor; cbn -[AsyncWriterSpec.values].
  - rewrite kernels_app, I1, values_app. reflexivity.
  - rewrite I2, values_app. reflexivity.
  - exact I3.
  - intros e He. apply in_app_or in He. destruct He as [He|[He|[]]]; [auto|discriminate].
  - intros w Hw. apply in_app_or in Hw. destruct Hw as [Hw|[Hw|[]]]; [auto|discriminate].
  - intros a b X. apply in_app_or in X. destruct X as [X|[X|[]]]; [apply (Ic _ _ X)|discriminate].
  - exact I6.
  - discriminate.
  - cbn in I8. destruct (thread st) as [[e j i rest hook|]|].
    + destruct I8 as (H1 & H2 & H3 & snap & m & ps & H4). split; [reflexivity|]. split; [exact H2|]. split; [exact H3|].
      exists snap, m, ps. eapply in_flight_ext; [exact H4|reflexivity|cbn; lia|exact Hk|reflexivity|].
      apply copying_kernel with (n := n) (f := f); reflexivity.
    + destruct (error st); [destruct I8 as (j & H & E); exists j; auto|auto].
    + destruct (error st); [destruct I8 as (j & H & E); exists j; auto|auto].
Qed.
Lemma step_host st n v : inv st -> main st = Idle K O -> inv
    {| live := {| gpu := gpu (live st); cpu := put (cpu (live st)) n v |}; staged := staged st;
       next_staged := next_staged st; next_event := next_event st; jobs := jobs st;
       compute := compute st; copyq := copyq st; fired := fired st; thread := thread st; error := error st;
       disabled := disabled st; main := Idle K O; log := log st ++ [EHost K O n v] |}.
Proof.
  intros [I1 I2 I3 I4 I5 Ic I6 I7 I8] Hm. rewrite Hm in *.
  assert (Hk : forall ph, told (log st) ph -> told (log st ++ [EHost K O n v]) ph) by (intros ph Hph; eapply t_snoc; [exact Hph|constructor]).
  constructor; cbn -[AsyncWriterSpec.values].
  - rewrite I1, values_app. reflexivity.
  - rewrite I2, values_app. reflexivity.
  - exact I3.
  - exact I4.
  - exact I5.
  - exact Ic.
  - exact I6.
  - discriminate.
  - cbn in I8. destruct (thread st) as [[e j i rest hook|]|].
    + destruct I8 as (H1 & H2 & H3 & snap & m & ps & H4). split; [reflexivity|]. split; [exact H2|]. split; [exact H3|].
      exists snap, m, ps. eapply in_flight_ext; [exact H4|reflexivity|cbn; lia|exact Hk|reflexivity|].
      apply copying_ext; reflexivity.
    + destruct (error st); [destruct I8 as (j & H & E); exists j; auto|auto].
    + destruct (error st); [destruct I8 as (j & H & E); exists j; auto|auto].
Qed.

Lemma not_running (t : option (writer K O)) : t = None \/ t = Some (Finished K O) -> running t = false.
Proof. intros [->| ->]; reflexivity. Qed.
Lemma idle_waits st w : inv st -> thread st = None \/ thread st = Some (Finished K O) -> In (Wait V w) (compute st) -> In w (fired st).
Proof.
  intros I Ht Hw. destruct (v_waits I Hw) as [H|(j & i & rest & hook & H)]; [exact H|]. destruct Ht as [Ht|Ht]; rewrite Ht in H; discriminate.
Qed.
Lemma idle_state st : inv st -> thread st = None \/ thread st = Some (Finished K O) -> waits (main st) = true ->
  if error st then exists j, told (log st) (PFailed V K O j) /\ S j = jobs st else told (log st) (PQuiet V K O (jobs st)).
Proof.
  intros I Ht Hm. pose proof (v_state I) as H. destruct (thread st) as [[]|]; destruct Ht as [Ht|Ht]; try discriminate;
    destruct (main st); try discriminate; exact H.
Qed.

(** Steps of the main thread when nothing is in flight. *)
Lemma step_quiet (st : state) (m' : mainth K O) (thr' : option (writer K O)) (err' : bool) (ev : list event) : inv st -> thread st = None \/ thread st = Some (Finished K O) ->
  draining (main st) = false -> draining m' = false ->
  (thr' = None \/ thr' = Some (Finished K O)) -> forallb silent ev = true ->
  match m' with
  | Sync j i rest hook => err' = false /\ S j = jobs st /\ exists cs, told (log st ++ ev) (PWrite j cs hook i)
             /\ skipn i cs = map (content (values (log st))) rest
  | _ => if err' then exists j, told (log st ++ ev) (PFailed V K O j) /\ S j = jobs st else told (log st ++ ev) (PQuiet V K O (jobs st))
  end ->
  inv {| live := live st; staged := staged st; next_staged := next_staged st; next_event := next_event st; jobs := jobs st;
       compute := compute st; copyq := copyq st; fired := fired st; thread := thr'; error := err';
       disabled := disabled st; main := m'; log := log st ++ ev |}.
Proof.
  intros I Ht Hd Hd' Ht' Hs Hnew. assert (Hv : values (log st ++ ev) = values (log st)).
  { clear Hnew. revert Hs. generalize (log st). induction ev as [|e ev IH]; intros l Hs; [rewrite app_nil_r; reflexivity|].
    cbn in Hs. apply andb_prop in Hs. destruct Hs as [He Hs]. replace (l ++ e :: ev) with ((l ++ [e]) ++ ev) by (rewrite <- app_assoc; reflexivity).
    rewrite IH by exact Hs. apply values_silent. exact He. }
  pose proof I as [I1 I2 I3 I4 I5 Ic I6 I7 I8]. constructor; cbn -[AsyncWriterSpec.values]; rewrite ?Hv; auto.
  - intros w Hw. left. eapply idle_waits; eassumption.
  - intros _ _. apply I6; [apply not_running; exact Ht|exact Hd].
  - rewrite Hd'. discriminate.
  - assert (Hnr : forall A B : Prop, B -> match thr' with Some (Running _ _ _ _ _) => A | _ => B end) by (intros A B HB; destruct Ht' as [->| ->]; exact HB).
    destruct thr' as [[]|]; [destruct Ht' as [X|X]; discriminate| |]; destruct m'; try discriminate; exact Hnew.
Qed.

Lemma step_call st c : inv st -> main st = Idle K O -> inv (set_main st (Joining c) []).
Proof.
  intros [I1 I2 I3 I4 I5 Ic I6 I7 I8] Hm. rewrite Hm in *. unfold set_main. rewrite app_nil_r.
  constructor; cbn; auto. destruct (thread st) as [[e j i rest hook|]|]; [|exact I8|exact I8].
  destruct I8 as (H1 & H2 & H3 & snap & m & ps & H4). split; [reflexivity|]. split; [exact H2|]. split; [exact H3|].
  exists snap, m, ps. eapply in_flight_ext; [exact H4|reflexivity|cbn; lia|auto|reflexivity|]. apply copying_ext; reflexivity.
Qed.

Lemma step_accept st ps hook sync oom : inv st -> main st = Joining (CSubmit ps hook sync oom) ->
  thread st = None \/ thread st = Some (Finished K O) -> error st = false -> inv (accept st ps hook sync oom).
Proof.
  intros I Hm Ht He. assert (Hw : waits (main st) = true) by (rewrite Hm; reflexivity).
  pose proof (idle_state I Ht Hw) as Hq. rewrite He in Hq. assert (Hd : draining (main st) = false) by (rewrite Hm; reflexivity).
  pose proof (v_copyq I (not_running Ht) Hd) as Hc.
  assert (Hsub : told (log st ++ [ESubmit V (jobs st) ps hook]) (PWrite (jobs st) (map (content (values (log st))) ps) hook 0)).
  { eapply t_snoc; [exact Hq|constructor]. }
  assert (Hv : values (log st ++ [ESubmit V (jobs st) ps hook]) = values (log st)) by (apply values_silent; reflexivity).
  assert (Iw : forall w, In (Wait V w) (compute st) -> In w (fired st)) by (intros w; apply (idle_waits I Ht)).
  destruct I as [I1 I2 I3 I4 I5 Ic I6 I7 I8]. unfold accept. destruct (disabled st || sync).
  - constructor; cbn -[AsyncWriterSpec.values]; rewrite ?Hv; auto.
    + discriminate.
    + split; [reflexivity|]. split; [reflexivity|]. exists (map (content (values (log st))) ps). split; [exact Hsub|]. reflexivity.
  - destruct (stage_all ps ([], next_staged st)) as [qs [m next]] eqn:Es.
    destruct (stage_all_ok Es) as (Om & Lm & Eq). destruct oom as [k|].
    + constructor; cbn -[AsyncWriterSpec.values gpu_copies]; rewrite ?Hv; auto.
      * rewrite kernels_app. cbn. exact I1.
      * intros e X. specialize (I3 e X). lia.
      * intros e X. apply in_app_or in X. destruct X as [X|[X|[]]]; [apply I4 in X; lia|inversion X; lia].
      * intros w X. apply in_app_or in X. destruct X as [X|[X|[]]]; [auto|discriminate].
      * intros a b X. apply in_app_or in X. destruct X as [X|[X|[]]]; [apply (Ic _ _ X)|discriminate].
      * discriminate.
      * intros _ o Ho. rewrite Hc in Ho. destruct Ho as [<-|Ho].
        -- right. exists (next_event st). split; [reflexivity|]. right. apply in_or_app. right. left. reflexivity.
        -- left. eapply gpu_copies_copies. exact Ho.
    + constructor; cbn -[AsyncWriterSpec.values gpu_copies]; rewrite ?Hv; auto.
      * rewrite kernels_app. cbn. exact I1.
      * intros e X. specialize (I3 e X). lia.
      * intros e X. apply in_app_or in X. destruct X as [X|[X|[X|[]]]]; [apply I4 in X; lia|inversion X; lia|discriminate].
      * intros w X. apply in_app_or in X. destruct X as [X|[X|[X|[]]]]; [auto|discriminate|]. inversion X; subst. right. eauto.
      * intros a b X. apply in_app_or in X. destruct X as [X|[X|[X|[]]]]; [apply (Ic _ _ X)|discriminate|discriminate].
      * discriminate.
      * discriminate.
      * split; [reflexivity|]. split; [reflexivity|]. split; [reflexivity|]. exists (values (log st)), m, ps. constructor; cbn -[AsyncWriterSpec.values gpu_copies].
        -- eauto.
        -- exact Lm.
        -- exact Eq.
        -- exact Hsub.
        -- intros a n Hin. rewrite (cpu_copies_In _ _ (mo_vals Om) Hin). rewrite I2. reflexivity.
        -- eapply cp_before with (pre := compute st) (post := []) (e0 := next_event st); cbn -[AsyncWriterSpec.values gpu_copies]; auto.
           ++ rewrite Hc. reflexivity.
           ++ intros X. apply I3 in X. lia.
           ++ intros X. apply I3 in X. lia.
           ++ intros X. apply I4 in X. lia.
           ++ intros X. apply I4 in X. lia.
        -- lia.
Qed.

Lemma step_drained st j ps hook : inv st -> main st = Draining j ps hook -> copyq st = [] -> inv
    {| live := live st; staged := staged st; next_staged := next_staged st; next_event := next_event st; jobs := jobs st;
       compute := compute st; copyq := copyq st; fired := fired st; thread := thread st; error := error st;
       disabled := true; main := Sync j 0 ps hook; log := log st |}.
Proof.
  intros [I1 I2 I3 I4 I5 Ic I6 I7 I8] Hm Hc. rewrite Hm in *. constructor; cbn; auto; try discriminate.
  destruct (thread st) as [[e j' i rest hook'|]|]; cbn in I8.
  - destruct I8 as [I8 _]. discriminate.
  - destruct I8 as (H1 & H2 & H3). split; [exact H1|]. split; [exact H2|]. eexists. split; [exact H3|]. reflexivity.
  - destruct I8 as (H1 & H2 & H3). split; [exact H1|]. split; [exact H2|]. eexists. split; [exact H3|]. reflexivity.
Qed.

Lemma sync_thread st j i rest hook : inv st -> main st = Sync j i rest hook ->
  (thread st = None \/ thread st = Some (Finished K O)) /\ error st = false /\ S j = jobs st
  /\ exists cs, told (log st) (PWrite j cs hook i) /\ skipn i cs = map (content (values (log st))) rest.
Proof.
  intros I Hm. pose proof (v_state I) as H. rewrite Hm in H. destruct (thread st) as [[e j' i' rest' hook'|]|].
  - destruct H as [H _]. discriminate.
  - split; [auto|exact H].
  - split; [auto|exact H].
Qed.
Lemma skipn_cons_nth (A : Type) i (l : list A) x r : skipn i l = x :: r -> nth_error l i = Some x /\ skipn (S i) l = r /\ (i < List.length l)%nat.
Proof.
  revert l. induction i as [|i IH]; intros [|y l] H; try discriminate.
  - cbn in H. inversion H; subst. cbn. split; [reflexivity|]. split; [reflexivity|lia].
  - cbn [skipn] in H. destruct (IH l H) as (H1 & H2 & H3). split; [exact H1|]. split; [exact H2|cbn; lia].
Qed.
Lemma skipn_nil_le (A : Type) i (l : list A) : skipn i l = [] -> (List.length l <= i)%nat.
Proof. intros H. apply (f_equal (@List.length A)) in H. rewrite skipn_length in H. cbn in H. lia. Qed.
Lemma told_le l j cs hook i : told l (PWrite j cs hook i) -> (i <= List.length cs)%nat.
Proof.
  intros H. remember (PWrite j cs hook i) as ph eqn:E. revert j cs hook i E. induction H as [|l ph e ph' H IH Hn]; intros j cs hook i E; [discriminate|].
  destruct Hn; inversion E; subst; try (eapply IH; reflexivity).
  - lia.
  - assert (nth_error cs i0 <> None) by congruence. apply nth_error_Some in H1. lia.
Qed.
(** A synchronous write sees every launched kernel. *)
Lemma sync_content (st : state) (p : tree loc) : inv st -> (on_device p = true -> compute st = []) -> content (live st) p = content (values (log st)) p.
Proof.
  intros [I1 I2 _ _ _ _ _ _ _] Hp. apply tree_map_ext. intros [a|a] Hl; cbn.
  - rewrite Hp in I1; [cbn in I1; rewrite I1; reflexivity|]. unfold on_device. apply existsb_exists. exists (Gpu a). auto.
  - rewrite I2. reflexivity.
Qed.
Lemma step_sync_commit st j i p rest hook : inv st -> main st = Sync j i (p :: rest) hook -> (on_device p = true -> compute st = []) ->
  inv (set_main st (Sync j (S i) rest hook) [ECommit j i (content (live st) p)]).
Proof.
  intros I Hm Hp. destruct (sync_thread I Hm) as (Ht & He & Hj & cs & Htold & Hcs). rewrite (sync_content I Hp).
  cbn [map] in Hcs. destruct (skipn_cons_nth Hcs) as (Hn & Hrest & _). unfold set_main. apply step_quiet; auto; [rewrite Hm; reflexivity|].
  split; [exact He|]. split; [exact Hj|]. exists cs. split; [|exact Hrest]. eapply t_snoc; [exact Htold|]. constructor. exact Hn.
Qed.
Lemma told2 l ph e1 ph1 e2 ph2 : told l ph -> next (values l) ph e1 ph1 -> next (values (l ++ [e1])) ph1 e2 ph2 -> told (l ++ [e1; e2]) ph2.
Proof. intros H H1 H2. replace (l ++ [e1; e2]) with ((l ++ [e1]) ++ [e2]) by (rewrite <- app_assoc; reflexivity). eapply t_snoc; [eapply t_snoc|]; eassumption. Qed.
Lemma step_sync_fail st j i rest hook : inv st -> main st = Sync j i rest hook -> rest <> [] \/ hook = true ->
  inv (set_main st (Idle K O) [EFail V K O j; ERaise V K O]).
Proof.
  intros I Hm Hr. destruct (sync_thread I Hm) as (Ht & He & Hj & cs & Htold & Hcs). unfold set_main. apply step_quiet; auto; [rewrite Hm; reflexivity|].
  rewrite He, <- Hj. eapply told2; [exact Htold| |constructor]. constructor. destruct Hr as [Hr|Hr]; [left|right; exact Hr].
  destruct rest as [|p rest]; [contradiction|]. destruct (skipn_cons_nth Hcs) as (_ & _ & H). exact H.
Qed.
Lemma finish l j cs hook i : told l (PWrite j cs hook i) -> i = List.length cs ->
  told (l ++ (if hook then [EHook V K O j] else []) ++ [EDone V K O j]) (PQuiet V K O (S j)).
Proof.
  intros H Hi. destruct hook; cbn [app].
  - eapply told2; [exact H|constructor; exact Hi|constructor].
  - eapply t_snoc; [exact H|econstructor; exact Hi].
Qed.
Lemma step_sync_done st j i hook : inv st -> main st = Sync j i [] hook ->
  inv (set_main st (Idle K O) ((if hook then [EHook V K O j] else []) ++ [EDone V K O j])).
Proof.
  intros I Hm. destruct (sync_thread I Hm) as (Ht & He & Hj & cs & Htold & Hcs). unfold set_main. apply step_quiet; auto; [rewrite Hm; reflexivity|destruct hook; reflexivity|].
  rewrite He, <- Hj. eapply finish; [exact Htold|]. cbn in Hcs. apply skipn_nil_le in Hcs. apply told_le in Htold. lia.
Qed.

(** The writer thread. *)
Lemma running_state st e j i rest hook : inv st -> thread st = Some (Running e j i rest hook) ->
  waits (main st) = true /\ error st = false /\ S j = jobs st /\ exists snap m ps, in_flight st e j i rest hook snap m ps.
Proof. intros I Ht. pose proof (v_state I) as H. rewrite Ht in H. exact H. Qed.
Lemma wait_not_draining (m : mainth K O) : waits m = true -> draining m = false.
Proof. destruct m; cbn; congruence. Qed.

Lemma step_commit st e j i p rest hook : inv st -> thread st = Some (Running e j i (p :: rest) hook) -> In e (fired st) -> inv
    {| live := live st; staged := staged st; next_staged := next_staged st; next_event := next_event st; jobs := jobs st;
       compute := compute st; copyq := copyq st; fired := fired st; thread := Some (Running e j (S i) rest hook); error := error st;
       disabled := disabled st; main := main st; log := log st ++ [ECommit j i (content (staged st) p)] |}.
Proof.
  intros I Ht He. destruct (running_state I Ht) as (Hw & Herr & Hj & snap & m & ps & F).
  pose proof (staged_content F He) as Hsc. pose proof (wait_not_draining Hw) as Hd. destruct I as [I1 I2 I3 I4 I5 Ic I6 I7 I8].
  assert (Hv : values (log st ++ [ECommit j i (content (staged st) p)]) = values (log st)) by (apply values_silent; reflexivity).
  destruct F as [F1 F2 F3 F4 F5 F6 F7]. symmetry in F3. destruct (skipn_cons_nth F3) as (Hn & Hrest & _).
  constructor; cbn -[AsyncWriterSpec.values]; rewrite ?Hv; auto.
  - intros w Hw'. apply I5 in Hw'. destruct Hw' as [Hw'|(j1 & i1 & r1 & h1 & Hw')]; [auto|]. rewrite Ht in Hw'. inversion Hw'; subst. left. exact He.
  - discriminate.
  - split; [exact Hw|]. split; [exact Herr|]. split; [exact Hj|]. exists snap, m, ps. constructor; cbn -[AsyncWriterSpec.values]; auto.
    + eapply t_snoc; [exact F4|]. constructor. rewrite <- Hsc. apply map_nth_error. exact Hn.
    + eapply copying_ext; [..|exact F6]; reflexivity.
Qed.
Lemma step_writer_end (st : state) e j i rest hook (err' : bool) (ev : list event) : inv st -> thread st = Some (Running e j i rest hook) -> In e (fired st) ->
  forallb silent ev = true ->
  (if err' then told (log st ++ ev) (PFailed V K O j) else told (log st ++ ev) (PQuiet V K O (S j))) -> inv
    {| live := live st; staged := staged st; next_staged := next_staged st; next_event := next_event st; jobs := jobs st;
       compute := compute st; copyq := copyq st; fired := fired st; thread := Some (Finished K O); error := err';
       disabled := disabled st; main := main st; log := log st ++ ev |}.
Proof.
  intros I Ht He Hs Hnew. assert (Hv : values (log st ++ ev) = values (log st)).
  { clear Hnew. revert Hs. generalize (log st). induction ev as [|e1 ev IH]; intros l Hs; [rewrite app_nil_r; reflexivity|].
    cbn in Hs. apply andb_prop in Hs. destruct Hs as [He1 Hs]. replace (l ++ e1 :: ev) with ((l ++ [e1]) ++ ev) by (rewrite <- app_assoc; reflexivity).
    rewrite IH by exact Hs. apply values_silent. exact He1. }
  destruct (running_state I Ht) as (Hw & Herr & Hj & snap & m & ps & F). pose proof (wait_not_draining Hw) as Hd.
  destruct I as [I1 I2 I3 I4 I5 Ic I6 I7 I8]. constructor; cbn -[AsyncWriterSpec.values]; rewrite ?Hv; auto.
  - intros w Hw'. apply I5 in Hw'. destruct Hw' as [Hw'|(j1 & i1 & r1 & h1 & Hw')]; [auto|]. rewrite Ht in Hw'. inversion Hw'; subst. left. exact He.
  - intros _ _. destruct (f_copying F) as [pre post e0 _ _ _ X|post w don todo _ X|_ X _]; [contradiction|contradiction|exact X].
  - destruct (main st); try discriminate; (destruct err'; [exists j; split; [exact Hnew|exact Hj]|rewrite <- Hj; exact Hnew]).
Qed.

(** The device. *)
Lemma step_compute (st st' : state) o rest : inv st -> compute st = o :: rest -> exec st o = Some (live st', staged st', fired st') ->
  compute st' = rest -> copyq st' = copyq st -> next_staged st' = next_staged st -> next_event st' = next_event st -> jobs st' = jobs st ->
  thread st' = thread st -> error st' = error st -> main st' = main st -> log st' = log st -> inv st'.
Proof.
  intros [I1 I2 I3 I4 I5 Ic I6 I7 I8] Hc He E1 E2 E3 E4 E5 E6 E7 E8 E9.
  assert (Hcopy : forall a b, o <> Copy V a b) by (intros a b X; subst o; apply (Ic a b); rewrite Hc; left; reflexivity).
  assert (Hg : kernels rest (gpu (live st')) = kernels (compute st) (gpu (live st))) by (rewrite Hc; destruct o; ex He; reflexivity).
  assert (Hcpu : cpu (live st') = cpu (live st)) by (destruct o; ex He; reflexivity).
  assert (Hscpu : cpu (staged st') = cpu (staged st)) by (destruct o; ex He; reflexivity).
  assert (Hf : forall e, In e (fired st) -> In e (fired st')) by (intros e X; destruct o; ex He; try exact X; right; exact X).
  assert (Hf2 : forall e, In e (fired st') -> In e (fired st) \/ In (Record_ V e) (compute st)).
  { intros e X. destruct o; ex He; try (left; rewrite Y3; exact X). rewrite <- Y3 in X. destruct X as [<-|X]; [right; rewrite Hc; left; reflexivity|auto]. }
  constructor; rewrite ?E1, ?E2, ?E4, ?E5, ?E6, ?E7, ?E8, ?E9.
  - rewrite Hg. exact I1.
  - rewrite Hcpu. exact I2.
  - intros e X. apply Hf2 in X. destruct X as [X|X]; auto.
  - intros e X. apply I4. rewrite Hc. right. exact X.
  - intros w X. destruct (I5 w) as [Y|Y]; [rewrite Hc; right; exact X|auto|auto].
  - intros a b X. apply (Ic a b). rewrite Hc. right. exact X.
  - exact I6.
  - intros Hd o1 Ho. destruct (I7 Hd o1 Ho) as [H|(w & -> & [H|H])]; [auto|right; exists w; auto|].
    right. exists w. split; [reflexivity|]. rewrite Hc in H. destruct H as [H|H]; [|auto]. subst o. left. ex He. left. reflexivity.
  - destruct (thread st) as [[e j i r hook|]|]; [|exact I8|exact I8]. destruct I8 as (H1 & H2 & H3 & snap & m & ps & H4).
    split; [exact H1|]. split; [exact H2|]. split; [exact H3|]. exists snap, m, ps.
    eapply in_flight_ext; [exact H4|exact E3|lia|rewrite E9; auto|exact Hscpu|]. eapply copying_compute; eassumption.
Qed.
Lemma step_copy (st st' : state) o rest : inv st -> copyq st = o :: rest -> exec st o = Some (live st', staged st', fired st') ->
  compute st' = compute st -> copyq st' = rest -> next_staged st' = next_staged st -> next_event st' = next_event st -> jobs st' = jobs st ->
  thread st' = thread st -> error st' = error st -> main st' = main st -> log st' = log st -> inv st'.
Proof.
  intros I Hc He E1 E2 E3 E4 E5 E6 E7 E8 E9.
  (* what may be at the head of the copy stream *)
  assert (Ho : (exists a b, o = Copy V a b) \/ (exists w, o = Wait V w) \/ (exists e j i r h, o = Record_ V e /\ thread st = Some (Running e j i r h))).
  { pose proof (v_copyq I) as Q. destruct (thread st) as [[e j i r h|]|] eqn:Et.
    - destruct (running_state I Et) as (_ & _ & _ & snap & m & ps & F).
      destruct (f_copying F) as [pre post e0 _ X|post w don todo _ _ _ X Y Z|_ X _]; rewrite Hc in X.
      + inversion X. eauto.
      + destruct Z as [->|(e0 & -> & _)]; [|inversion X; eauto]. destruct todo as [|x todo]; inversion X; subst.
        * right. right. exists e, j, i, r, h. auto.
        * left. eapply gpu_copies_copies. rewrite Y. apply in_or_app. right. left. reflexivity.
      + discriminate.
    - cbn in Q. destruct (draining (main st)) eqn:Ed; [|rewrite Hc in Q; discriminate Q; reflexivity].
      destruct (v_drain I Ed (o := o)) as [X|(w & -> & _)]; [rewrite Hc; left; reflexivity|auto|eauto].
    - cbn in Q. destruct (draining (main st)) eqn:Ed; [|rewrite Hc in Q; discriminate Q; reflexivity].
      destruct (v_drain I Ed (o := o)) as [X|(w & -> & _)]; [rewrite Hc; left; reflexivity|auto|eauto]. }
  assert (Hlive : live st' = live st) by (destruct Ho as [(a & b & ->)|[(w & ->)|(e & j & i & r & h & -> & _)]]; ex He; reflexivity).
  assert (Hscpu : cpu (staged st') = cpu (staged st)) by (destruct Ho as [(a & b & ->)|[(w & ->)|(e & j & i & r & h & -> & _)]]; ex He; reflexivity).
  assert (Hf : forall e, In e (fired st) -> In e (fired st')) by (intros e X; destruct o; ex He; try exact X; right; exact X).
  assert (Hf2 : forall e, In e (fired st') -> (e < next_event st)%nat).
  { intros e X. destruct Ho as [(a & b & ->)|[(w & ->)|(e1 & j & i & r & h & -> & Ht)]]; ex He; try (rewrite <- Y3 in X; apply (v_fired I X)).
    rewrite <- Y3 in X. destruct X as [<-|X]; [|apply (v_fired I X)]. destruct (running_state I Ht) as (_ & _ & _ & snap & m & ps & F). apply (f_event F). }
  destruct I as [I1 I2 I3 I4 I5 Ic I6 I7 I8].
  constructor; rewrite ?E1, ?E2, ?E4, ?E5, ?E6, ?E7, ?E8, ?E9, ?Hlive; auto.
  - intros w X. destruct (I5 w X) as [Y|Y]; auto.
  - intros Hr Hd. rewrite (I6 Hr Hd) in Hc. discriminate.
  - intros Hd o1 Ho1. destruct (I7 Hd o1) as [H|(w & -> & [H|H])]; [rewrite Hc; right; exact Ho1|auto|right; exists w; auto|right; exists w; auto].
  - destruct (thread st) as [[e j i r hook|]|]; [|exact I8|exact I8]. destruct I8 as (H1 & H2 & H3 & snap & m & ps & H4).
    split; [exact H1|]. split; [exact H2|]. split; [exact H3|]. exists snap, m, ps. destruct (f_memo H4) as [low Hm].
    eapply in_flight_ext; [exact H4|exact E3|lia|rewrite E9; auto|exact Hscpu|]. eapply copying_copy; [apply (mo_vals Hm)|eassumption..].
Qed.

Theorem step_inv st st' : inv st -> step st st' -> inv st'.
Proof.
  intros I H. destruct H.
  - apply step_kernel; assumption.
  - apply step_host; assumption.
  - apply step_call; assumption.
  - assert (Hw : waits (main st) = true) by (rewrite H; reflexivity). pose proof (idle_state I H0 Hw) as Hq. rewrite H1 in Hq. destruct Hq as (j & Hq & Hj).
    apply step_quiet; auto; [apply wait_not_draining; exact Hw|]. cbn. rewrite <- Hj. eapply t_snoc; [exact Hq|constructor].
  - assert (Hw : waits (main st) = true) by (rewrite H; reflexivity). pose proof (idle_state I H0 Hw) as Hq. rewrite H1 in Hq.
    apply step_quiet; auto; [apply wait_not_draining; exact Hw|]. cbn. eapply t_snoc; [exact Hq|constructor].
  - apply step_accept; assumption.
  - apply step_drained; assumption.
  - apply step_sync_commit; assumption.
  - eapply step_sync_fail; eassumption.
  - eapply step_sync_done; eassumption.
  - apply step_commit; assumption.
  - destruct (running_state I H) as (_ & _ & _ & snap & m & ps & F).
    eapply step_writer_end; eauto. cbn. eapply t_snoc; [apply (f_told F)|]. constructor. destruct H1 as [H1|H1]; [left|right; exact H1].
    destruct rest as [|p rest]; [contradiction|]. pose proof (f_rest F) as X. symmetry in X. destruct (skipn_cons_nth X) as (_ & _ & Y).
    rewrite map_length in Y |- *. exact Y.
  - destruct (running_state I H) as (_ & Herr & _ & snap & m & ps & F). rewrite Herr.
    eapply step_writer_end; eauto; [destruct hook; reflexivity|]. cbn. eapply finish; [apply (f_told F)|].
    pose proof (f_rest F) as X. symmetry in X. apply skipn_nil_le in X. pose proof (told_le (f_told F)) as Y. rewrite map_length in *. lia.
  - eapply step_compute; eauto; reflexivity.
  - eapply step_copy; eauto; reflexivity.
Qed.
Theorem reachable_inv st : reachable s0 s1 st -> inv st.
Proof. induction 1; [apply init_inv|eapply step_inv; eassumption]. Qed.
End Step.
