(** C65: each fused AdamW kernel reads the gradient addresses of its own step, however far the device is behind the host. *)
From Verif Require Import Base BaseFacts AdamWRing.
Set Implicit Arguments. Unset Strict Implicit.

Section C65.
Variable T : Type.
Variables (t0 : T) (garbage : nat -> T).
Notation s0 := (new_plan t0 garbage).
Notation run := (run s0).

(** The rest of the stream, run to its end with the host buffers as they are: what the kernels read, and the tables left on the device. *)
Fixpoint drain (init : T) (h : nat -> T) (d : nat -> T) (l : list work) : list T * (nat -> T) :=
  match l with
  | [] => ([], d)
  | Copy k :: r => drain init h (put k (h k) d) r
  | Kernel None :: r => let '(o, d) := drain init h d r in (init :: o, d)
  | Kernel (Some k) :: r => let x := d k in let '(o, d) := drain init h d r in (x :: o, d)
  | Other :: r => drain init h d r
  end.
Lemma drain_app init h l : forall d m, drain init h d (l ++ m) = let '(o, d1) := drain init h d l in let '(o2, d2) := drain init h d1 m in (o ++ o2, d2).
Proof.
  induction l as [|w l IH]; intros d m; [cbn; destruct (drain init h d m); reflexivity|]. destruct w as [k|[k|]|]; cbn [drain app]; rewrite IH; try reflexivity.
  - destruct (drain init h d l) as (o, d1). destruct (drain init h d1 m). reflexivity.
  - destruct (drain init h d l) as (o, d1). destruct (drain init h d1 m). reflexivity.
Qed.
Lemma drain_host init h k t l : ~ List.In (Copy k) l -> forall d, drain init (put k t h) d l = drain init h d l.
Proof.
  induction l as [|w l IH]; intros N d; [reflexivity|]. assert (N' : ~ List.In (Copy k) l) by (intros Q; apply N; right; exact Q). destruct w as [j|[j|]|]; cbn [drain]; rewrite ?(IH N'); try reflexivity.
  unfold put at 2. destruct (Nat.eqb_spec j k) as [->|_]; [exfalso; apply N; left; reflexivity|reflexivity].
Qed.
Definition last_table (s : ring T) (d : nat -> T) : T := match argument s with None => initial s | Some k => d k end.
Fixpoint current (c : T) (tr : list (label T)) : T := match tr with [] => c | Moved t :: r => current t r | _ :: r => current c r end.
Lemma wanted_app c tr : forall m, wanted c (tr ++ m) = wanted c tr ++ wanted (current c tr) m.
Proof. revert c. induction tr as [|l tr IH]; intros c m; [reflexivity|]. destruct l; cbn [app wanted current]; rewrite ?IH; reflexivity. Qed.
Lemma current_app c tr : forall m, current c (tr ++ m) = current (current c tr) m.
Proof. revert c. induction tr as [|l tr IH]; intros c m; [reflexivity|]. destruct l; cbn [app current]; apply IH. Qed.
Lemma reads_app (tr m : list (label T)) : reads (tr ++ m) = reads tr ++ reads m.
Proof. apply flat_map_app. Qed.

Definition busy (s : ring T) (k : nat) : Prop := k = slot s /\ (at_ s = Trying \/ at_ s = Finally).
Record inv (tr : list (label T)) (s : ring T) : Prop := {
  i_done : (done s <= List.length (stream s))%nat;
  i_event : forall k, (event s k <= List.length (stream s))%nat;
  i_copies : forall k p, nth_error (stream s) p = Some (Copy k) -> (p < event s k)%nat \/ busy s k;
  i_reads : reads tr ++ fst (drain (initial s) (host s) (device s) (skipn (done s) (stream s))) = wanted t0 tr;
  i_last : match at_ s with
           | Synchronizing t => t = current t0 tr
           | Writing t => t = current t0 tr /\ ~ List.In (Copy (slot s)) (skipn (done s) (stream s))
           | Uploading => host s (slot s) = current t0 tr /\ ~ List.In (Copy (slot s)) (skipn (done s) (stream s))
           | _ => last_table s (snd (drain (initial s) (host s) (device s) (skipn (done s) (stream s)))) = current t0 tr
           end }.
Lemma in_skipn A (x : A) n l : List.In x (skipn n l) -> exists p, (n <= p)%nat /\ nth_error l p = Some x.
Proof. revert l. induction n as [|n IH]; intros l H; [destruct (In_nth_error _ _ H) as (p & Hp); exists p; split; [lia|exact Hp]|]. destruct l as [|a l]; [destruct H|]. destruct (IH l H) as (p & Lp & Hp). exists (S p). split; [lia|exact Hp]. Qed.
Lemma skipn_cons A (x : A) n l : nth_error l n = Some x -> skipn n l = x :: skipn (S n) l.
Proof. revert l. induction n as [|n IH]; intros [|a l] H; try discriminate; [injection H as ->; reflexivity|]. exact (IH l H). Qed.
Lemma skipn_app_le A n (l m : list A) : (n <= List.length l)%nat -> skipn n (l ++ m) = skipn n l ++ m.
Proof. intros H. rewrite skipn_app. replace (n - List.length l)%nat with 0%nat by lia. reflexivity. Qed.
Lemma nth_snoc A (l : list A) x p y : nth_error (l ++ [x]) p = Some y -> nth_error l p = Some y \/ p = List.length l /\ x = y.
Proof. intros H. destruct (Nat.lt_ge_cases p (List.length l)); [rewrite nth_error_app1 in H by assumption; auto|]. rewrite nth_error_app2 in H by assumption. destruct (p - List.length l)%nat as [|q] eqn:E; [|destruct q; discriminate]. injection H as ->. right. split; [lia|reflexivity]. Qed.


Lemma drain_snoc init h d l x : drain init h d (l ++ [x]) = let '(o, d1) := drain init h d l in
  match x with Copy k => (o, put k (h k) d1) | Kernel None => (o ++ [init], d1) | Kernel (Some k) => (o ++ [d1 k], d1) | Other => (o, d1) end.
Proof. rewrite drain_app. destruct (drain init h d l) as (o, d1). destruct x as [k|[k|]|]; cbn; rewrite ?app_nil_r; reflexivity. Qed.
Lemma inv_step tr s l s' : inv tr s -> step s l s' -> inv (tr ++ [l]) s'.
Proof.
  intros [Id Ie Ic Ir Il] [l0 s1 E|s1 r E].
  - unfold run_host in E. set (dr := drain (initial s) (host s) (device s) (skipn (done s) (stream s))) in *.
    destruct l0; destruct (at_ s) eqn:Ea; try discriminate E; try (destruct (event s (slot s) <=? done s)%nat eqn:Ev; [|discriminate E]); injection E as <-;
      (constructor; cbn [initial host device event slot argument stream done at_]; rewrite ?app_length; cbn [List.length];
       [try lia|intros k; try (specialize (Ie k); lia)| |rewrite ?reads_app, ?wanted_app; cbn [reads flat_map wanted app]; rewrite ?app_nil_r|rewrite ?current_app; cbn [current]]).
    all: fold dr.
    (* copies *)
    all: try (intros k p Hp; specialize (Ic k p); unfold busy in *; cbn [slot at_]; rewrite Ea in Ic; apply nth_snoc in Hp; destruct Hp as [Hp|(_ & Hp)]; [|discriminate]; destruct (Ic Hp) as [Q|(Q1 & Q2)]; [left; exact Q|right; split; [exact Q1|tauto]]; fail).
    all: try (intros k p Hp; specialize (Ic k p Hp); unfold busy in *; cbn [slot at_]; rewrite Ea in Ic; destruct Ic as [Q|(Q1 & [Q2|Q2])]; [left; exact Q|try discriminate; right; auto..]; fail).
    all: try exact Ir; try exact Il; try (exact (conj Il Logic.I)).
    all: try (rewrite skipn_app_le by exact Id; rewrite drain_snoc; fold dr; destruct dr as (o, d1); cbn [fst snd] in *; first [exact Ir|exact Il]; fail).
    + reflexivity.
    + split; [exact Il|]. intros Q. apply in_skipn in Q. destruct Q as (p & Lp & Hp). apply Nat.leb_le in Ev. destruct (Ic _ _ Hp) as [Q|(_ & [Q|Q])]; [lia|congruence|congruence].
    + destruct Il as (_ & Nc). rewrite drain_host by exact Nc. exact Ir.
    + destruct Il as (E & Nc). unfold put. rewrite Nat.eqb_refl. split; [exact E|exact Nc].
    + intros k p Hp. apply nth_snoc in Hp. destruct Hp as [Hp|(_ & Hp)].
      * destruct (Ic k p Hp) as [Q|(_ & [Q|Q])]; [left; exact Q|congruence|congruence].
      * right. unfold busy. cbn. injection Hp as ->. auto.
    + rewrite skipn_app_le by exact Id. rewrite drain_snoc. fold dr. destruct dr as (o, d1). unfold last_table. cbn. unfold put. rewrite Nat.eqb_refl. apply Il.
    + rewrite skipn_app_le by exact Id. rewrite drain_snoc. fold dr. destruct dr as (o, d1). unfold last_table in Il. cbn [fst snd] in *. rewrite <- Ir, <- Il. destruct (argument s); cbn; rewrite app_assoc; reflexivity.
    + rewrite skipn_app_le by exact Id. rewrite drain_snoc. fold dr. destruct dr as (o, d1). unfold last_table in *. cbn [fst snd argument] in *. destruct (argument s); exact Il.
    + unfold put. destruct (k =? slot s)%nat; [lia|apply Ie].
    + intros k p Hp. left. unfold put. destruct (Nat.eqb_spec k (slot s)) as [->|N]; [apply nth_error_Some; congruence|]. destruct (Ic k p Hp) as [Q|(Q & _)]; [exact Q|contradiction].
    + destruct Il as (E & Nc). split; [exact E|]. rewrite skipn_app_le by exact Id. intros Q. apply in_app_or in Q. destruct Q as [Q|[Q|[]]]; [exact (Nc Q)|discriminate].
    + destruct Il as (E & Nc). split; [exact E|]. rewrite skipn_app_le by exact Id. intros Q. apply in_app_or in Q. destruct Q as [Q|[Q|[]]]; [exact (Nc Q)|discriminate].
  - unfold run_device in E. destruct (nth_error (stream s) (done s)) as [x|] eqn:Ex; [|discriminate]. assert (Lt : (done s < List.length (stream s))%nat) by (apply nth_error_Some; congruence). rewrite (skipn_cons Ex) in *.
    assert (Cu : forall o : option T, current t0 (tr ++ [Ran o]) = current t0 tr) by (intros o; rewrite current_app; reflexivity).
    assert (Wa : forall o : option T, wanted t0 (tr ++ [Ran o]) = wanted t0 tr) by (intros o; rewrite wanted_app; cbn; apply app_nil_r).
    destruct x as [k|[k|]|]; injection E as <- <-; constructor; cbn [initial host device event slot argument stream done at_]; try lia; try exact Ie; try (intros k' p Hp; exact (Ic k' p Hp));
      rewrite ?Cu, ?Wa, ?reads_app; cbn [reads flat_map app]; rewrite ?app_nil_r; cbn [drain] in Ir, Il.
    all: try (rewrite <- Ir; clear; destruct (drain _ _ _ _); cbn; rewrite <- ?app_assoc; reflexivity).
    all: destruct (at_ s); try exact Il; try (destruct Il as (E & Nc); split; [exact E|]; intros Q; apply Nc; right; exact Q).
    all: try (clear - Il; unfold last_table in *; cbn [argument initial] in *; destruct (drain _ _ _ _); exact Il).
Qed.
Lemma run_inv tr s : run tr s -> inv tr s.
Proof.
  induction 1 as [|tr s l s' H IH St]; [|exact (inv_step IH St)]. constructor; cbn; auto; intros k p Hp; destruct p; discriminate.
Qed.
(** However far the device is behind: what its kernels have read so far is what they were meant to read, in order. *)
Theorem C65_every_kernel_reads_the_addresses_of_its_step tr s : run tr s -> exists rest, wanted t0 tr = reads tr ++ rest.
Proof. intros H. destruct (run_inv H) as [_ _ _ E _]. eexists. symmetry. exact E. Qed.
(** and when the stream is empty, all of them have *)
Theorem C65_all_kernels_have_read_in_the_end tr s : run tr s -> done s = List.length (stream s) -> reads tr = wanted t0 tr.
Proof. intros H E. destruct (run_inv H) as [_ _ _ R _]. rewrite E, skipn_all in R. cbn in R. rewrite app_nil_r in R. exact R. Qed.
(** The host never writes into a buffer that an upload in the stream has still to read, also when steps raised before their launch. *)
Theorem C65_no_buffer_is_overwritten_in_flight tr s t : run tr s -> at_ s = Writing t ->
  forall p, (done s <= p)%nat -> nth_error (stream s) p <> Some (Copy (slot s)).
Proof.
  intros H E p Lp Hp. destruct (run_inv H) as [_ _ _ _ L]. rewrite E in L. destruct L as (_ & N). apply N. clear - Lp Hp. revert p Lp Hp. generalize (done s) (stream s). intros n. induction n as [|n IH]; intros l p Lp Hp; [cbn; apply nth_error_In in Hp; exact Hp|]. destruct l as [|a l]; [destruct p; discriminate|]. destruct p as [|p]; [lia|]. apply (IH l p); [lia|exact Hp].
Qed.

(** ** When the host waits *)
Lemma counts tr s : run tr s -> enqueued tr = List.length (stream s) /\ executed tr = done s.
Proof.
  induction 1 as [|tr s l s' H (IH1 & IH2) St]; [split; reflexivity|]. unfold enqueued, executed in *. rewrite !filter_app, !app_length, IH1, IH2. destruct St as [l s' E|s' r E].
  - unfold run_host in E. destruct l; destruct (at_ s); try discriminate E; try (destruct (event s (slot s) <=? done s)%nat; [|discriminate E]); injection E as <-; cbn; rewrite ?app_length; cbn; lia.
  - unfold run_device in E. destruct (nth_error (stream s) (done s)) as [[k|[k|]|]|]; try discriminate; injection E as <- <-; cbn; lia.
Qed.
Lemma run_app tr m (s : ring T) : run (tr ++ m) s -> exists s1, run tr s1 /\ AdamWRing.run s1 m s.
Proof.
  revert s. induction m as [|l m IH] using rev_ind; intros s H; [rewrite app_nil_r in H; exists s; split; [exact H|constructor]|]. rewrite app_assoc in H. inversion H as [E|tr' s1 l' s' H1 St E]; [destruct ((tr ++ m)); discriminate|]. apply app_inj_tail in E. destruct E as (-> & ->). destruct (IH s1 H1) as (s2 & A & B). exists s2. split; [exact A|]. econstructor; eassumption.
Qed.
(** without a move the slot stays, and only its event changes *)
Lemma no_move_keeps (s : ring T) m (s' : ring T) : AdamWRing.run s m s' -> no_move m -> slot s' = slot s /\ (forall k, k <> slot s -> event s' k = event s k) /\ initial s' = initial s.
Proof.
  induction 1 as [|tr s1 l s2 H IH St]; intros N; [auto|]. destruct IH as (E1 & E2 & E3); [intros t Q; apply (N t); apply in_or_app; left; exact Q|]. assert (Nl : forall t, l <> Moved t) by (intros t ->; apply (N t); apply in_or_app; right; left; reflexivity).
  destruct St as [l s2 E|s2 r E].
  - unfold run_host in E. destruct l; destruct (at_ s1); try discriminate E; try (destruct (event s1 (slot s1) <=? done s1)%nat; [|discriminate E]); try (exfalso; exact (Nl _ eq_refl)); injection E as <-; cbn; (split; [exact E1|split; [|exact E3]]); try exact E2.
    all: intros k Hk; unfold put; destruct (Nat.eqb_spec k (slot s1)) as [->|_]; [congruence|apply E2; exact Hk].
  - unfold run_device in E. destruct (nth_error (stream s1) (done s1)) as [[k|[k|]|]|]; try discriminate; injection E as <- <-; cbn; auto.
Qed.
Lemma moved_step (s s' : ring T) t : step s (Moved t) s' -> slot s' = ((slot s + 1) mod 3)%nat /\ event s' = event s /\ at_ s' = Synchronizing t.
Proof. intros H. inversion H as [l s1 E|]; subst. unfold run_host in E. destruct (at_ s) eqn:Ea; try discriminate; injection E as <-; cbn; auto. Qed.
Lemma run_snoc (s s' : ring T) m l : AdamWRing.run s (m ++ [l]) s' -> exists s1, AdamWRing.run s m s1 /\ step s1 l s'.
Proof. intros H. inversion H as [E|tr' s1 l' s2 H1 St E]; [destruct m; discriminate|]. apply app_inj_tail in E. destruct E as (-> & ->). exists s1. auto. Qed.
Lemma run_nil (s s' : ring T) : AdamWRing.run s [] s' -> s' = s.
Proof. intros H. inversion H as [E|tr' s1 l' s2 H1 St E]; [reflexivity|destruct tr'; discriminate]. Qed.
Lemma slot_range tr s : run tr s -> (slot s < 3)%nat.
Proof.
  induction 1 as [|tr s l s' H IH St]; [cbn; lia|]. destruct St as [l s' E|s' r E].
  - unfold run_host in E. destruct l; destruct (at_ s); try discriminate E; try (destruct (event s (slot s) <=? done s)%nat; [|discriminate E]); injection E as <-; cbn [slot]; try exact IH. apply (Nat.mod_upper_bound (slot s + 1) 3). discriminate.
  - unfold run_device in E. destruct (nth_error (stream s) (done s)) as [[k|[k|]|]|]; try discriminate; injection E as <- <-; exact IH.
Qed.
(** Once the device has done what was in the stream when the step before the previous one began, a step does not wait. *)
Theorem C65_a_step_waits_only_for_old_work tr1 t1 tr2 t2 tr3 t3 s : no_move tr2 -> no_move tr3 ->
  run (tr1 ++ Moved t1 :: tr2 ++ Moved t2 :: tr3 ++ [Moved t3]) s -> (enqueued tr1 <= executed (tr1 ++ Moved t1 :: tr2 ++ Moved t2 :: tr3 ++ [Moved t3]))%nat ->
  exists s', step s Synchronized s'.
Proof.
  intros N2 N3 H L. destruct (counts H) as (_ & Ex). rewrite Ex in L.
  destruct (run_app H) as (sa & Ha & Hb). assert (Ia := run_inv Ha). destruct (counts Ha) as (Ea & _). assert (Sa := slot_range Ha).
  change (Moved t1 :: tr2 ++ Moved t2 :: tr3 ++ [Moved t3]) with ([Moved t1] ++ (tr2 ++ Moved t2 :: tr3 ++ [Moved t3])) in Hb.
  assert (App : forall (s1 s2 : ring T) x y, AdamWRing.run s1 (x ++ y) s2 -> exists s3, AdamWRing.run s1 x s3 /\ AdamWRing.run s3 y s2).
  { clear. intros s1 s2 x y. revert s2. induction y as [|l y IH] using rev_ind; intros s2 H; [rewrite app_nil_r in H; exists s2; split; [exact H|constructor]|]. rewrite app_assoc in H. apply run_snoc in H. destruct H as (s3 & H1 & St). destruct (IH s3 H1) as (s4 & A & B). exists s4. split; [exact A|]. econstructor; eassumption. }
  destruct (App _ _ _ _ Hb) as (sb & Hb1 & Hc). apply (run_snoc (m := [])) in Hb1. destruct Hb1 as (sx & Hx & Hb1). apply run_nil in Hx. subst sx.
  destruct (App _ _ _ _ Hc) as (sc & Hc1 & Hd). change (Moved t2 :: tr3 ++ [Moved t3]) with ([Moved t2] ++ (tr3 ++ [Moved t3])) in Hd.
  destruct (App _ _ _ _ Hd) as (sd & Hd1 & He). apply (run_snoc (m := [])) in Hd1. destruct Hd1 as (sy & Hy & Hd1). apply run_nil in Hy. subst sy.
  apply run_snoc in He. destruct He as (se & He1 & Hf).
  destruct (moved_step Hb1) as (B1 & B2 & _). destruct (no_move_keeps Hc1 N2) as (C1 & C2 & _). destruct (moved_step Hd1) as (D1 & D2 & _). destruct (no_move_keeps He1 N3) as (E1 & E2 & _). destruct (moved_step Hf) as (F1 & F2 & F3).
  assert (Sl : slot s = slot sa /\ slot sc <> slot sa /\ slot sd <> slot sa).
  { rewrite F1, E1, D1, C1, B1. destruct (slot sa) as [|[|[|k]]]; [cbn; lia..|lia]. }
  destruct Sl as (S1 & S2 & S3). assert (Ev : event s (slot s) = event sa (slot sa)). { rewrite S1, F2, E2 by congruence. rewrite D2, C2 by congruence. rewrite B2. reflexivity. }
  destruct Ia as [_ Ie _ _ _]. specialize (Ie (slot sa)). eexists. apply S_host. cbn [run_host]. rewrite F3, Ev. rewrite (proj2 (Nat.leb_le _ _)) by lia. reflexivity.
Qed.
End C65.

(** ** Examples *)
Fixpoint play (s : ring nat) (ls : list (label nat)) : option (ring nat * list (label nat)) :=
  match ls with
  | [] => Some (s, [])
  | l :: r => match (match l with Ran _ => match run_device s with Some (s', o) => Some (s', Ran o) | None => None end | _ => match run_host s l with Some s' => Some (s', l) | None => None end end) with
              | Some (s', l') => match play s' r with Some (s2, tr) => Some (s2, l' :: tr) | None => None end | None => None end
  end.
Definition dev : label nat := Ran None.
Definition moved_ (t : nat) : list (label nat) := [Moved t; Synchronized; Written; Uploaded; Launched; Recorded].
(** four steps; the device starts only when the third slot comes round again *)
Example a_slow_device : option_map snd (play (new_plan 10%nat (fun _ => 0%nat)) ([Launched; Recorded] ++ moved_ 11 ++ moved_ 12 ++ [dev] ++ moved_ 13 ++ [dev; dev; dev; dev; dev; dev]))
  = Some ([Launched; Recorded] ++ moved_ 11 ++ moved_ 12 ++ [Ran (Some 10%nat)] ++ moved_ 13 ++ [Ran None; Ran (Some 11%nat); Ran None; Ran (Some 12%nat); Ran None; Ran (Some 13%nat)]).
Proof. vm_compute. reflexivity. Qed.
(** with nothing done by the device, the third move has to wait *)
Example it_waits : option_map snd (play (new_plan 10%nat (fun _ => 0%nat)) ([Launched; Recorded] ++ moved_ 11 ++ moved_ 12 ++ [Moved 13%nat; Synchronized])) = None.
Proof. vm_compute. reflexivity. Qed.
Lemma play_run s ls s' tr : play s ls = Some (s', tr) -> forall s0 tr0, AdamWRing.run s0 tr0 s -> AdamWRing.run s0 (tr0 ++ tr) s'.
Proof.
  revert s s' tr. induction ls as [|l ls IH]; intros s s' tr E s0 tr0 H; cbn [play] in E; [injection E as <- <-; rewrite app_nil_r; exact H|].
  assert (X : forall s1 l1, step s l1 s1 -> match play s1 ls with Some (s2, tr) => Some (s2, l1 :: tr) | None => None end = Some (s', tr) -> AdamWRing.run s0 (tr0 ++ tr) s').
  { intros s1 l1 St E1. destruct (play s1 ls) as [(s2, tr1)|] eqn:Ep; [|discriminate]. injection E1 as -> <-. replace (tr0 ++ l1 :: tr1) with ((tr0 ++ [l1]) ++ tr1) by (rewrite <- app_assoc; reflexivity). apply (IH _ _ _ Ep). econstructor; eassumption. }
  destruct l; try (destruct (run_host s _) as [s1|] eqn:Eh; [|discriminate]; apply (X _ _ (S_host Eh) E)). destruct (run_device s) as [(s1, o)|] eqn:Ed; [|discriminate]. apply (X _ _ (S_device Ed) E).
Qed.
