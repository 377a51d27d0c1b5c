(** C64: whatever path it takes and whatever it has cached, MultiTensorAdamW does the AdamW update to every parameter that has a gradient and to nothing else. *)
From Coq Require Import Permutation Field_theory Field.
From Coq Require Import QArith Qcanon.
From Verif Require Import Base BaseFacts AdamW AdamWSpec AdamWFacts AdamWRun AdamWPlan AdamWStep.
Set Implicit Arguments. Unset Strict Implicit.
Local Open Scope Z_scope.

Section C64.
Variable R : Type.
Variables (r0 r1 : R) (radd rmul rsub : R -> R -> R) (ropp : R -> R) (rdiv : R -> R -> R) (rinv : R -> R).
Variable sqrt : R -> R.
Variable majority : list nat -> nat.
Variable block : nat.
Variable schedule : list (nat * nat) -> list (nat * nat).
Notation step := (step r0 r1 radd rmul rsub ropp rdiv sqrt majority block schedule).
Notation stepped := (stepped r0 r1 radd rmul rsub ropp rdiv sqrt).

(** The life of an optimizer, with what it saw at its last step unless a call that drops the cache came in between. *)
Inductive history : opt -> option (view R) -> Prop :=
| H_new gs : history (fresh_optimizer gs) None
| H_step s last w mem s' mem' : history s last -> allowed last w s -> sound w s -> step w s mem = Ok (s', mem') -> history s' (Some w)
| H_load s last st : history s last -> history (load_state_dict st s) None
| H_add s last ps : history s last -> history (add_param_group ps s) None.

Hypothesis F : field_theory r0 r1 radd rmul rsub ropp rdiv rinv eq.
Hypothesis block_pos : (0 < block)%nat.
Hypothesis scheduled : forall l, Permutation (schedule l) l.

Definition cache_inv (s : opt) (last : option (view R)) : Prop :=
  forall j p, cache s j = Some p -> exists w0 ps, last = Some w0 /\ nth_error (groups s) j = Some ps /\ cached block w0 s (hypers w0 j) ps p.
Lemma sound_is_on (w : view R) s : sound w s -> sound_on w s (ids s).
Proof. intros H. exact H. Qed.
Lemma step_ok s last (w : view R) : cache_inv s last -> allowed last w s -> sound w s -> forall mem, exists s' mem', step w s mem = Ok (s', mem') /\ stepped w s mem s' mem' /\ cache_inv s' (Some w).
Proof.
  intros Inv Al So mem. assert (ND : NoDup (ids s)) by apply So.
  destruct (steps_ok sqrt F majority block_pos scheduled (w := w) (last := last) (all := ids s) (gs := groups s) (index := 0) (s := s) mem ND (incl_refl _) (sound_is_on So)) as (s' & mem' & E & G & C & Co & O & St & Fr).
  { intros j ps Hj. cbn [Nat.add]. split.
    - unfold cache_ok. destruct (cache s j) as [p|] eqn:Ec; [|exact Logic.I]. destruct (Inv j p Ec) as (w0 & qs & El & Hq & Cq). exists w0. split; [exact El|]. assert (qs = ps) by congruence. subst. exact Cq.
    - intros w0 ->. exact (Al j ps Hj). }
  exists s', mem'. split; [exact E|]. split.
  - split; [exact G|]. split; [intros j ps i Hj Hi; exact (O j ps i Hj Hi)|]. split; [|exact St]. intros x Nx. apply Fr. intros (i & k & a & Hi & Ha & Ex). apply filter_In in Hi. destruct Hi as (Hi & Hg). apply (Nx i k a Hi); [unfold has_grad in Hg; destruct (grad w i); [discriminate|discriminate Hg]|exact Ha|exact Ex].
  - intros j p Hp. destruct (nth_error (groups s) j) as [ps|] eqn:Hj.
    + destruct (C j ps Hj) as (q & Hq & Cq). cbn [Nat.add] in *. assert (q = p) by congruence. subst. exists w, ps. rewrite G. auto.
    + exfalso. rewrite Co in Hp by (apply nth_error_None in Hj; lia). destruct (Inv j p Hp) as (w0 & qs & _ & Hq & _). congruence.
Qed.
Lemma history_inv s last : history s last -> cache_inv s last.
Proof.
  induction 1 as [gs|s last w mem s' mem' H IH Al So E|s last st H IH|s last ps H IH]; try (intros j p Hp; discriminate Hp).
  destruct (step_ok IH Al So mem) as (s2 & mem2 & E2 & _ & I2). rewrite E in E2. injection E2 as -> ->. exact I2.
Qed.
(** After any history, every step succeeds and does exactly the AdamW update: in whatever order the lanes of the kernel run, whichever step count
    [majority] picks, whatever the size of a block. *)
Theorem C64_every_step_is_the_adamw_update s last (w : view R) : history s last -> allowed last w s -> sound w s ->
  forall mem, exists s' mem', step w s mem = Ok (s', mem') /\ stepped w s mem s' mem'.
Proof. intros H Al So mem. destruct (step_ok (history_inv H) Al So mem) as (s' & mem' & E & St & _). exists s', mem'. auto. Qed.
End C64.

(** The path does not show: two optimizers that differ in block size, order of lanes, choice of the shared step count and in what they have cached
    do the same to states and to memory. *)
Theorem C64_the_path_does_not_show R r0 r1 radd rmul rsub ropp rdiv rinv (sqrt : R -> R) : field_theory r0 r1 radd rmul rsub ropp rdiv rinv eq ->
  forall maj maj' block block' sched sched', (0 < block)%nat -> (0 < block')%nat -> (forall l, Permutation (sched l) l) -> (forall l, Permutation (sched' l) l) ->
  forall s t last last' (w : view R), history r0 r1 radd rmul rsub ropp rdiv sqrt maj block sched s last -> history r0 r1 radd rmul rsub ropp rdiv sqrt maj' block' sched' t last' ->
  groups s = groups t -> (forall i, state s i = state t i) -> allowed last w s -> allowed last' w t -> sound w s ->
  forall mem, exists s' t' m m', step r0 r1 radd rmul rsub ropp rdiv sqrt maj block sched w s mem = Ok (s', m) /\ step r0 r1 radd rmul rsub ropp rdiv sqrt maj' block' sched' w t mem = Ok (t', m')
    /\ (forall i, state s' i = state t' i) /\ (forall x, m x = m' x).
Proof.
  intros F maj maj' block block' sched sched' B B' S S' s t last last' w Hs Ht G St As At So mem.
  assert (Mo : forall i, moments w t i = moments w s i) by (intros i; unfold moments; rewrite St; reflexivity).
  assert (Tg : forall i k, target w t i k = target w s i k) by (intros i k; apply target_moments, Mo).
  assert (Ids : ids t = ids s) by (unfold ids; rewrite G; reflexivity).
  assert (So' : sound w t). { unfold sound. rewrite Ids. exact (sound_on_ext (fun i _ => Mo i) (sound_is_on So)). }
  destruct (C64_every_step_is_the_adamw_update F B S Hs As So mem) as (s' & m & E & (_ & O & Fr & Sf)).
  destruct (C64_every_step_is_the_adamw_update F B' S' Ht At So' mem) as (t' & m' & E' & (_ & O' & Fr' & Sf')).
  exists s', t', m, m'. split; [exact E|]. split; [exact E'|].
  assert (Gr : forall i, List.In i (ids s) -> exists j ps, nth_error (groups s) j = Some ps /\ List.In i ps).
  { intros i Hi. unfold ids in Hi. apply in_concat in Hi. destruct Hi as (ps & Hp & Hi). destruct (In_nth_error _ _ Hp) as (j & Hj). exists j, ps. auto. }
  assert (Oc : forall i, old_count t i = old_count s i) by (intros i; unfold old_count; rewrite St; reflexivity).
  assert (Om : forall i x, old_moment r0 t mem i x = old_moment r0 s mem i x) by (intros i x; unfold old_moment; rewrite St; reflexivity).
  split.
  - intros i. destruct (in_dec Nat.eq_dec i (ids s)) as [Hi|Ni]; [|rewrite Sf by exact Ni; rewrite Sf' by (rewrite Ids; exact Ni); apply St].
    destruct (Gr i Hi) as (j & ps & Hj & Hp). specialize (O j ps i Hj Hp). rewrite <- G in O'. specialize (O' j ps i Hj Hp). destruct (grad w i); [|rewrite O, O'; apply St]. destruct O as (-> & _). destruct O' as (-> & _). rewrite Oc, Mo. reflexivity.
  - intros x.
    (* a cell that is written, or none *)
    assert (Dec : (exists i k a, List.In i (ids s) /\ has_grad w i = true /\ index_of (target w s i k) a /\ x = addr (target w s i k) a)
                  \/ ~ (exists i k a, List.In i (ids s) /\ has_grad w i = true /\ index_of (target w s i k) a /\ x = addr (target w s i k) a)).
    { clear - s. set (all := flat_map (fun i => if has_grad w i then flat_map (fun k => map (addr (target w s i k)) (indices (shape (target w s i k)))) [Param; First; Second] else []) (ids s)).
      assert (X : List.In x all <-> exists i k a, List.In i (ids s) /\ has_grad w i = true /\ index_of (target w s i k) a /\ x = addr (target w s i k) a).
      { unfold all. rewrite in_flat_map. split.
        - intros (i & Hi & H). destruct (has_grad w i) eqn:Hg; [|destruct H]. apply in_flat_map in H. destruct H as (k & _ & H). apply in_map_iff in H. destruct H as (a & <- & Ha). apply in_indices in Ha. exists i, k, a. auto.
        - intros (i & k & a & Hi & Hg & Ha & ->). exists i. split; [exact Hi|]. rewrite Hg. apply in_flat_map. exists k. split; [destruct k; cbn; auto|]. apply in_map. apply in_indices. exact Ha. }
      rewrite <- X. destruct (in_dec Z.eq_dec x all); auto. }
    destruct Dec as [(i & k & a & Hi & Hg & Ha & ->)|N].
    + destruct (Gr i Hi) as (j & ps & Hj & Hp). specialize (O j ps i Hj Hp). rewrite <- G in O'. specialize (O' j ps i Hj Hp). unfold has_grad in Hg. destruct (grad w i) as [g|]; [|discriminate].
      destruct O as (_ & O). destruct O' as (_ & O'). assert (Ha' : index_of (param w i) a) by (apply (index_target k a (sound_is_on So) Hi); exact Ha). specialize (O a Ha'). specialize (O' a Ha'). cbv beta zeta in O, O'. rewrite !Tg, !Om, Oc in O'. rewrite <- O in O'. injection O' as E1 E2 E3. destruct k; auto.
    + rewrite Fr; [rewrite Fr'; [reflexivity|]|].
      * intros i k a Hi Hg Ha Ex. apply N. rewrite Ids in Hi. rewrite Tg in *. exists i, k, a. split; [exact Hi|]. split; [unfold has_grad; destruct (grad w i); [reflexivity|contradiction]|auto].
      * intros i k a Hi Hg Ha Ex. apply N. exists i, k, a. split; [exact Hi|]. split; [unfold has_grad; destruct (grad w i); [reflexivity|contradiction]|auto].
Qed.

(** ** Examples, over the rationals with the identity for [sqrt] *)
Module Examples.
Definition Qc_field : field_theory 0%Qc 1%Qc Qcplus Qcmult Qcminus Qcopp Qcdiv Qcinv eq := Qcft.
Definition t_ (p : Z) (sh st : list nat) : tensor := {| ptr := p; shape := sh; strides := st; plain := true; sparse := false |}.
Definition h_ (mx : bool) : hyper Qc := {| lr := Q2Qc (1 # 2); weight_decay := 0%Qc; beta1 := Q2Qc (1 # 2); beta2 := Q2Qc (1 # 2); eps := 1%Qc; maximize := mx |}.
(** Parameter 0 is a vector of 3 that starts at [a]; parameter 1 is a 2x2 matrix stored by columns whose gradient is stored by rows; parameter 2 has no gradient. *)
Definition w_ (a : Z) (mx : bool) : view Qc :=
  {| param := fun i => match i with O => t_ a [3] [1] | 1 => t_ 110 [2; 2] [1; 2] | _ => t_ 120 [2] [1] end%nat;
     grad := fun i => match i with O => Some (t_ 200 [3] [1]) | 1 => Some (t_ 210 [2; 2] [2; 1]) | _ => None end%nat;
     hypers := fun _ => h_ mx;
     fresh := fun i => match i with O => (t_ 300 [3] [1], t_ 400 [3] [1]) | 1 => (t_ 310 [2; 2] [1; 2], t_ 410 [2; 2] [1; 2]) | _ => (t_ 320 [2] [1], t_ 420 [2] [1]) end%nat |}.
Definition gs_ : list (list nat) := [[0; 1]; [2]]%nat.
Definition s0 := fresh_optimizer gs_.
(** memory: the address, but 1 for the gradients *)
Definition mem0 : memory Qc := fun x => if (200 <=? x) && (x <? 300) then 1%Qc else Q2Qc (inject_Z x).
Notation step_ := (step 0%Qc 1%Qc Qcplus Qcmult Qcminus Qcopp Qcdiv (fun x => x) (fun l => hd 0%nat l) 2 (@rev _)).

Definition cells_b (w : view Qc) (s : opt) : list (nat * nat * list nat * Z) :=
  flat_map (fun i => flat_map (fun k => map (fun a => (i, match k with Param => 0%nat | First => 1%nat | Second => 2%nat end, a, addr (target w s i k) a)) (indices (shape (target w s i k)))) [Param; First; Second]) (ids s).
Lemma cells_in w s i k a : List.In i (ids s) -> index_of (target w s i k) a ->
  List.In (i, match k with Param => 0%nat | First => 1%nat | Second => 2%nat end, a, addr (target w s i k) a) (cells_b w s).
Proof. intros Hi Ha. unfold cells_b. apply in_flat_map. exists i. split; [exact Hi|]. apply in_flat_map. exists k. split; [destruct k; cbn; auto|]. apply in_map_iff. exists a. split; [reflexivity|]. apply in_indices. exact Ha. Qed.
Definition key_eqb (x y : nat * nat * list nat * Z) : bool :=
  let '(i, k, a, _) := x in let '(j, l, b, _) := y in (i =? j)%nat && (k =? l)%nat && list_eqb Nat.eqb a b.
Lemma list_eqb_nat l : forall m, list_eqb Nat.eqb l m = true -> l = m.
Proof. induction l as [|a l IH]; intros [|b m] H; try discriminate; [reflexivity|]. cbn in H. apply Bool.andb_true_iff in H. destruct H as (H1 & H2). apply Nat.eqb_eq in H1. subst. f_equal. apply IH. exact H2. Qed.
Definition sound_b (w : view Qc) (s : opt) : bool :=
  forallb (fun x => forallb (fun y => negb (snd x =? snd y) || key_eqb x y) (cells_b w s)) (cells_b w s)
  && forallb (fun i => match grad w i with None => true | Some g => forallb (fun a => forallb (fun y => negb (addr g a =? snd y)) (cells_b w s)) (indices (shape g)) end) (ids s).
Lemma sound_by w s : NoDup (ids s) -> (forall i k, List.In i (ids s) -> shaped (target w s i k) (shape (param w i))) ->
  (forall i g, List.In i (ids s) -> grad w i = Some g -> shaped g (shape (param w i)) /\ ptr g <> 0 /\ sparse g = false) -> sound_b w s = true -> sound w s.
Proof.
  intros H1 H2 H3 H. apply Bool.andb_true_iff in H. destruct H as (B1 & B2). rewrite forallb_forall in B1, B2. split; [exact H1|]. split; [exact H2|]. split; [exact H3|]. split.
  - intros i j k l a b Hi Hj Ha Hb E. specialize (B1 _ (cells_in Hi Ha)). rewrite forallb_forall in B1. specialize (B1 _ (cells_in Hj Hb)). cbn [snd] in B1. rewrite E, Z.eqb_refl in B1. cbn [negb orb] in B1. unfold key_eqb in B1. rewrite !Bool.andb_true_iff in B1. destruct B1 as ((K1 & K2) & K3). apply Nat.eqb_eq in K1. apply Nat.eqb_eq in K2. apply list_eqb_nat in K3. split; [exact K1|]. split; [destruct k, l; try discriminate; reflexivity|exact K3].
  - intros i g a j l b Hi Hj Hg Ha Hb E. specialize (B2 i Hi). rewrite Hg in B2. rewrite forallb_forall in B2. specialize (B2 a (proj2 (in_indices _ _) Ha)). rewrite forallb_forall in B2. specialize (B2 _ (cells_in Hj Hb)). cbn [snd] in B2. rewrite E, Z.eqb_refl in B2. discriminate.
Qed.
Lemma ids_nodup : NoDup [0; 1; 2]%nat.
Proof. apply seq_NoDup with (start := 0%nat) (len := 3%nat). Qed.
Lemma sound_for a mx s : a = 100 \/ a = 150 -> ids s = [0; 1; 2]%nat -> (forall i, List.In i [0; 1; 2]%nat -> moments (w_ a mx) s i = fresh (w_ a mx) i) -> sound_b (w_ a mx) s = true -> sound (w_ a mx) s.
Proof.
  intros Ha Ei Em B. apply sound_by; [rewrite Ei; exact ids_nodup| | |exact B]; rewrite Ei.
  - intros i k Hi. destruct k; cbn [target]; rewrite ?Em by exact Hi; destruct Hi as [<-|[<-|[<-|[]]]]; split; reflexivity.
  - intros i g Hi E. destruct Hi as [<-|[<-|[<-|[]]]]; cbn in E; try discriminate; injection E as <-; (split; [split; reflexivity|]); (split; [discriminate|reflexivity]).
Qed.
Lemma sound0 a mx : a = 100 \/ a = 150 -> sound (w_ a mx) s0.
Proof. intros H. apply sound_for; [exact H|reflexivity|reflexivity|]. destruct H as [->| ->], mx; vm_compute; reflexivity. Qed.
(** The first step takes parameter 0 by the kernel and parameter 1 by the other path. *)
Example one_step_plan : match step_ (w_ 100 false) s0 mem0 with Ok (s', _) => match cache s' 0 with Some p => (fast p, slow p, lanes 2 p) | None => ([], [], []) end | Err _ => ([], [], []) end
  = ([0]%nat, [1]%nat, [(0, 0); (0, 1); (0, 2)]%nat).
Proof. vm_compute. reflexivity. Qed.
(** p - lr*(m/(1-1/2))/(v/(1-1/2)+1) with m = v = 1/2 is p - 1/4 *)
Example one_step_memory : match step_ (w_ 100 false) s0 mem0 with Ok (_, m) => map (fun x => this (m x)) [100; 102; 110; 113; 120; 300; 410; 200] | Err _ => [] end
  = [399 # 4; 407 # 4; 439 # 4; 451 # 4; 120 # 1; 1 # 2; 1 # 2; 1 # 1].
Proof. vm_compute. reflexivity. Qed.
Definition s1 : opt := match step_ (w_ 100 false) s0 mem0 with Ok (s', _) => s' | Err _ => s0 end.
Definition mem1 : memory Qc := match step_ (w_ 100 false) s0 mem0 with Ok (_, m) => m | Err _ => mem0 end.
Lemma after_one : history 0%Qc 1%Qc Qcplus Qcmult Qcminus Qcopp Qcdiv (fun x => x) (fun l => hd 0%nat l) 2 (@rev _) s1 (Some (w_ 100 false)).
Proof.
  apply (H_step (s := s0) (last := None) (w := w_ 100 false) (mem := mem0) (mem' := mem1)); [apply H_new|exact Logic.I|apply sound0; auto|]. unfold s1, mem1.
  destruct (step_ (w_ 100 false) s0 mem0) as [(s', m)|e] eqn:E; [reflexivity|]. exfalso. destruct (C64_every_step_is_the_adamw_update (sqrt := fun x => x) (majority := fun l => hd 0%nat l) (block := 2) (schedule := @rev _) Qc_field ltac:(lia) (fun l => Permutation_sym (Permutation_rev l)) (H_new _ _ _ _ _ _ _ _ _ _ _ gs_) (w := w_ 100 false) Logic.I (sound0 false (or_introl eq_refl)) mem0) as (s' & m & E' & _). unfold s0 in E. rewrite E in E'. discriminate.
Qed.
Lemma sound1 a mx : a = 100 \/ a = 150 -> sound (w_ a mx) s1.
Proof. intros H. apply sound_for; [exact H|vm_compute; reflexivity| |destruct H as [->| ->], mx; vm_compute; reflexivity]. intros i [<-|[<-|[<-|[]]]]; destruct H as [->| ->], mx; vm_compute; reflexivity. Qed.
(** the hypotheses of the theorem for a second step *)
Example second_step_allowed : allowed (Some (w_ 100 false)) (w_ 100 false) s1.
Proof. intros j ps _. split; [reflexivity|]. split; reflexivity. Qed.
End Examples.
Import Examples.

(** What [moves] asks for is needed.  A parameter that gets new memory while the gradients of its group keep theirs: the next step writes to the
    old memory and leaves the parameter as it was. *)
Theorem C64_a_parameter_that_moves_alone_is_not_updated_refuted :
  ~ (forall s last (w : view Qc), history 0%Qc 1%Qc Qcplus Qcmult Qcminus Qcopp Qcdiv (fun x => x) (fun l => hd 0%nat l) 2 (@rev _) s last ->
       (forall w0, last = Some w0 -> forall j, maximize (hypers w j) = maximize (hypers w0 j)) -> sound w s ->
       forall mem, exists s' mem', step_ w s mem = Ok (s', mem') /\ stepped 0%Qc 1%Qc Qcplus Qcmult Qcminus Qcopp Qcdiv (fun x => x) w s mem s' mem').
Proof.
  intros H. destruct (H s1 (Some (w_ 100 false)) (w_ 150 false) after_one) with (mem := mem0) as (s' & mem' & E & (_ & O & _)); [intros w0 E j; injection E as <-; reflexivity|apply sound1; auto|].
  specialize (O 0%nat [0; 1]%nat 0%nat eq_refl (or_introl eq_refl)). cbv beta iota zeta delta [grad w_] in O. destruct O as (_ & O). specialize (O [0]%nat ltac:(repeat constructor)). injection O as O _ _. cbn [target param w_] in O. change (addr (t_ 150 [3%nat] [1%nat]) [0%nat]) with 150 in O.
  assert (X : match step_ (w_ 150 false) s1 mem0 with Ok (_, m) => this (m 150) | Err _ => 0 # 1 end = (150 # 1)) by (vm_compute; reflexivity). rewrite E in X. rewrite O in X. vm_compute in X. discriminate.
Qed.
(** [maximize] that is switched on after the first step is not seen by the kernel. *)
Theorem C64_maximize_switched_later_is_ignored_refuted :
  ~ (forall s last (w : view Qc), history 0%Qc 1%Qc Qcplus Qcmult Qcminus Qcopp Qcdiv (fun x => x) (fun l => hd 0%nat l) 2 (@rev _) s last ->
       (forall w0, last = Some w0 -> forall i, param w i = param w0 i /\ grad w i = grad w0 i) -> sound w s ->
       forall mem, exists s' mem', step_ w s mem = Ok (s', mem') /\ stepped 0%Qc 1%Qc Qcplus Qcmult Qcminus Qcopp Qcdiv (fun x => x) w s mem s' mem').
Proof.
  intros H. destruct (H s1 (Some (w_ 100 false)) (w_ 100 true) after_one) with (mem := mem1) as (s' & mem' & E & (_ & O & _)); [intros w0 E i; injection E as <-; split; reflexivity|apply sound1; auto|].
  specialize (O 0%nat [0; 1]%nat 0%nat eq_refl (or_introl eq_refl)). cbv beta iota zeta delta [grad w_] in O. destruct O as (_ & O). specialize (O [0]%nat ltac:(repeat constructor)). injection O as _ O _. cbn [target param w_] in O.
  assert (X : match step_ (w_ 100 true) s1 mem1 with Ok (_, m) => this (m 300) | Err _ => 0 # 1 end = (3 # 4)) by (vm_compute; reflexivity). rewrite E in X.
  change (addr (t_ 300 [3%nat] [1%nat]) [0%nat]) with 300 in O. rewrite O in X. vm_compute in X. discriminate.
Qed.
