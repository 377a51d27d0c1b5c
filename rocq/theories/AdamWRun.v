(** One group's step, for C64. *)
From Coq Require Import Permutation Field_theory Ring.
From Verif Require Import Base BaseFacts DecoderFacts AdamW AdamWSpec AdamWFacts.
Set Implicit Arguments. Unset Strict Implicit.

Section Cells.
Variable R : Type.
Variables (r0 r1 : R) (radd rmul rsub : R -> R -> R) (ropp : R -> R) (rdiv : R -> R -> R) (rinv : R -> R).
Variable sqrt : R -> R.
Hypothesis F : field_theory r0 r1 radd rmul rsub ropp rdiv rinv eq.
Let Rt := F_R F.
Add Ring RR : Rt.
Notation adamw := (adamw r1 radd rmul rsub rdiv sqrt).
Notation power := (power r1 rmul).
Lemma div_def a b : rdiv a b = rmul a (rinv b).
Proof. apply (Fdiv_def F). Qed.
Lemma reference_eq (h : hyper R) n p g m v : reference_cell r1 radd rmul rsub ropp rdiv sqrt h n p g m v = adamw h n p (if maximize h then ropp g else g) m v.
Proof.
  unfold reference_cell, AdamWSpec.adamw. cbv zeta. set (g' := if maximize h then ropp g else g).
  replace (radd m (rmul (rsub r1 (beta1 h)) (rsub g' m))) with (radd (rmul (beta1 h) m) (rmul (rsub r1 (beta1 h)) g')) by ring.
  replace (radd (rmul v (beta2 h)) (rmul (rsub r1 (beta2 h)) (rmul g' g'))) with (radd (rmul (beta2 h) v) (rmul (rsub r1 (beta2 h)) (rmul g' g'))) by ring.
  f_equal. f_equal. rewrite !div_def. ring.
Qed.
Lemma kernel_eq (h : hyper R) n p g m v : maximize h = false ->
  kernel_cell radd rmul rsub rdiv sqrt (rsub r1 (rmul (lr h) (weight_decay h))) (beta2 h) (rsub r1 (beta1 h)) (rsub r1 (beta2 h)) (eps h)
    (rdiv (lr h) (rsub r1 (power (beta1 h) n))) (rdiv r1 (sqrt (rsub r1 (power (beta2 h) n)))) p g m v
  = adamw h n p (if maximize h then ropp g else g) m v.
Proof.
  intros ->. unfold kernel_cell, AdamWSpec.adamw. cbv zeta.
  replace (radd m (rmul (rsub g m) (rsub r1 (beta1 h)))) with (radd (rmul (beta1 h) m) (rmul (rsub r1 (beta1 h)) g)) by ring.
  replace (radd (rmul v (beta2 h)) (rmul (rmul g g) (rsub r1 (beta2 h)))) with (radd (rmul (beta2 h) v) (rmul (rsub r1 (beta2 h)) (rmul g g))) by ring.
  f_equal. f_equal. set (q := sqrt (radd (rmul (beta2 h) v) _)). set (b := sqrt (rsub r1 _)).
  replace (radd (rmul q (rdiv r1 b)) (eps h)) with (radd (rdiv q b) (eps h)) by (rewrite !div_def; ring). rewrite !div_def. ring.
Qed.
End Cells.

Section Group.
Variable R : Type.
Variables (r0 r1 : R) (radd rmul rsub : R -> R -> R) (ropp : R -> R) (rdiv : R -> R -> R) (rinv : R -> R).
Variable sqrt : R -> R.
Hypothesis F : field_theory r0 r1 radd rmul rsub ropp rdiv rinv eq.
Variable majority : list nat -> nat.
Variable block : nat.
Hypothesis block_pos : (0 < block)%nat.
Variable schedule : list (nat * nat) -> list (nat * nat).
Hypothesis scheduled : forall l, Permutation (schedule l) l.
Notation adamw := (adamw r1 radd rmul rsub rdiv sqrt).
Notation view := (view R). Notation memory := (memory R).
Notation reference_update := (reference_update r1 radd rmul rsub ropp rdiv sqrt).
Notation launch_plan := (launch_plan r0 majority block).
Notation group_step := (group_step r0 r1 radd rmul rsub ropp rdiv sqrt majority block schedule).

(** ** A plan that is valid for what the optimizer saw *)
Definition fits (w : view) (s : opt) (i : nat) : Prop :=
  exists g e l, grad w i = Some g /\ state s i = Some e /\ flat_layout (param w i) = Some l /\ flat_layout g = Some l /\ flat_layout (exp_avg e) = Some l /\ flat_layout (exp_avg_sq e) = Some l.
Record tables (w : view) (s : opt) (p : plan) : Prop := {
  t_p : param_ptrs p = map (fun i => ptr (param w i)) (fast p);
  t_g : grad_ptrs p = map (fun i => ptr_of (grad w i)) (fast p);
  t_m : avg_ptrs p = map (ptr_of_avg (state s)) (fast p);
  t_v : sq_ptrs p = map (ptr_of_sq (state s)) (fast p);
  t_n : numels p = map (fun i => numel (param w i)) (fast p);
  t_c : chunk_tensor p = map fst (chunks block (numels p)) /\ chunk_offset p = map snd (chunks block (numels p)) }.
Record cached (w : view) (s : opt) (h : hyper R) (ps : list nat) (p : plan) : Prop := {
  c_pa : param_addresses p = map (fun i => ptr (param w i)) ps;
  c_ga : grad_addresses p = map (fun i => ptr_of (grad w i)) ps;
  c_lay : fast_layouts p = map (fun i => flat_layout (param w i)) (fast p);
  c_perm : Permutation (fast p ++ slow p) (filter (has_grad w) ps);
  c_state : forall i, List.In i ps -> has_grad w i = true -> exists e, state s i = Some e;
  c_fits : forall i, List.In i (fast p) -> fits w s i;
  c_max : fast p <> [] -> maximize h = false;
  c_count : forall i j, List.In i (fast p) -> List.In j (fast p) -> step_of (state s) i = step_of (state s) j;
  c_tables : tables w s p;
  c_nonzero : forall i g, List.In i ps -> grad w i = Some g -> ptr g <> 0 }.

Variable w : view.
Definition sound_on (s : opt) (ps : list nat) : Prop :=
  NoDup ps
  /\ (forall i k, List.In i ps -> shaped (target w s i k) (shape (param w i)))
  /\ (forall i g, List.In i ps -> grad w i = Some g -> shaped g (shape (param w i)) /\ ptr g <> 0 /\ sparse g = false)
  /\ (forall i j k l a b, List.In i ps -> List.In j ps -> index_of (target w s i k) a -> index_of (target w s j l) b ->
        addr (target w s i k) a = addr (target w s j l) b -> i = j /\ k = l /\ a = b)
  /\ (forall i g a j l b, List.In i ps -> List.In j ps -> grad w i = Some g -> index_of g a -> index_of (target w s j l) b ->
        addr g a <> addr (target w s j l) b).
Lemma target_same s s' i k : state s' i = state s i -> target w s' i k = target w s i k.
Proof. intros E. destruct k; cbn; unfold moments; rewrite ?E; reflexivity. Qed.
Lemma target_moments s s' i k : moments w s' i = moments w s i -> target w s' i k = target w s i k.
Proof. intros E. destruct k; cbn; rewrite ?E; reflexivity. Qed.
Lemma sound_on_ext s s' ps : (forall i, List.In i ps -> moments w s' i = moments w s i) -> sound_on s ps -> sound_on s' ps.
Proof.
  intros E (S1 & S2 & S3 & S4 & S5). assert (T : forall i k, List.In i ps -> target w s' i k = target w s i k) by (intros i k Hi; apply target_moments, E, Hi).
  split; [exact S1|]. split; [intros i k Hi; rewrite T by exact Hi; apply S2; exact Hi|]. split; [exact S3|]. split.
  - intros i j k l a b Hi Hj. rewrite !T by assumption. apply S4; assumption.
  - intros i g a j l b Hi Hj. rewrite T by assumption. apply S5; assumption.
Qed.
Lemma sound_on_incl s ps qs : incl qs ps -> NoDup qs -> sound_on s ps -> sound_on s qs.
Proof.
  intros I ND (S1 & S2 & S3 & S4 & S5). split; [exact ND|]. split; [intros i k Hi; apply S2, I, Hi|]. split; [intros i g Hi; apply S3, I, Hi|]. split.
  - intros i j k l a b Hi Hj. apply S4; apply I; assumption.
  - intros i g a j l b Hi Hj. apply S5; apply I; assumption.
Qed.

(** What happens to one parameter *)
Definition did (h : hyper R) (s : opt) (mem mem' : memory) (i : nat) (n : nat) : Prop :=
  forall g a, grad w i = Some g -> index_of (param w i) a ->
    let at_ k := addr (target w s i k) a in
    (mem' (at_ Param), mem' (at_ First), mem' (at_ Second))
    = adamw h n (mem (at_ Param)) (if maximize h then ropp (mem (addr g a)) else mem (addr g a)) (mem (at_ First)) (mem (at_ Second)).
Definition owned (s : opt) (ps : list nat) (x : Z) : Prop := exists i k a, List.In i ps /\ index_of (target w s i k) a /\ x = addr (target w s i k) a.
Definition agree_on (s : opt) (i : nat) (mem mem' : memory) : Prop :=
  (forall k a, index_of (target w s i k) a -> mem' (addr (target w s i k) a) = mem (addr (target w s i k) a))
  /\ (forall g a, grad w i = Some g -> index_of g a -> mem' (addr g a) = mem (addr g a)).
Lemma index_shape t u a : shape t = shape u -> index_of t a -> index_of u a.
Proof. unfold index_of. intros ->. auto. Qed.
Lemma index_target s ps i k a : sound_on s ps -> List.In i ps -> index_of (param w i) a <-> index_of (target w s i k) a.
Proof. intros (_ & S2 & _) Hi. destruct (S2 i k Hi) as (E & _). split; apply index_shape; congruence. Qed.
Lemma index_grad s ps i g a : sound_on s ps -> List.In i ps -> grad w i = Some g -> index_of (param w i) a <-> index_of g a.
Proof. intros (_ & _ & S3 & _) Hi Hg. destruct (S3 i g Hi Hg) as ((E & _) & _). split; apply index_shape; congruence. Qed.
Lemma to_target s ps i k a : sound_on s ps -> List.In i ps -> index_of (param w i) a -> index_of (target w s i k) a.
Proof. intros So Hi. apply (index_target k a So Hi). Qed.
Lemma to_grad s ps i g a : sound_on s ps -> List.In i ps -> grad w i = Some g -> index_of (param w i) a -> index_of g a.
Proof. intros So Hi Hg. apply (index_grad a So Hi Hg). Qed.
Lemma frame_agree s ps qs i (mem mem' : memory) : sound_on s ps -> incl qs ps -> List.In i ps -> ~ List.In i qs -> (forall x, ~ owned s qs x -> mem' x = mem x) -> agree_on s i mem mem'.
Proof.
  intros So I Hi N Fr. assert (So' := So). destruct So' as (_ & _ & _ & S4 & S5). split.
  - intros k a Ha. apply Fr. intros (j & l & b & Hj & Hb & E). destruct (S4 i j k l a b Hi (I _ Hj) Ha Hb E) as (-> & _). contradiction.
  - intros g a Hg Ha. apply Fr. intros (j & l & b & Hj & Hb & E). exact (S5 i g a j l b Hi (I _ Hj) Hg Ha Hb E).
Qed.
Lemma did_before h s ps i n (mem mem0 mem' : memory) : sound_on s ps -> List.In i ps -> agree_on s i mem mem0 -> did h s mem0 mem' i n -> did h s mem mem' i n.
Proof.
  intros So Hi (A1 & A2) D g a Hg Ha at_. specialize (D g a Hg Ha). cbv beta zeta in D. unfold at_. cbv beta. rewrite D. rewrite (A1 Param a), (A1 First a), (A1 Second a) by (eapply to_target; [exact So|exact Hi|exact Ha]). rewrite (A2 g a Hg) by (eapply to_grad; [exact So|exact Hi|exact Hg|exact Ha]). reflexivity.
Qed.
Lemma did_after h s ps i n (mem mem0 mem' : memory) : sound_on s ps -> List.In i ps -> agree_on s i mem0 mem' -> did h s mem mem0 i n -> did h s mem mem' i n.
Proof.
  intros So Hi (A1 & _) D g a Hg Ha at_. specialize (D g a Hg Ha). cbv beta zeta in D. unfold at_. cbv beta. rewrite (A1 Param a), (A1 First a), (A1 Second a) by (eapply to_target; [exact So|exact Hi|exact Ha]). exact D.
Qed.

(** ** The reference path *)
Definition tcell (s : opt) (i : nat) (g : tensor) (a : list nat) : cell :=
  {| at_p := addr (param w i) a; at_g := addr g a; at_m := addr (target w s i First) a; at_v := addr (target w s i Second) a |}.
Lemma tcell_writes s i g a x : writes (tcell s i g a) x <-> exists k, x = addr (target w s i k) a.
Proof. unfold writes, tcell. cbn. split; [intros [H|[H|H]]; [exists Param|exists First|exists Second]; exact H|]. intros ([| |] & H); cbn in H; auto. Qed.
Definition bump (ls : list nat) (st : nat -> option pstate) (i : nat) : option pstate :=
  if existsb (Nat.eqb i) ls then match st i with Some e => Some {| count := S (count e); exp_avg := exp_avg e; exp_avg_sq := exp_avg_sq e |} | None => None end else st i.
Lemma existsb_in i ls : existsb (Nat.eqb i) ls = true <-> List.In i ls.
Proof. rewrite existsb_exists. split; [intros (x & Hx & E); apply Nat.eqb_eq in E; congruence|intros H; exists i; split; [exact H|apply Nat.eqb_refl]]. Qed.
Lemma bump_in ls st i e : List.In i ls -> st i = Some e -> bump ls st i = Some {| count := S (count e); exp_avg := exp_avg e; exp_avg_sq := exp_avg_sq e |}.
Proof. intros H E. unfold bump. rewrite (proj2 (existsb_in i ls) H), E. reflexivity. Qed.
Lemma bump_out ls st i : ~ List.In i ls -> bump ls st i = st i.
Proof. intros H. unfold bump. destruct (existsb (Nat.eqb i) ls) eqn:E; [apply existsb_in in E; contradiction|reflexivity]. Qed.
Lemma reference_ok h ps : forall ls s mem, sound_on s ps -> incl ls ps -> NoDup ls ->
  (forall i, List.In i ls -> (exists g, grad w i = Some g) /\ exists e, state s i = Some e) ->
  exists s' mem', reference_update w h ls s mem = Ok (s', mem') /\ groups s' = groups s /\ cache s' = cache s /\ (forall i, state s' i = bump ls (state s) i)
  /\ (forall i, List.In i ls -> did h s mem mem' i (S (step_of (state s) i))) /\ (forall x, ~ owned s ls x -> mem' x = mem x).
Proof.
  induction ls as [|i ls IH]; intros s mem So I ND H.
  - exists s, mem. repeat split; try reflexivity. intros i [].
  - inversion ND as [|? ? NI ND']; subst. assert (Hi : List.In i ps) by (apply I; left; reflexivity).
    destruct (H i (or_introl eq_refl)) as ((g & Hg) & (e & He)). cbn [AdamW.reference_update]. rewrite Hg, He. assert (So' := So). destruct So' as (S1 & S2 & S3 & S4 & S5). destruct (S3 i g Hi Hg) as ((Sg & _) & _ & Sp). rewrite Sp. cbn [negb].
    set (e' := {| count := S (count e); exp_avg := exp_avg e; exp_avg_sq := exp_avg_sq e |}).
    set (s1 := {| groups := groups s; state := set_state i e' (state s); cache := cache s |}).
    set (f := reference_cell r1 radd rmul rsub ropp rdiv sqrt h (S (count e))). set (cs := tensor_cells (param w i) g (exp_avg e) (exp_avg_sq e)).
    assert (Ec : cs = map (tcell s i g) (indices (shape (param w i)))).
    { unfold cs, tensor_cells. apply map_ext. intros a. unfold tcell. cbn [target]. unfold moments. rewrite He. reflexivity. }
    assert (Mo : forall j, List.In j ps -> moments w s1 j = moments w s j). { intros j _. unfold moments, s1, set_state. cbn [state]. destruct (Nat.eqb_spec j i) as [->|_]; [rewrite He; reflexivity|reflexivity]. }
    assert (Tg : forall j k, List.In j ps -> target w s1 j k = target w s j k) by (intros j k Hj; apply target_moments, Mo, Hj).
    assert (St : forall j, List.In j ls -> state s1 j = state s j). { intros j Hj. unfold s1, set_state. cbn [state]. destruct (Nat.eqb_spec j i) as [->|_]; [contradiction|reflexivity]. }
    destruct (IH s1 (updates f cs mem)) as (s' & mem' & E & G & C & St' & D & Fr).
    { apply (sound_on_ext Mo So). } { intros j Hj. apply I. right. exact Hj. } { exact ND'. }
    { intros j Hj. destruct (H j (or_intror Hj)) as (A & B). split; [exact A|]. rewrite St by exact Hj. exact B. }
    exists s', mem'. split; [exact E|]. split; [exact G|]. split; [exact C|].
    assert (Own : forall x, owned s1 ls x <-> owned s ls x).
    { intros x. split; intros (j & k & a & Hj & Ha & Ex); exists j, k, a; (split; [exact Hj|]); [rewrite Tg in * by (apply I; right; exact Hj)|rewrite Tg by (apply I; right; exact Hj)]; auto. }
    (* this parameter *)
    assert (Dme : did h s mem (updates f cs mem) i (S (count e))).
    { intros g' a Hg' Ha at_. rewrite Hg in Hg'. injection Hg' as <-. rewrite Ec.
      assert (X := updates_all f (cell_of := tcell s i g) (ks := indices (shape (param w i))) mem (indices_nodup _)).
      assert (Ix : forall k b, List.In b (indices (shape (param w i))) -> index_of (target w s i k) b) by (intros k b Hb; apply in_indices in Hb; apply (index_target k b So Hi); exact Hb).
      specialize (X ltac:(intros k l x Hk Hl W1 W2; apply tcell_writes in W1; apply tcell_writes in W2; destruct W1 as (k1 & ->); destruct W2 as (k2 & Ex); destruct (S4 i i k1 k2 k l Hi Hi (Ix k1 k Hk) (Ix k2 l Hl) Ex) as (_ & _ & Q); exact Q)).
      specialize (X ltac:(intros k Hk; cbn [tcell at_p at_m at_v]; repeat split; intros Ex;
        [destruct (S4 i i Param First k k Hi Hi (Ix Param k Hk) (Ix First k Hk) Ex) as (_ & Q & _)|destruct (S4 i i Param Second k k Hi Hi (Ix Param k Hk) (Ix Second k Hk) Ex) as (_ & Q & _)|destruct (S4 i i First Second k k Hi Hi (Ix First k Hk) (Ix Second k Hk) Ex) as (_ & Q & _)]; discriminate)).
      specialize (X ltac:(intros k l Hk Hl W; apply tcell_writes in W; destruct W as (k2 & Ex); cbn [tcell at_g] in Ex; apply (S5 i g k i k2 l Hi Hi Hg); [apply (index_grad k So Hi Hg); apply in_indices; exact Hk|apply Ix; exact Hl|exact Ex])).
      specialize (X a (proj2 (in_indices _ a) Ha)). cbv beta zeta in X. unfold at_. cbv beta. cbn [tcell at_p at_m at_v at_g] in X. cbn [target]. cbn [target] in X. rewrite X. unfold f. apply (reference_eq sqrt F). }
    assert (Fme : forall x, ~ owned s [i] x -> updates f cs mem x = mem x).
    { intros x N. rewrite Ec. apply updates_other. intros a Ha W. apply N. apply tcell_writes in W. destruct W as (k & ->). exists i, k, a. split; [left; reflexivity|]. split; [|reflexivity]. apply (index_target k a So Hi). apply in_indices. exact Ha. }
    split; [|split].
    + intros j. rewrite St'. destruct (Nat.eq_dec j i) as [->|N].
      * rewrite bump_out by exact NI. rewrite (bump_in (ls := i :: ls) (or_introl eq_refl) He). unfold s1, set_state. cbn [state]. rewrite Nat.eqb_refl. reflexivity.
      * destruct (in_dec Nat.eq_dec j ls) as [Hj|Hj]; [|rewrite !bump_out; [|intros [Q|Q]; [congruence|contradiction]|exact Hj]; unfold s1, set_state; cbn [state]; rewrite (proj2 (Nat.eqb_neq j i) N); reflexivity].
        destruct (H j (or_intror Hj)) as (_ & (ej & Hej)). rewrite (bump_in (ls := i :: ls) (or_intror Hj) Hej). apply bump_in; [exact Hj|]. rewrite St by exact Hj. exact Hej.
    + intros j [<-|Hj].
      * unfold step_of. rewrite He. eapply (did_after So Hi); [|exact Dme]. apply (frame_agree (qs := ls) So); [intros q Hq; apply I; right; exact Hq|exact Hi|exact NI|]. intros x N. apply Fr. intros O. apply N. apply Own. exact O.
      * assert (Hjp : List.In j ps) by (apply I; right; exact Hj). eapply (did_before So Hjp); [apply (frame_agree (qs := [i]) (mem' := updates f cs mem) So); [intros q [<-|[]]; exact Hi|exact Hjp|intros [<-|[]]; contradiction|exact Fme]|].
        specialize (D j Hj). unfold step_of in D |- *. rewrite St in D by exact Hj. intros g' a Hg' Ha at_. specialize (D g' a Hg' Ha). cbv beta zeta in D. unfold at_. cbv beta. rewrite !Tg in D by exact Hjp. exact D.
    + intros x N. rewrite Fr; [apply Fme|].
      * intros (j & k & a & [<-|[]] & Ha & Ex). apply N. exists i, k, a. split; [left; reflexivity|]. auto.
      * intros O. apply N. apply Own in O. destruct O as (j & k & a & Hj & Ha & Ex). exists j, k, a. split; [right; exact Hj|]. auto.
Qed.

(** ** The kernel *)
Lemma lanes_are p s : tables w s p -> lanes block p = all_lanes block (numels p).
Proof. intros T. unfold lanes, all_lanes. destruct (t_c T) as (-> & ->). rewrite combine_unzip. reflexivity. Qed.
Lemma nth_map A B (f : A -> B) l t a d : nth_error l t = Some a -> nth t (map f l) d = f a.
Proof. intros H. apply nth_error_nth. rewrite nth_error_map, H. reflexivity. Qed.
Lemma lane_cell_is s ps p t i g a : sound_on s ps -> List.In i ps -> tables w s p -> fits w s i -> nth_error (fast p) t = Some i -> grad w i = Some g -> index_of (param w i) a ->
  lane_cell p (t, dot a (strides (param w i))) = tcell s i g a.
Proof.
  intros So Hi T (g' & e & l & Hg' & He & L1 & L2 & L3 & L4) Ht Hg Ha. rewrite Hg in Hg'. injection Hg' as <-. assert (So' := So). destruct So' as (_ & S2 & S3 & _). destruct (S2 i Param Hi) as (E1 & K1). destruct (S2 i First Hi) as (E2 & K2). destruct (S2 i Second Hi) as (E3 & K3). destruct (S3 i g Hi Hg) as ((E4 & K4) & _).
  cbn [target] in *. unfold moments in *. rewrite He in *. cbn [fst snd] in *.
  unfold lane_cell, tcell. rewrite (t_p T), (t_g T), (t_m T), (t_v T). rewrite !(nth_map _ 0 Ht). cbn [target]. unfold moments, addr, ptr_of_avg, ptr_of_sq. rewrite Hg, He. cbn [ptr_of fst snd].
  rewrite (flat_same L1 L2 E4 K1 K4 Ha), (flat_same L1 L3 E2 K1 K2 Ha), (flat_same L1 L4 E3 K1 K3 Ha). reflexivity.
Qed.
Lemma lane_from s ps p t k : sound_on s ps -> incl (fast p) ps -> tables w s p -> (forall i, List.In i (fast p) -> fits w s i) -> List.In (t, k) (lanes block p) ->
  exists i g a, nth_error (fast p) t = Some i /\ List.In i ps /\ grad w i = Some g /\ index_of (param w i) a /\ k = dot a (strides (param w i)) /\ lane_cell p (t, k) = tcell s i g a.
Proof.
  intros So I T Fi H. rewrite (lanes_are T) in H. apply in_lanes in H; [|exact block_pos]. destruct H as (n & Hn & Hk). rewrite (t_n T), nth_error_map in Hn. destruct (nth_error (fast p) t) as [i|] eqn:Ht; [|discriminate]. injection Hn as <-.
  assert (Hf : List.In i (fast p)) by (apply nth_error_In in Ht; exact Ht). assert (Hi := I _ Hf). assert (Fit := Fi i Hf). destruct Fit as (g & e & l & Hg & He & L1 & _). assert (So' := So). destruct So' as (_ & S2 & _). destruct (S2 i Param Hi) as (E1 & K1). cbn [target] in *.
  destruct (flat_onto L1 K1 Hk) as (a & Ha & <-). exists i, g, a. split; [reflexivity|]. split; [exact Hi|]. split; [exact Hg|]. split; [exact Ha|]. split; [reflexivity|]. apply (lane_cell_is So Hi T (Fi i Hf) Ht Hg Ha).
Qed.
Lemma lane_to s ps p t i g a : sound_on s ps -> incl (fast p) ps -> tables w s p -> (forall i, List.In i (fast p) -> fits w s i) -> nth_error (fast p) t = Some i -> grad w i = Some g -> index_of (param w i) a ->
  List.In (t, dot a (strides (param w i))) (lanes block p).
Proof.
  intros So I T Fi Ht Hg Ha. rewrite (lanes_are T). apply in_lanes; [exact block_pos|]. rewrite (t_n T), nth_error_map, Ht. exists (numel (param w i)). split; [reflexivity|].
  assert (Hf : List.In i (fast p)) by (apply nth_error_In in Ht; exact Ht). destruct (Fi i Hf) as (g' & e & l & _ & _ & L1 & _). destruct So as (_ & S2 & _). destruct (S2 i Param (I _ Hf)) as (_ & K1). cbn [target] in K1. apply (flat_in L1 K1 Ha).
Qed.
Lemma kernel_ok h n s ps p mem : sound_on s ps -> incl (fast p) ps -> NoDup (fast p) -> tables w s p -> (forall i, List.In i (fast p) -> fits w s i) -> maximize h = false ->
  let f := kernel_cell radd rmul rsub rdiv sqrt (rsub r1 (rmul (lr h) (weight_decay h))) (beta2 h) (rsub r1 (beta1 h)) (rsub r1 (beta2 h)) (eps h)
    (rdiv (lr h) (rsub r1 (power r1 rmul (beta1 h) n))) (rdiv r1 (sqrt (rsub r1 (power r1 rmul (beta2 h) n)))) in
  let mem' := updates f (map (lane_cell p) (schedule (lanes block p))) mem in
  (forall i, List.In i (fast p) -> did h s mem mem' i n) /\ (forall x, ~ owned s (fast p) x -> mem' x = mem x).
Proof.
  intros So I ND T Fi Mx f mem'. assert (So' := So). destruct So' as (S1 & S2 & S3 & S4 & S5).
  assert (From : forall t k, List.In (t, k) (schedule (lanes block p)) -> exists i g a, nth_error (fast p) t = Some i /\ List.In i ps /\ grad w i = Some g /\ index_of (param w i) a /\ k = dot a (strides (param w i)) /\ lane_cell p (t, k) = tcell s i g a).
  { intros t k H. apply (lane_from So I T Fi). apply (Permutation_in _ (scheduled _)). exact H. }
  split.
  - intros i Hf g a Hg Ha at_. destruct (In_nth_error _ _ Hf) as (t & Ht). assert (Hi := I _ Hf).
    assert (Hl : List.In (t, dot a (strides (param w i))) (schedule (lanes block p))) by (apply (Permutation_in _ (Permutation_sym (scheduled _))); apply (lane_to So I T Fi Ht Hg Ha)).
    assert (X := updates_all f (cell_of := lane_cell p) (ks := schedule (lanes block p)) mem).
    specialize (X ltac:(apply (Permutation_NoDup (Permutation_sym (scheduled _))); rewrite (lanes_are T); apply lanes_nodup; exact block_pos)).
    assert (X1 : forall k l x, List.In k (schedule (lanes block p)) -> List.In l (schedule (lanes block p)) -> writes (lane_cell p k) x -> writes (lane_cell p l) x -> k = l).
    { intros (t1, k1) (t2, k2) x H1 H2 W1 W2. apply From in H1. apply From in H2. destruct H1 as (i1 & g1 & a1 & T1 & P1 & G1 & A1 & -> & C1). destruct H2 as (i2 & g2 & a2 & T2 & P2 & G2 & A2 & -> & C2). rewrite C1 in W1. rewrite C2 in W2. apply tcell_writes in W1. apply tcell_writes in W2. destruct W1 as (q1 & ->). destruct W2 as (q2 & E).
      destruct (S4 i1 i2 q1 q2 a1 a2 P1 P2 (to_target q1 So P1 A1) (to_target q2 So P2 A2) E) as (Ei & _ & Ea). subst i2 a2. f_equal. apply (proj1 (NoDup_nth_error (fast p)) ND); [apply nth_error_Some; congruence|congruence]. }
    specialize (X X1).
    assert (X2 : forall k, List.In k (schedule (lanes block p)) -> at_p (lane_cell p k) <> at_m (lane_cell p k) /\ at_p (lane_cell p k) <> at_v (lane_cell p k) /\ at_m (lane_cell p k) <> at_v (lane_cell p k)).
    { intros (t1, k1) H1. apply From in H1. destruct H1 as (i1 & g1 & a1 & T1 & P1 & G1 & A1 & -> & C1). rewrite C1. cbn [tcell at_p at_m at_v]. split; [|split]; intros E.
      - destruct (S4 i1 i1 Param First a1 a1 P1 P1 (to_target Param So P1 A1) (to_target First So P1 A1) E) as (_ & Q & _). discriminate.
      - destruct (S4 i1 i1 Param Second a1 a1 P1 P1 (to_target Param So P1 A1) (to_target Second So P1 A1) E) as (_ & Q & _). discriminate.
      - destruct (S4 i1 i1 First Second a1 a1 P1 P1 (to_target First So P1 A1) (to_target Second So P1 A1) E) as (_ & Q & _). discriminate. }
    specialize (X X2).
    assert (X3 : forall k l, List.In k (schedule (lanes block p)) -> List.In l (schedule (lanes block p)) -> ~ writes (lane_cell p l) (at_g (lane_cell p k))).
    { intros (t1, k1) (t2, k2) H1 H2 W. apply From in H1. apply From in H2. destruct H1 as (i1 & g1 & a1 & T1 & P1 & G1 & A1 & -> & C1). destruct H2 as (i2 & g2 & a2 & T2 & P2 & G2 & A2 & -> & C2). rewrite C1, C2 in W. apply tcell_writes in W. destruct W as (q & E). cbn [tcell at_g] in E.
      exact (S5 i1 g1 a1 i2 q a2 P1 P2 G1 (to_grad So P1 G1 A1) (to_target q So P2 A2) E). }
    specialize (X X3 _ Hl). cbv beta zeta in X. rewrite (lane_cell_is So Hi T (Fi i Hf) Ht Hg Ha) in X. unfold at_. cbv beta. cbn [tcell at_p at_m at_v at_g target] in X |- *. unfold mem'. rewrite X. unfold f. apply (kernel_eq sqrt F). exact Mx.
  - intros x N. unfold mem'. apply updates_other. intros (t, k) H W. apply N. apply From in H. destruct H as (i & g & a & Ht & Hi & Hg & Ha & _ & C). rewrite C in W. apply tcell_writes in W. destruct W as (q & ->). exists i, q, a. split; [apply nth_error_In in Ht; exact Ht|]. split; [apply (to_target q So Hi Ha)|reflexivity].
Qed.
End Group.
