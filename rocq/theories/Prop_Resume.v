(** C56: the ranks of a training job resume from states that belong together. *)
From Coq Require Import Permutation.
From Verif Require Import Base BaseFacts Rng Json JsonFacts StateCodec StateCodecSpec StateCodecFacts Prop_StateCodec DecoderFacts DecoderBatch ComposerFacts Resume.
Set Implicit Arguments. Unset Strict Implicit.

Section Dicts.
Lemma ext_eq (A : Type) (l : list A) : forall m, (forall i, nth_error l i = nth_error m i) -> l = m.
Proof.
  induction l as [|x l IH]; intros [|y m] H; [reflexivity|specialize (H 0%nat); discriminate|specialize (H 0%nat); discriminate|].
  pose proof (H 0%nat) as H0. injection H0 as ->. f_equal. apply IH. intros i. apply (H (S i)).
Qed.
Lemma is_key_refl n : is_key n (KStr n) = true. Proof. apply ustr_eqb_refl. Qed.
Lemma is_key_eq n k : is_key n k = true <-> k = KStr n.
Proof. destruct k as [s|j]; cbn; [|split; discriminate]. rewrite ustr_eqb_eq. split; congruence. Qed.
Lemma lookup_app d e n : lookup (d ++ e) n = match lookup d n with Some v => Some v | None => lookup e n end.
Proof. unfold lookup. induction d as [|kv d IH]; [reflexivity|]. cbn [app find]. destruct (is_key n (fst kv)); [reflexivity|exact IH]. Qed.
Lemma lookup_none d n : lookup d n = None <-> Forall (fun kv => is_key n (fst kv) = false) d.
Proof.
  unfold lookup. induction d as [|kv d IH]; cbn [find]; [split; constructor|]. destruct (is_key n (fst kv)) eqn:E.
  - split; [discriminate|]. intros H. inversion H. congruence.
  - rewrite IH. split; [intros; constructor; assumption|intros H; inversion H; assumption].
Qed.
Lemma without_none d n : lookup d n = None -> without d n = d.
Proof. intros H. apply lookup_none in H. unfold without. induction H as [|kv d E _ IH]; [reflexivity|]. cbn [filter]. rewrite E. cbn [negb]. rewrite IH. reflexivity. Qed.
Lemma assign_fresh d n v : lookup d n = None -> assign d n v = d ++ [(KStr n, v)].
Proof. intros H. unfold assign. rewrite H. reflexivity. Qed.
Lemma without_app d e n : without (d ++ e) n = without d n ++ without e n.
Proof. apply filter_app. Qed.
Lemma lookup_without d n m : n <> m -> lookup (without d n) m = lookup d m.
Proof.
  intros H. unfold lookup, without. induction d as [|kv d IH]; [reflexivity|]. cbn [filter find]. destruct (is_key n (fst kv)) eqn:E; cbn [negb].
  - apply is_key_eq in E. destruct (is_key m (fst kv)) eqn:E2; [apply is_key_eq in E2; congruence|exact IH].
  - cbn [find]. destruct (is_key m (fst kv)); [reflexivity|exact IH].
Qed.
Lemma same_dict d e : same (VDict d) (VDict e) -> exists m, Permutation e m /\ Forall2 (fun x y => fst x = fst y /\ same (snd x) (snd y)) d m.
Proof. inversion 1; subst. eauto. Qed.
Lemma wf_dict_inv d : wf (VDict d) -> NoDup (map fst d) /\ Forall (fun kv => wf (snd kv)) d.
Proof. inversion 1; subst. auto. Qed.
(** Dictionaries that are the same Python value have the same entries. *)
Lemma same_lookup d e n : wf (VDict d) -> wf (VDict e) -> same (VDict d) (VDict e) ->
  match lookup d n, lookup e n with Some x, Some y => same x y | None, None => True | _, _ => False end.
Proof.
  intros Wd We S. destruct (same_dict S) as (m' & P & F). destruct (wf_dict_inv We) as (ND & _).
  assert (Q : lookup e n = lookup m' n).
  { clear - P ND. assert (ND' : NoDup (map fst m')) by (eapply Permutation_NoDup; [apply Permutation_map; exact P|exact ND]).
    assert (G : forall l x, NoDup (map fst l) -> (lookup l n = Some x <-> In (KStr n, x) l)).
    { clear. induction l as [|(k, v) l IH]; intros x N; cbn; [split; [discriminate|intros []]|]. inversion N as [|? ? NI N']; subst. unfold lookup. cbn [find fst]. destruct (is_key n k) eqn:E.
      - apply is_key_eq in E. subst k. cbn. split; [intros [= ->]; auto|]. intros [H|H]; [congruence|]. exfalso. apply NI. apply in_map_iff. exists (KStr n, x). auto.
      - change (option_map snd (find (fun kv => is_key n (fst kv)) l)) with (lookup l n). rewrite (IH x N'). split; [auto|]. intros [H|H]; [|exact H]. injection H as -> ->. rewrite is_key_refl in E. discriminate. }
    destruct (lookup m' n) as [x|] eqn:E.
    - apply (G m' x ND') in E. apply (G e x ND). apply (Permutation_in _ (Permutation_sym P)). exact E.
    - destruct (lookup e n) as [y|] eqn:E2; [|reflexivity]. apply (G e y ND) in E2. apply (Permutation_in _ P) in E2. apply (G m' y ND') in E2. congruence. }
  rewrite Q. clear - F. unfold lookup. induction F as [|(k, x) (k', y) l m (Ek & Es) _ IH]; [exact I|]. cbn [fst snd find] in *. subst k'. destruct (is_key n k); cbn; [exact Es|exact IH].
Qed.
End Dicts.

Section Resume.
Variable float_text : Z -> ustr.
Variable digest : bytes -> ustr.
Variable float_equals : Z -> Z -> bool.
Notation encode := (canonical_pipeline_state_bytes float_text).
Notation projection := (projection float_equals).
Notation validate := (validate float_text digest float_equals).
Notation check_states := (check_states float_text digest float_equals).
Notation check_state := (check_state float_text digest float_equals).
Notation select_state := (select_state float_text digest float_equals).
Notation stamped := (stamped float_text digest float_equals).
Notation equals_int := (equals_int float_equals).

(** A state whose stamps match its contents. *)
Definition local_stamp_fits (d : dict) : Prop := exists b, encode (VDict (without d k_local)) = Ok b /\ get d k_local = VStr (digest b).
Definition global_stamp_fits (d : dict) : Prop := exists p g, projection d = Ok p /\ encode p = Ok g /\ get d k_global = VStr (digest g).
Definition a_collision : Prop := exists b b' : bytes, b <> b' /\ digest b = digest b'.

Lemma equals_str_eq v s : equals_str v s = true <-> v = VStr s.
Proof. destruct v; cbn; try (split; discriminate). rewrite ustr_eqb_eq. split; congruence. Qed.
Lemma check_state_ok W seen v slot d : check_state W seen v = Ok (slot, d) <->
  v = VDict d /\ get d k_slot = VInt slot /\ 0 <= slot < W /\ equals_int (get d k_rank) slot = true /\ ~ In slot seen
  /\ local_stamp_fits d /\ global_stamp_fits d
  /\ (if is_true (get d k_supported) then get d k_kind = VStr file_stream \/ get d k_kind = VStr map_sampler else get d k_kind = VNone).
Proof.
  unfold check_state. split.
  - intros H. destruct v as [ | | | | | | | |state| | ]; try discriminate. inv_bind H. inv_bind H.
    apply guard_Ok in H. destruct H as (Hr & H). apply guard_Ok in H. destruct H as (Hs & H).
    inv_bind H. apply guard_Ok in H. destruct H as (Hl & H). inv_bind H. inv_bind H. apply guard_Ok in H. destruct H as (Hg & H).
    injection H as <- <-. apply equals_str_eq in Hl, Hg.
    destruct (get state k_slot) as [ | |n| | | | | | | | ] eqn:Es; try discriminate. apply guard_Ok in Hm0. destruct Hm0 as (Hn & Hm0). injection Hm0 as <-.
    apply andb_true_iff in Hn. destruct Hn as (Hn1 & Hn2).
    split; [reflexivity|]. split; [reflexivity|]. split; [lia|]. split; [exact Hr|]. split.
    { intros I. apply negb_true_iff in Hs. apply not_true_iff_false in Hs. apply Hs. apply existsb_exists. exists n. split; [exact I|apply Z.eqb_refl]. }
    split; [exists v1; split; assumption|]. split; [exists v2, v3; auto|].
    destruct (is_true (get state k_supported)).
    + apply guard_Ok in Hm. destruct Hm as (_ & Hm). apply guard_Ok in Hm. destruct Hm as (Hm & _). apply orb_true_iff in Hm. destruct Hm as [Hm|Hm]; apply equals_str_eq in Hm; auto.
    + apply guard_Ok in Hm. destruct Hm as (Hm & _). destruct (get state k_kind); try discriminate. reflexivity.
  - intros (-> & Es & Hn & Hr & Hs & (b & Eb & El) & (p & g & Ep & Eg & Egl) & Hk). cbv zeta.
    assert (K : (if is_true (get d k_supported)
      then guard hashable (get d k_kind) else TypeError ;; guard equals_str (get d k_kind) file_stream || equals_str (get d k_kind) map_sampler else RuntimeError ;; Ok tt
      else guard is_none (get d k_kind) else RuntimeError ;; Ok tt) = Ok tt).
    { destruct (is_true (get d k_supported)); [destruct Hk as [-> | ->]; reflexivity|rewrite Hk; reflexivity]. }
    rewrite K. cbn [bind]. rewrite Es. replace ((0 <=? slot) && (slot <? W)) with true by (symmetry; apply andb_true_iff; lia). cbn [bind].
    rewrite Hr. replace (existsb (Z.eqb slot) seen) with false.
    2:{ symmetry. apply not_true_iff_false. intros E. apply existsb_exists in E. destruct E as (x & I & E). apply Z.eqb_eq in E. subst. auto. }
    cbn [negb]. rewrite Eb. cbn [bind]. rewrite (proj2 (equals_str_eq _ _) El), Ep. cbn [bind]. rewrite Eg. cbn [bind]. rewrite (proj2 (equals_str_eq _ _) Egl). reflexivity.
Qed.

(** ** Reading the model's result back *)
Definition kind_ok (d : dict) : Prop :=
  if is_true (get d k_supported) then get d k_kind = VStr file_stream \/ get d k_kind = VStr map_sampler else get d k_kind = VNone.
(** The state of rank [k], undamaged. *)
Definition intact (k : nat) (d : dict) : Prop :=
  get d k_slot = VInt (Z.of_nat k) /\ equals_int (get d k_rank) (Z.of_nat k) = true
  /\ local_stamp_fits d /\ global_stamp_fits d /\ kind_ok d.

Lemma check_states_ok W : forall states seen l, check_states W seen states = Ok l ->
  map (fun sd => VDict (snd sd)) l = states /\ NoDup (map fst l) /\ (forall s, In s (map fst l) -> ~ In s seen)
  /\ Forall (fun sd => get (snd sd) k_slot = VInt (fst sd) /\ 0 <= fst sd < W /\ equals_int (get (snd sd) k_rank) (fst sd) = true
             /\ local_stamp_fits (snd sd) /\ global_stamp_fits (snd sd) /\ kind_ok (snd sd)) l.
Proof.
  induction states as [|v states IH]; intros seen l H; cbn [Resume.check_states] in H.
  - injection H as <-. cbn. split; [reflexivity|]. split; [constructor|]. split; [intros s []|constructor].
  - inv_bind H. destruct v0 as (slot, d). inv_bind H. injection H as <-. apply (proj1 (check_state_ok _ _ _ _ _)) in Hm.
    destruct Hm as (-> & Es & Hn & Hr & Hs & Hl & Hg & Hk). destruct (IH _ _ Hm0) as (E & ND & Dj & F). cbn [map fst snd].
    split; [rewrite E; reflexivity|]. split; [constructor; [|exact ND]; intros I; apply (Dj _ I); left; reflexivity|]. split.
    + intros s [<-|I]; [exact Hs|]. intros I2. apply (Dj _ I). right. exact I2.
    + constructor; [|exact F]. cbn [fst snd]. auto 10.
Qed.
Lemma check_states_intro W : forall l seen, NoDup (map fst l) -> (forall s, In s (map fst l) -> ~ In s seen) ->
  Forall (fun sd => get (snd sd) k_slot = VInt (fst sd) /\ 0 <= fst sd < W /\ equals_int (get (snd sd) k_rank) (fst sd) = true
             /\ local_stamp_fits (snd sd) /\ global_stamp_fits (snd sd) /\ kind_ok (snd sd)) l ->
  check_states W seen (map (fun sd => VDict (snd sd)) l) = Ok l.
Proof.
  induction l as [|(slot, d) l IH]; intros seen ND Dj F; cbn [map Resume.check_states]; [reflexivity|]. cbn [map fst snd] in *.
  inversion ND as [|? ? NI ND']; subst. inversion F as [|? ? (Es & Hn & Hr & Hl & Hg & Hk) F']; subst. cbn [fst snd] in *.
  assert (C : check_state W seen (VDict d) = Ok (slot, d)).
  { apply check_state_ok. split; [reflexivity|]. split; [exact Es|]. split; [exact Hn|]. split; [exact Hr|]. split; [apply Dj; left; reflexivity|]. auto. }
  rewrite C. cbn [bind]. rewrite IH; [reflexivity|exact ND'| |exact F'].
  intros s I [<-|I2]; [apply NI; exact I|]. apply (Dj s); [right; exact I|exact I2].
Qed.

Lemma nodup_fst_eq {A B} (l : list (A * B)) x y : NoDup (map fst l) -> In x l -> In y l -> fst x = fst y -> x = y.
Proof.
  induction l as [|z l IH]; intros N Ix Iy E; [destruct Ix|]. cbn in N. inversion N as [|? ? NI N']; subst.
  destruct Ix as [->|Ix], Iy as [->|Iy]; [reflexivity| | |apply IH; assumption].
  - exfalso. apply NI. rewrite E. apply in_map. exact Iy.
  - exfalso. apply NI. rewrite <- E. apply in_map. exact Ix.
Qed.

Lemma ordering (l : list (Z * dict)) W : NoDup (map fst l) -> Forall (fun sd => 0 <= fst sd < Z.of_nat W) l ->
  (forall k, (k < W)%nat -> In (Z.of_nat k) (map fst l)) ->
  exists ol, mapM (fun k => match find (fun sd => fst sd =? Z.of_nat k) l with Some sd => Ok (snd sd) | None => Err KeyError end) (seq 0 W) = Ok (map snd ol)
    /\ Permutation ol l /\ map fst ol = map Z.of_nat (seq 0 W).
Proof.
  intros ND F Cov.
  assert (G : forall ks, (forall k, In k ks -> (k < W)%nat) -> exists ol,
     mapM (fun k => match find (fun sd => fst sd =? Z.of_nat k) l with Some sd => Ok (snd sd) | None => Err KeyError end) ks = Ok (map snd ol)
     /\ Forall (fun sd => In sd l) ol /\ map fst ol = map Z.of_nat ks).
  { induction ks as [|k ks IH]; intros H; [exists []; cbn; auto|]. destruct IH as (ol & E1 & E2 & E3); [intros j I; apply H; right; exact I|].
    destruct (find (fun sd => fst sd =? Z.of_nat k) l) as [sd|] eqn:Ef.
    - exists (sd :: ol). cbn [mapM map]. rewrite Ef, E1. cbn [bind]. apply find_some in Ef. destruct Ef as (I & Ef). apply Z.eqb_eq in Ef. split; [reflexivity|]. split; [constructor; assumption|]. rewrite E3, Ef. reflexivity.
    - exfalso. assert (Hk : (k < W)%nat) by (apply H; left; reflexivity). apply Cov in Hk. apply in_map_iff in Hk. destruct Hk as (sd & E & I).
      pose proof (find_none _ _ Ef _ I) as N. cbn in N. rewrite E, Z.eqb_refl in N. discriminate. }
  destruct (G (seq 0 W)) as (ol & E1 & E2 & E3); [intros k I; apply in_seq in I; lia|]. exists ol. split; [exact E1|]. split; [|exact E3].
  rewrite Forall_forall in E2, F. apply NoDup_Permutation.
  - apply (NoDup_map_inv fst). rewrite E3. apply FinFun.Injective_map_NoDup; [intros a b; lia|apply seq_NoDup].
  - apply (NoDup_map_inv fst). exact ND.
  - intros sd. split; [apply E2|]. intros I. pose proof (F _ I) as B.
    assert (I2 : In (fst sd) (map fst ol)). { rewrite E3. apply in_map_iff. exists (Z.to_nat (fst sd)). split; [lia|]. apply in_seq. lia. }
    apply in_map_iff in I2. destruct I2 as (sd' & E & I2). pose proof (nodup_fst_eq ND (E2 _ I2) I E) as ->. exact I2.
Qed.

(** ** Which sets of states are accepted *)
(** The states are accepted, and put into the order of the ranks, exactly if every rank has one undamaged state and all carry
    the same rank-independent digest. *)
Definition belongs_together (world : nat) (out states : list value) : Prop :=
  (0 < world)%nat /\ Permutation out states /\ List.length out = world
  /\ (forall k v, nth_error out k = Some v -> exists d, v = VDict d /\ intact k d)
  /\ (exists t, forall d, In (VDict d) out -> get d k_global = VStr t).

Lemma accepted_inv world states out : validate world states = Ok (out, false) -> belongs_together world out states.
Proof.
  unfold Resume.validate. intros H. destruct (forallb legacy states) eqn:El; [discriminate|].
  inv_bind H. rename v into l. apply guard_Ok in H. destruct H as (Hc & H). inv_bind H. apply guard_Ok in H. destruct H as (Hg & H). injection H as <-.
  destruct (check_states_ok Hm) as (E & ND & _ & F).
  destruct (@ordering l world) as (ol & E1 & P & Ef).
  { exact ND. } { eapply Forall_impl; [|exact F]. intros sd (_ & H & _). exact H. }
  { intros k Hk. rewrite forallb_forall in Hc. assert (I : In k (seq 0 world)) by (apply in_seq; lia). apply Hc in I. apply existsb_exists in I. destruct I as (sd & I & Es). apply Z.eqb_eq in Es. rewrite <- Es. apply in_map. exact I. }
  rewrite E1 in Hm0. injection Hm0 as <-.
  assert (Lo : List.length ol = world). { transitivity (List.length (map fst ol)); [rewrite map_length; reflexivity|]. rewrite Ef, map_length, seq_length. reflexivity. }
  split. { destruct ol; [cbn in Hg; discriminate|]. cbn in Lo. lia. }
  split. { rewrite map_map, <- E. apply (Permutation_map (fun sd => VDict (snd sd))). exact P. }
  split. { rewrite !map_length. exact Lo. }
  rewrite Forall_forall in F. split.
  - intros k v Hv. rewrite map_map, nth_error_map in Hv. destruct (nth_error ol k) as [sd|] eqn:Ek; [|discriminate]. cbn in Hv. injection Hv as <-. exists (snd sd). split; [reflexivity|].
    assert (Es : fst sd = Z.of_nat k).
    { pose proof (map_nth_error fst _ _ Ek) as A. rewrite Ef, nth_error_map in A. assert (Hk : (k < List.length ol)%nat) by (apply nth_error_Some; congruence).
      rewrite (nth_error_nth' _ 0%nat), seq_nth in A by (rewrite ?seq_length; lia). cbn in A. congruence. }
    apply nth_error_In in Ek. apply (Permutation_in _ P) in Ek. destruct (F _ Ek) as (A & _ & B & C & D & G). rewrite Es in A, B. unfold intact. auto.
  - destruct ol as [|sd0 ol]; [cbn in Hg; discriminate|]. cbn [map] in Hg.
    assert (F0 : global_stamp_fits (snd sd0)). { apply F. apply (Permutation_in _ P). left. reflexivity. }
    destruct F0 as (p & g & _ & _ & G0). exists (digest g). intros d I. rewrite map_map in I. apply in_map_iff in I. destruct I as (sd & Ed & I). injection Ed as <-.
    destruct I as [<-|I]; [exact G0|]. rewrite forallb_forall in Hg. specialize (Hg _ (in_map snd _ _ I)). unfold same_text in Hg. rewrite G0 in Hg.
    destruct (get (snd sd) k_global); try discriminate. apply ustr_eqb_eq in Hg. subst. reflexivity.
Qed.
Lemma accepted_intro world states out : forallb legacy states = false -> belongs_together world out states -> validate world states = Ok (out, false).
Proof.
  intros El (Wp & P & L & In_ & (t & Ht)). unfold Resume.validate. rewrite El.
  assert (X : exists ds, out = map VDict ds).
  { exists (map (fun v => match v with VDict d => d | _ => [] end) out). rewrite map_map. clear - In_. transitivity (map (fun v : value => v) out); [symmetry; apply map_id|].
    apply map_ext_in. intros v I. apply In_nth_error in I. destruct I as (k & Hk). destruct (In_ _ _ Hk) as (d & -> & _). reflexivity. }
  destruct X as (ds & ->). rewrite map_length in L.
  set (slot_of := fun d : list (key * value) => match get d k_slot with VInt n => n | _ => -1 end).
  assert (Sl : map slot_of ds = map Z.of_nat (seq 0 world)).
  { apply ext_eq. intros k. rewrite !nth_error_map. destruct (Nat.lt_ge_cases k world) as [Hk|Hk].
    - destruct (nth_error ds k) as [d|] eqn:Ed; [|apply nth_error_None in Ed; lia]. assert (E : nth_error (map VDict ds) k = Some (VDict d)) by (rewrite nth_error_map, Ed; reflexivity).
      destruct (In_ _ _ E) as (d' & Ed' & A & _). injection Ed' as <-. rewrite (nth_error_nth' _ 0%nat), seq_nth by (rewrite ?seq_length; lia). cbn [option_map]. replace (slot_of d) with (Z.of_nat k) by (unfold slot_of; rewrite A; reflexivity). reflexivity.
    - rewrite (proj2 (nth_error_None ds k)) by lia. rewrite (proj2 (nth_error_None (seq 0 world) k)) by (rewrite seq_length; lia). reflexivity. }
  destruct (Permutation_map_inv _ _ (Permutation_sym P)) as (ds' & -> & P').
  set (l := map (fun d => (slot_of d, d)) ds').
  assert (M : map VDict ds' = map (fun sd => VDict (snd sd)) l) by (unfold l; rewrite map_map; reflexivity).
  assert (Pf : Permutation (map fst l) (map Z.of_nat (seq 0 world))).
  { unfold l. rewrite map_map. cbn. rewrite <- Sl. apply Permutation_map. apply Permutation_sym. exact P'. }
  assert (ND : NoDup (map fst l)).
  { apply (Permutation_NoDup (Permutation_sym Pf)). apply FinFun.Injective_map_NoDup; [intros a b; lia|apply seq_NoDup]. }
  assert (F : Forall (fun sd => get (snd sd) k_slot = VInt (fst sd) /\ 0 <= fst sd < Z.of_nat world /\ equals_int (get (snd sd) k_rank) (fst sd) = true
             /\ local_stamp_fits (snd sd) /\ global_stamp_fits (snd sd) /\ kind_ok (snd sd)) l).
  { apply Forall_forall. intros sd I. unfold l in I. apply in_map_iff in I. destruct I as (d & <- & I). cbn [fst snd]. apply (Permutation_in _ (Permutation_sym P')) in I.
    apply In_nth_error in I. destruct I as (k & Hk). assert (E : nth_error (map VDict ds) k = Some (VDict d)) by (rewrite nth_error_map, Hk; reflexivity).
    destruct (In_ _ _ E) as (d' & Ed' & A & B & C & D & G). injection Ed' as <-. unfold slot_of. rewrite A. assert (Hl : (k < List.length ds)%nat) by (apply nth_error_Some; congruence).
    split; [reflexivity|]. split; [lia|]. auto. }
  rewrite M, check_states_intro; [|exact ND|intros s _ []|exact F]. cbn [bind].
  assert (Cov : forall k, (k < world)%nat -> In (Z.of_nat k) (map fst l)).
  { intros k Hk. apply (Permutation_in _ (Permutation_sym Pf)). apply in_map. apply in_seq. lia. }
  replace (forallb _ (seq 0 world)) with true.
  2:{ symmetry. apply forallb_forall. intros k I. apply in_seq in I. apply existsb_exists. destruct (proj1 (in_map_iff _ _ _) (Cov k ltac:(lia))) as (sd & Es & Is). exists sd. split; [exact Is|]. apply Z.eqb_eq. exact Es. }
  destruct (@ordering l world ND) as (ol & E1 & Po & Ef); [eapply Forall_impl; [|exact F]; intros sd (_ & H & _); exact H|exact Cov|]. rewrite E1. cbn [bind].
  assert (Eo : map snd ol = ds).
  { assert (Eo : ol = map (fun d => (slot_of d, d)) ds).
    { apply ext_eq. intros k. assert (Lo : List.length ol = world) by (transitivity (List.length (map fst ol)); [rewrite map_length; reflexivity|]; rewrite Ef, map_length, seq_length; reflexivity).
      destruct (Nat.lt_ge_cases k world) as [Hk|Hk].
      - destruct (nth_error ol k) as [sd|] eqn:E2; [|apply nth_error_None in E2; lia]. rewrite nth_error_map. destruct (nth_error ds k) as [d|] eqn:E3; [|apply nth_error_None in E3; lia]. cbn. f_equal.
        apply (nodup_fst_eq ND).
        + apply (Permutation_in _ Po). eapply nth_error_In. exact E2.
        + unfold l. apply in_map_iff. exists d. split; [reflexivity|]. apply (Permutation_in _ P'). eapply nth_error_In. exact E3.
        + cbn. pose proof (map_nth_error fst _ _ E2) as A. pose proof (map_nth_error slot_of _ _ E3) as B. rewrite Sl in B. cbn in A, B. assert (A' : nth_error (map Z.of_nat (seq 0 world)) k = Some (fst sd)) by (rewrite <- Ef; exact A). rewrite B in A'. injection A' as A'. symmetry. exact A'.
      - rewrite !(proj2 (nth_error_None _ _)); [reflexivity|rewrite map_length; lia|lia]. }
    rewrite Eo, map_map. cbn. apply map_id. }
  rewrite Eo. destruct ds as [|d0 ds]; [cbn in L; lia|].
  replace (forallb _ ds) with true; [reflexivity|]. symmetry. apply forallb_forall. intros d I. unfold same_text. rewrite (Ht d0) by (left; reflexivity). rewrite (Ht d) by (right; apply in_map; exact I). apply ustr_eqb_refl.
Qed.

Theorem C56_states_are_accepted_exactly_if_they_belong_together : forall world states out,
  validate world states = Ok (out, false) <-> ~ Forall (fun v => legacy v = true) states /\ belongs_together world out states.
Proof.
  intros world states out. split.
  - intros H. split; [|apply accepted_inv; exact H]. intros F. unfold Resume.validate in H. replace (forallb legacy states) with true in H; [discriminate|]. symmetry. apply forallb_forall. apply Forall_forall. exact F.
  - intros (H & B). apply accepted_intro; [|exact B]. apply not_true_iff_false. intros E. apply H. apply Forall_forall. apply forallb_forall. exact E.
Qed.

(** ** Old checkpoints *)
Theorem C56_old_states_pass_unchanged : forall world states, Forall (fun v => legacy v = true) states -> validate world states = Ok (states, true).
Proof.
  intros world states F. unfold Resume.validate. replace (forallb legacy states) with true; [reflexivity|]. symmetry. apply forallb_forall. apply Forall_forall. exact F.
Qed.
Lemma legacy_kind d : legacy (VDict d) = true -> get d k_kind = VNone /\ is_true (get d k_supported) = true.
Proof.
  unfold legacy. rewrite !andb_true_iff. intros (((A & B) & _) & _). split; [|exact B]. unfold get. destruct (lookup d k_kind); [discriminate|reflexivity].
Qed.
Theorem C56_old_and_new_states_are_not_mixed : forall world states,
  Exists (fun v => legacy v = true) states -> ~ Forall (fun v => legacy v = true) states -> exists e, validate world states = Err e.
Proof.
  intros world states X NF. destruct (validate world states) as [(out, fl)|e] eqn:E; [|eauto]. exfalso. destruct fl.
  - unfold Resume.validate in E. destruct (forallb legacy states) eqn:El; [apply NF, Forall_forall, forallb_forall; exact El|].
    inv_bind E. apply guard_Ok in E. destruct E as (_ & E). inv_bind E. apply guard_Ok in E. destruct E as (_ & E). discriminate.
  - destruct (accepted_inv E) as (_ & P & _ & K & _). apply Exists_exists in X. destruct X as (v & I & Lv).
    apply (Permutation_in _ (Permutation_sym P)) in I. apply In_nth_error in I. destruct I as (k & Hk). destruct (K _ _ Hk) as (d & -> & (_ & _ & _ & _ & Kk)).
    destruct (legacy_kind Lv) as (A & B). unfold kind_ok in Kk. rewrite A, B in Kk. destruct Kk as [Kk|Kk]; discriminate.
Qed.

(** ** Damage shows *)
Lemma enc_same v w b c : wf v -> wf w -> encode v = Ok b -> encode w = Ok c -> (b = c <-> same v w).
Proof. intros V W E F. exact (@C30_encodings_are_equal_exactly_for_the_same_state float_text (fun _ => 0) (fun _ => Err TypeError) v w b c V W E F). Qed.
Theorem C56_a_changed_state_no_longer_fits_its_stamp : forall d d',
  wf (VDict (without d k_local)) -> wf (VDict (without d' k_local)) -> local_stamp_fits d -> local_stamp_fits d' -> get d k_local = get d' k_local ->
  same (VDict (without d k_local)) (VDict (without d' k_local)) \/ a_collision.
Proof.
  intros d d' W W' (b & E & G) (b' & E' & G') Q. rewrite G, G' in Q. injection Q as Q.
  assert (D : b = b' \/ b <> b') by (destruct (list_eq_dec Z.eq_dec b b'); auto). destruct D as [D|D].
  - left. exact (proj1 (enc_same W W' E E') D).
  - right. exists b, b'. auto.
Qed.

(** ** Accepted ranks agree on everything that does not belong to one rank *)
Lemma wf_without d n : wf (VDict d) -> wf (VDict (without d n)).
Proof.
  intros H. destruct (wf_dict_inv H) as (ND & F). constructor.
  - clear - ND. unfold without. induction d as [|kv d IH]; [constructor|]. cbn in ND. inversion ND as [|? ? NI N]; subst. cbn [filter]. destruct (negb _); [|apply IH; exact N].
    cbn. constructor; [|apply IH; exact N]. intros I. apply NI. apply in_map_iff in I. destruct I as (x & E & I). apply filter_In in I. apply in_map_iff. exists x. intuition.
  - apply Forall_forall. intros x I. apply filter_In in I. rewrite Forall_forall in F. apply F. intuition.
Qed.
Lemma wf_lookup d n v : wf (VDict d) -> lookup d n = Some v -> wf v.
Proof.
  intros H. destruct (wf_dict_inv H) as (_ & F). unfold lookup. intros E. destruct (find _ d) as [kv|] eqn:Ef; [|discriminate]. cbn in E. injection E as <-.
  apply find_some in Ef. rewrite Forall_forall in F. apply F. intuition.
Qed.
Lemma wf_get d n : wf (VDict d) -> wf (get d n).
Proof. intros H. unfold get. destruct (lookup d n) eqn:E; [eapply wf_lookup; eassumption|constructor]. Qed.
Lemma neq_key a b : ustr_eqb a b = false -> KStr a <> KStr b.
Proof. intros H E. injection E as ->. rewrite ustr_eqb_refl in H. discriminate. Qed.
Ltac keys := cbn [map fst app]; repeat (constructor; [cbn [In]; intros HIN; repeat destruct HIN as [HIN|HIN]; try (revert HIN; apply neq_key; vm_compute; reflexivity); exact HIN|]); constructor.

(** What [projection] is made of. *)
Definition vq_part (d : dict) (part : dict) : Prop :=
  (lookup d k_vq = None /\ part = []) \/ (lookup d k_vq = Some VNone /\ part = [(KStr k_vq, VNone)])
  \/ exists m, lookup d k_vq = Some (VDict m) /\ part = [(KStr k_vq, VDict [(KStr (ulit "version"), get m (ulit "version"));
            (KStr (ulit "schema"), get m (ulit "schema")); (KStr (ulit "autocast_mode"), get m (ulit "autocast_mode"))])].
Definition rest_part (d : dict) (part : dict) : Prop :=
  if equals_str (get d k_kind) file_stream then
    part = (if is_none (get d k_coordination) then [(KStr k_stream, get d k_stream)] else [(KStr k_coordination, get d k_coordination)])
  else exists m, part = [(KStr k_sampler, VDict (without m k_rank))] /\ (get d k_sampler = VDict m \/ falsy float_equals (get d k_sampler) = true /\ m = []).
Lemma projection_ok d p : projection d = Ok p -> exists vq rest, vq_part d vq /\ rest_part d rest
  /\ p = VDict ([(KStr k_supported, get d k_supported); (KStr k_kind, get d k_kind); (KStr k_signature, get d k_signature)] ++ vq ++ rest).
Proof.
  unfold Resume.projection. cbv zeta. intros H. inv_bind H. inv_bind H. injection H as <-. exists v, v0. split; [|split; [|reflexivity]].
  - unfold vq_part. destruct (lookup d k_vq) as [x|]; [|injection Hm as <-; auto]. destruct x; try discriminate; injection Hm as <-; eauto.
  - unfold rest_part. destruct (equals_str (get d k_kind) file_stream).
    + destruct (is_none (get d k_coordination)); congruence.
    + destruct (falsy float_equals (get d k_sampler)); [exists []; split; [injection Hm0 as <-; reflexivity|auto]|].
      destruct (get d k_sampler); try discriminate. injection Hm0 as <-. eauto.
Qed.
Lemma projection_wf d p : wf (VDict d) -> projection d = Ok p -> wf p.
Proof.
  intros W H. destruct (projection_ok H) as (vq & rest & Hv & Hr & ->).
  assert (Wr : Forall (fun kv => wf (snd kv)) rest).
  { unfold rest_part in Hr. destruct (equals_str (get d k_kind) file_stream).
    - rewrite Hr. destruct (is_none (get d k_coordination)); (constructor; [apply wf_get; exact W|constructor]).
    - destruct Hr as (m & -> & Hm). constructor; [|constructor]. cbn [snd]. apply wf_without. destruct Hm as [Hm|(_ & ->)]; [rewrite <- Hm; apply wf_get; exact W|constructor; constructor]. }
  assert (Wv : Forall (fun kv => wf (snd kv)) vq).
  { destruct Hv as [(_ & ->)|[(_ & ->)|(m & Em & ->)]]; [constructor|constructor; [constructor|constructor]|]. constructor; [|constructor]. cbn [snd].
    pose proof (wf_lookup W Em) as Wm. constructor; [keys|]. repeat (constructor; [apply wf_get; exact Wm|]). constructor. }
  constructor.
  - assert (Kr : exists n, map fst rest = [KStr n] /\ In n [k_stream; k_coordination; k_sampler]).
    { unfold rest_part in Hr. destruct (equals_str (get d k_kind) file_stream).
      - rewrite Hr. destruct (is_none (get d k_coordination)); eexists; (split; [reflexivity|]); [left; reflexivity|right; left; reflexivity].
      - destruct Hr as (m & -> & _). eexists. split; [reflexivity|]. right; right; left; reflexivity. }
    assert (Kv : map fst vq = [] \/ map fst vq = [KStr k_vq]).
    { destruct Hv as [(_ & ->)|[(_ & ->)|(m & Em & ->)]]; auto. }
    rewrite !map_app. destruct Kr as (n & -> & In_), Kv as [-> | ->]; repeat destruct In_ as [<-|In_]; try destruct In_; keys.
  - apply Forall_app. split; [repeat (constructor; [apply wf_get; exact W|]); constructor|]. apply Forall_app. auto.
Qed.

Definition entries (v : value) : dict := match v with VDict m => m | _ => [] end.
(** Two ranks continue the same run: the stream position (or the shared part of it), or the sampler but for the rank in it. *)
Definition agree (d d' : dict) : Prop :=
  same (get d k_supported) (get d' k_supported) /\ same (get d k_kind) (get d' k_kind) /\ same (get d k_signature) (get d' k_signature)
  /\ (get d k_kind = VStr file_stream ->
        same (get d k_coordination) (get d' k_coordination) /\ (get d k_coordination = VNone -> same (get d k_stream) (get d' k_stream)))
  /\ (get d k_kind <> VStr file_stream ->
        same (VDict (without (entries (get d k_sampler)) k_rank)) (VDict (without (entries (get d' k_sampler)) k_rank)))
  /\ match lookup d k_vq, lookup d' k_vq with
     | None, None => True
     | Some v, Some v' =>
         (v = VNone /\ v' = VNone)
         \/ exists m m', v = VDict m /\ v' = VDict m' /\ forall n, In n [ulit "version"; ulit "schema"; ulit "autocast_mode"] -> same (get m n) (get m' n)
     | _, _ => False
     end.

Lemma same_str_l s v : same (VStr s) v -> v = VStr s.
Proof. inversion 1; reflexivity. Qed.
Lemma same_none_l v : same VNone v -> v = VNone.
Proof. inversion 1; reflexivity. Qed.
Lemma lookup_cons_same n v d : lookup ((KStr n, v) :: d) n = Some v.
Proof. unfold lookup. cbn [find fst]. rewrite is_key_refl. reflexivity. Qed.
Lemma lookup_cons_other n m v d : ustr_eqb m n = false -> lookup ((KStr m, v) :: d) n = lookup d n.
Proof. intros H. unfold lookup. cbn [find fst]. change (is_key n (KStr m)) with (ustr_eqb m n). rewrite H. reflexivity. Qed.
Ltac look := cbn [app]; repeat (rewrite lookup_cons_same || rewrite lookup_cons_other by (vm_compute; reflexivity)).
Ltac look_in H := cbn [app] in H; repeat (rewrite lookup_cons_same in H || rewrite lookup_cons_other in H by (vm_compute; reflexivity)).
Lemma lookup_nil n : lookup [] n = None. Proof. reflexivity. Qed.

Lemma vq_lookup d vq rest : vq_part d vq -> rest_part d rest -> lookup (vq ++ rest) k_vq = lookup vq k_vq.
Proof.
  intros Hv Hr. rewrite lookup_app. destruct (lookup vq k_vq) eqn:E; [reflexivity|].
  unfold rest_part in Hr. destruct (equals_str (get d k_kind) file_stream).
  - rewrite Hr. destruct (is_none (get d k_coordination)); look; reflexivity.
  - destruct Hr as (m & -> & _). look. reflexivity.
Qed.
Lemma other_lookup d vq rest n : vq_part d vq -> ustr_eqb k_vq n = false -> lookup (vq ++ rest) n = lookup rest n.
Proof.
  intros Hv Hn. rewrite lookup_app. replace (lookup vq n) with (@None value); [reflexivity|]. symmetry.
  destruct Hv as [(_ & ->)|[(_ & ->)|(m & Em & ->)]]; [reflexivity| |]; (rewrite lookup_cons_other by exact Hn); reflexivity.
Qed.
Lemma sampler_entries v m : v = VDict m \/ falsy float_equals v = true /\ m = [] -> m = entries v.
Proof. intros [-> |(H & ->)]; [reflexivity|]. destruct v as [ | | | | | | | |[|x r]| | ]; try reflexivity. discriminate. Qed.
Lemma agree_of_projection d d' p p' : wf (VDict d) -> wf (VDict d') -> projection d = Ok p -> projection d' = Ok p' -> same p p' -> agree d d'.
Proof.
  intros W W' H H' S. pose proof (projection_wf W H) as Wp. pose proof (projection_wf W' H') as Wp'.
  destruct (projection_ok H) as (vq & rest & Hv & Hr & ->). destruct (projection_ok H') as (vq' & rest' & Hv' & Hr' & ->).
  pose proof (fun n => @same_lookup _ _ n Wp Wp' S) as L. clear S.
  pose proof (L k_supported) as A1. look_in A1. pose proof (L k_kind) as A2. look_in A2. pose proof (L k_signature) as A3. look_in A3.
  pose proof (L k_vq) as A4. look_in A4. rewrite (vq_lookup Hv Hr), (vq_lookup Hv' Hr') in A4.
  pose proof (L k_stream) as A5. look_in A5. rewrite !(@other_lookup _ _ _ k_stream) in A5 by (eassumption || (vm_compute; reflexivity)).
  pose proof (L k_coordination) as A6. look_in A6. rewrite !(@other_lookup _ _ _ k_coordination) in A6 by (eassumption || (vm_compute; reflexivity)).
  pose proof (L k_sampler) as A7. look_in A7. rewrite !(@other_lookup _ _ _ k_sampler) in A7 by (eassumption || (vm_compute; reflexivity)).
  clear L. split; [exact A1|]. split; [exact A2|]. split; [exact A3|]. unfold rest_part in Hr, Hr'. split; [|split].
  - intros K. rewrite K in A2. apply same_str_l in A2. rewrite K in Hr. rewrite A2 in Hr'. cbn [equals_str] in Hr, Hr'. rewrite ustr_eqb_refl in Hr, Hr'. subst rest rest'.
    destruct (is_none (get d k_coordination)) eqn:N, (is_none (get d' k_coordination)) eqn:N'.
    + look_in A5. split; [|intros _; exact A5]. destruct (get d k_coordination), (get d' k_coordination); try discriminate. constructor.
    + look_in A5. destruct A5.
    + look_in A5. destruct A5.
    + look_in A6. split; [exact A6|]. intros E. rewrite E in N. discriminate.
  - intros K. assert (Q : equals_str (get d k_kind) file_stream = false) by (apply not_true_iff_false; rewrite equals_str_eq; exact K).
    assert (Q' : equals_str (get d' k_kind) file_stream = false).
    { apply not_true_iff_false; rewrite equals_str_eq. intros K'. apply K. rewrite K' in A2. inversion A2. congruence. }
    rewrite Q in Hr. rewrite Q' in Hr'. destruct Hr as (x & -> & Hx), Hr' as (y & -> & Hy). look_in A7.
    rewrite (sampler_entries Hx), (sampler_entries Hy) in A7. exact A7.
  - destruct Hv as [(E & ->)|[(E & ->)|(m & E & ->)]], Hv' as [(E' & ->)|[(E' & ->)|(m' & E' & ->)]]; rewrite E, E'; look_in A4; try rewrite lookup_nil in A4; try (exact I); try contradiction.
    + left. auto.
    + inversion A4.
    + inversion A4.
    + right. exists m, m'. split; [reflexivity|]. split; [reflexivity|]. intros n In_.
      assert (T : forall q, wf (VDict q) -> wf (VDict [(KStr (ulit "version"), get q (ulit "version"));
            (KStr (ulit "schema"), get q (ulit "schema")); (KStr (ulit "autocast_mode"), get q (ulit "autocast_mode"))])).
      { intros q Wq. constructor; [keys|]. repeat (constructor; [apply wf_get; exact Wq|]). constructor. }
      pose proof (@same_lookup _ _ n (T _ (wf_lookup W E)) (T _ (wf_lookup W' E')) A4) as B.
      destruct In_ as [<-|[<-|[<-|[]]]]; look_in B; exact B.
Qed.

Theorem C56_accepted_ranks_agree : forall world states out d d',
  validate world states = Ok (out, false) -> In (VDict d) out -> In (VDict d') out -> wf (VDict d) -> wf (VDict d') -> agree d d' \/ a_collision.
Proof.
  intros world states out d d' H I I' W W'. destruct (accepted_inv H) as (_ & _ & _ & K & (t & T)).
  assert (G : forall e, In (VDict e) out -> global_stamp_fits e).
  { intros e Ie. apply In_nth_error in Ie. destruct Ie as (k & Hk). destruct (K _ _ Hk) as (x & Ex & (_ & _ & _ & G & _)). injection Ex as <-. exact G. }
  destruct (G _ I) as (p & g & Ep & Eg & Q), (G _ I') as (p' & g' & Ep' & Eg' & Q'). rewrite (T _ I) in Q. rewrite (T _ I') in Q'. injection Q as Q. injection Q' as Q'.
  assert (D : g = g' \/ g <> g') by (destruct (list_eq_dec Z.eq_dec g g'); auto). destruct D as [D|D].
  - left. apply (agree_of_projection W W' Ep Ep'). exact (proj1 (enc_same (projection_wf W Ep) (projection_wf W' Ep') Eg Eg') D).
  - right. exists g, g'. split; [exact D|congruence].
Qed.

Lemma same_none_r v : same v VNone -> v = VNone.
Proof. inversion 1; reflexivity. Qed.
Lemma same_of_agree d d' p p' : projection d = Ok p -> projection d' = Ok p' -> agree d d' -> same p p'.
Proof.
  intros H H' (A1 & A2 & A3 & A4 & A5 & A6).
  destruct (projection_ok H) as (vq & rest & Hv & Hr & ->). destruct (projection_ok H') as (vq' & rest' & Hv' & Hr' & ->).
  eapply sa_dict; [apply Permutation_refl|]. apply Forall2_app; [repeat (constructor; [split; [reflexivity|assumption]|]); constructor|]. apply Forall2_app.
  - destruct Hv as [(E & ->)|[(E & ->)|(m & E & ->)]], Hv' as [(E' & ->)|[(E' & ->)|(m' & E' & ->)]]; rewrite E, E' in A6; try contradiction; try (constructor; fail).
    + constructor; [split; constructor|constructor].
    + destruct A6 as [(_ & X)|(q & q' & X & _)]; discriminate.
    + destruct A6 as [(X & _)|(q & q' & _ & X & _)]; discriminate.
    + destruct A6 as [(X & _)|(q & q' & X & Y & F)]; [discriminate|]. injection X as <-. injection Y as <-. constructor; [|constructor]. split; [reflexivity|]. cbn [snd].
      eapply sa_dict; [apply Permutation_refl|]. constructor; [split; [reflexivity|apply F; left; reflexivity]|]. constructor; [split; [reflexivity|apply F; right; left; reflexivity]|].
      constructor; [split; [reflexivity|apply F; right; right; left; reflexivity]|]. constructor.
  - unfold rest_part in Hr, Hr'. destruct (equals_str (get d k_kind) file_stream) eqn:Q.
    + apply equals_str_eq in Q. rewrite Q in A2. apply same_str_l in A2. rewrite A2 in Hr'. cbn [equals_str] in Hr'. rewrite ustr_eqb_refl in Hr'. destruct (A4 Q) as (B1 & B2). subst rest rest'.
      destruct (is_none (get d k_coordination)) eqn:N.
      * destruct (get d k_coordination) eqn:G; try discriminate. apply same_none_l in B1. rewrite B1. cbn. constructor; [split; [reflexivity|apply B2; reflexivity]|constructor].
      * destruct (is_none (get d' k_coordination)) eqn:N'; [|constructor; [split; [reflexivity|exact B1]|constructor]].
        destruct (get d' k_coordination); try discriminate. apply same_none_r in B1. rewrite B1 in N. discriminate.
    + assert (K : get d k_kind <> VStr file_stream) by (rewrite <- equals_str_eq, Q; discriminate).
      assert (Q' : equals_str (get d' k_kind) file_stream = false).
      { apply not_true_iff_false; rewrite equals_str_eq. intros K'. apply K. rewrite K' in A2. inversion A2. congruence. }
      rewrite Q' in Hr'. destruct Hr as (x & -> & Hx), Hr' as (y & -> & Hy). constructor; [|constructor]. split; [reflexivity|]. cbn [snd].
      rewrite (sampler_entries Hx), (sampler_entries Hy). apply A5. exact K.
Qed.

(** ** What the ranks save is accepted *)
Lemma projection_ext d e : (forall n, In n [k_supported; k_kind; k_signature; k_vq; k_coordination; k_stream; k_sampler] -> lookup d n = lookup e n) -> projection d = projection e.
Proof.
  intros H. assert (G : forall n, In n [k_supported; k_kind; k_signature; k_vq; k_coordination; k_stream; k_sampler] -> get d n = get e n) by (intros n I; unfold get; rewrite (H n I); reflexivity).
  unfold Resume.projection. cbv zeta. rewrite (G k_supported), (G k_kind), (G k_signature), (H k_vq), (G k_coordination), (G k_stream), (G k_sampler) by (cbn [In]; tauto). reflexivity.
Qed.
Lemma stamped_intact d s k : stamped d = Ok s -> lookup d k_global = None -> lookup d k_local = None ->
  get d k_slot = VInt (Z.of_nat k) -> get d k_rank = VInt (Z.of_nat k) -> kind_ok d ->
  intact k s /\ (forall n, n <> k_global -> n <> k_local -> lookup s n = lookup d n) /\ projection s = projection d.
Proof.
  unfold Resume.stamped. intros H Ng Nl Es Er Kd. inv_bind H. inv_bind H. rewrite (assign_fresh _ Ng) in H. inv_bind H.
  assert (Nl' : lookup (d ++ [(KStr k_global, VStr (digest v0))]) k_local = None) by (rewrite lookup_app, Nl; look; reflexivity).
  rewrite (assign_fresh _ Nl') in H. injection H as <-.
  assert (L : forall n, n <> k_global -> n <> k_local -> lookup ((d ++ [(KStr k_global, VStr (digest v0))]) ++ [(KStr k_local, VStr (digest v1))]) n = lookup d n).
  { intros n A B. rewrite !lookup_app. destruct (lookup d n); [reflexivity|]. unfold lookup. cbn [find fst]. unfold is_key.
    rewrite (proj2 (ustr_eqb_neq _ _)) by congruence. rewrite (proj2 (ustr_eqb_neq _ _)) by congruence. reflexivity. }
  assert (N : forall n, ustr_eqb n k_global = false -> ustr_eqb n k_local = false -> n <> k_global /\ n <> k_local).
  { intros n A B. split; apply ustr_eqb_neq; assumption. }
  assert (P : projection ((d ++ [(KStr k_global, VStr (digest v0))]) ++ [(KStr k_local, VStr (digest v1))]) = projection d).
  { apply projection_ext. intros n I. apply L; cbn [In] in I; repeat destruct I as [<-|I]; try destruct I; apply ustr_eqb_neq; vm_compute; reflexivity. }
  split; [|split; [exact L|exact P]].
  assert (G : forall n, ustr_eqb n k_global = false -> ustr_eqb n k_local = false -> get ((d ++ [(KStr k_global, VStr (digest v0))]) ++ [(KStr k_local, VStr (digest v1))]) n = get d n).
  { intros n A B. unfold get. rewrite (L n) by (apply ustr_eqb_neq; assumption). reflexivity. }
  split; [rewrite G by (vm_compute; reflexivity); exact Es|]. split; [rewrite G by (vm_compute; reflexivity); rewrite Er; apply Z.eqb_refl|]. split.
  { exists v1. split.
    - rewrite without_app, (without_none Nl'). cbn [without filter fst]. rewrite is_key_refl. cbn [negb]. rewrite app_nil_r. exact Hm1.
    - unfold get. rewrite lookup_app, Nl'. look. reflexivity. }
  split.
  { exists v, v0. split; [rewrite P; exact Hm|]. split; [exact Hm0|]. unfold get. rewrite !lookup_app, Ng. look. reflexivity. }
  unfold kind_ok in *. rewrite !G by (vm_compute; reflexivity). exact Kd.
Qed.
Lemma captured_facts reason k sg rng c vq tuning : let d := captured reason (Z.of_nat k) sg rng c vq tuning in
  lookup d k_global = None /\ lookup d k_local = None /\ get d k_slot = VInt (Z.of_nat k) /\ get d k_rank = VInt (Z.of_nat k) /\ kind_ok d /\ legacy (VDict d) = false
  /\ lookup d k_slot = Some (VInt (Z.of_nat k)).
Proof.
  cbv zeta. unfold captured, get, kind_ok. destruct reason as [r|].
  - destruct vq; cbn [optional app]; (split; [look; reflexivity|]); (split; [look; reflexivity|]); (split; [look; reflexivity|]); (split; [look; reflexivity|]); (split; [unfold get; look; reflexivity|]); (split; [reflexivity|look; reflexivity]).
  - destruct c as [s a b co|s]; [destruct co|]; destruct vq, tuning; cbn [optional app]; (split; [look; reflexivity|]); (split; [look; reflexivity|]); (split; [look; reflexivity|]); (split; [look; reflexivity|]); (split; [unfold get; look; cbn [is_true]; auto|]); (split; [reflexivity|look; reflexivity]).
Qed.

(** What rank [k] has when it saves. *)
Record rank_run := { why_not : option ustr; sig : value; rngs : value; cur : cursor; vqs : option value; tune : option value }.
Definition raw (r : rank_run) (k : nat) : dict := captured (why_not r) (Z.of_nat k) (sig r) (rngs r) (cur r) (vqs r) (tune r).
Definition saved (r : rank_run) (k : nat) : res dict :=
  local_resume_state float_text digest float_equals (why_not r) (Z.of_nat k) (sig r) (rngs r) (cur r) (vqs r) (tune r).

(** The states that the ranks of one run save are accepted in whatever order they were gathered, and sorted by rank. *)
Theorem C56_saved_states_are_accepted : forall world (run : nat -> rank_run) (state : nat -> dict) gathered,
  (0 < world)%nat -> (forall k, (k < world)%nat -> saved (run k) k = Ok (state k) /\ wf (VDict (raw (run k) k))) ->
  (forall j k, (j < world)%nat -> (k < world)%nat -> agree (raw (run j) j) (raw (run k) k)) ->
  Permutation gathered (map (fun k => VDict (state k)) (seq 0 world)) ->
  validate world gathered = Ok (map (fun k => VDict (state k)) (seq 0 world), false).
Proof.
  intros world run state gathered Wp Hs Ha P.
  assert (F : forall k, (k < world)%nat -> intact k (state k) /\ lookup (state k) k_slot = Some (VInt (Z.of_nat k)) /\ projection (state k) = projection (raw (run k) k)).
  { intros k Hk. destruct (Hs k Hk) as (E & _). destruct (@captured_facts (why_not (run k)) k (sig (run k)) (rngs (run k)) (cur (run k)) (vqs (run k)) (tune (run k))) as (A & B & C & D & K & _ & L).
    destruct (stamped_intact E A B C D K) as (I & Lk & Pr). split; [exact I|]. split; [|exact Pr]. rewrite Lk by (apply ustr_eqb_neq; vm_compute; reflexivity). exact L. }
  apply accepted_intro.
  - apply not_true_iff_false. intros E. rewrite forallb_forall in E.
    assert (I : In (VDict (state 0%nat)) gathered) by (apply (Permutation_in _ (Permutation_sym P)); apply in_map_iff; exists 0%nat; split; [reflexivity|apply in_seq; lia]).
    apply E in I. unfold legacy in I. rewrite !andb_true_iff in I. destruct I as ((_ & I) & _). rewrite forallb_forall in I.
    destruct (F 0%nat Wp) as (_ & L & _). unfold lookup in L. destruct (find _ (state 0%nat)) as [kv|] eqn:Ef; [|discriminate]. apply find_some in Ef. destruct Ef as (I2 & Ek). apply is_key_eq in Ek.
    apply I in I2. rewrite Ek in I2. vm_compute in I2. discriminate.
  - split; [exact Wp|]. split; [apply Permutation_sym; exact P|]. split; [rewrite map_length, seq_length; reflexivity|]. split.
    + intros k v Hv. rewrite nth_error_map in Hv. assert (Hk : (k < world)%nat).
      { destruct (Nat.lt_ge_cases k world) as [Hk|Hk]; [exact Hk|]. rewrite (proj2 (nth_error_None (seq 0 world) k)) in Hv by (rewrite seq_length; lia). discriminate. }
      rewrite (nth_error_nth' _ 0%nat), seq_nth in Hv by (rewrite ?seq_length; lia). cbn in Hv. injection Hv as <-. exists (state k). split; [reflexivity|]. apply F. exact Hk.
    + destruct (F 0%nat Wp) as ((_ & _ & _ & (p & g & Ep & Eg & G) & _) & _ & Pr). exists (digest g). intros d I. apply in_map_iff in I. destruct I as (k & Ek & I). injection Ek as <-. apply in_seq in I.
      destruct (F k ltac:(lia)) as ((_ & _ & _ & (p' & g' & Ep' & Eg' & G') & _) & _ & Pr'). rewrite G'. do 2 f_equal.
      rewrite Pr in Ep. rewrite Pr' in Ep'. apply (enc_same (projection_wf (proj2 (Hs k ltac:(lia))) Ep') (projection_wf (proj2 (Hs 0%nat Wp)) Ep) Eg' Eg).
      apply (same_of_agree Ep' Ep). apply Ha; lia.
Qed.

(** ** What a rank continues from *)
Theorem C56_a_rank_continues_from_its_own_state : forall world rank resume d, select_state world rank (VDict resume) = Ok (d, false) ->
  intact rank d /\ (rank < world)%nat /\ falsy float_equals (get d k_supported) = false
  /\ equals_int (get resume (ulit "world_size")) (Z.of_nat world) = true
  /\ exists states, (lookup resume (ulit "ranks") = Some (VList states) \/ lookup resume (ulit "ranks") = Some (VTuple states)) /\ In (VDict d) states
       /\ (forall k, (k < world)%nat -> exists e, In (VDict e) states /\ intact k e /\ get e k_global = get d k_global).
Proof.
  intros world rank resume d H. unfold Resume.select_state in H. apply guard_Ok in H. destruct H as (_ & H). apply guard_Ok in H. destruct H as (_ & H).
  apply guard_Ok in H. destruct H as (Hw & H). inv_bind H. rename v into states. apply guard_Ok in H. destruct H as (Hl & H). apply Nat.eqb_eq in Hl. inv_bind H. destruct v as (out, fl).
  inv_bind H. destruct v as [ | | | | | | | |e| | ]; try discriminate. apply guard_Ok in H. destruct H as (Hs & H). injection H as <- ->. apply negb_true_iff in Hs.
  destruct (accepted_inv Hm0) as (Wp & P & L & K & (t & T)).
  assert (Hr : nth_error out rank = Some (VDict e)). { unfold py_get in Hm1. destruct (nth_error out rank); congruence. }
  destruct (K _ _ Hr) as (e' & Ee & I). injection Ee as <-. split; [exact I|]. split; [rewrite <- L; apply nth_error_Some; congruence|]. split; [exact Hs|]. split; [exact Hw|].
  exists states. split.
  { destruct (lookup resume (ulit "ranks")) as [x|]; [destruct x; try discriminate; injection Hm as <-; auto|]. injection Hm as <-. cbn in Hl. lia. }
  split; [apply (Permutation_in _ P); eapply nth_error_In; exact Hr|]. intros k Hk. destruct (nth_error out k) as [v|] eqn:Ek; [|apply nth_error_None in Ek; lia].
  destruct (K _ _ Ek) as (e2 & -> & I2). exists e2. apply nth_error_In in Ek. split; [apply (Permutation_in _ P); exact Ek|]. split; [exact I2|].
  rewrite (T _ Ek). symmetry. apply T. eapply nth_error_In. exact Hr.
Qed.
(** Nothing in the checkpoint makes a rank continue with another number of ranks. *)
Theorem C56_another_world_size_is_refused : forall world rank resume n,
  lookup resume (ulit "world_size") = Some (VInt n) -> n <> Z.of_nat world -> exists e, select_state world rank (VDict resume) = Err e.
Proof.
  intros world rank resume n E Hn. destruct (select_state world rank (VDict resume)) as [r|e] eqn:H; [|eauto]. exfalso. unfold Resume.select_state in H.
  apply guard_Ok in H. destruct H as (_ & H). apply guard_Ok in H. destruct H as (_ & H). apply guard_Ok in H. destruct H as (Hw & _).
  unfold get in Hw. rewrite E in Hw. apply Z.eqb_eq in Hw. auto.
Qed.
End Resume.

(** ** A concrete case: two ranks of a stream job, gathered in the wrong order; the second state damaged, missing, or old. *)
Module Ex.
Definition ft (_ : Z) : ustr := [].
Definition dg (b : bytes) : ustr := [48 + zlen b mod 10; 48 + fold_left (fun a x => (a * 31 + x) mod 1009) b 7].
Definition fe (_ _ : Z) := false.
Definition run (k : nat) : rank_run := {| why_not := None; sig := VInt 9; rngs := VInt (Z.of_nat k + 40);
  cur := Stream (VInt (Z.of_nat k)) 0 4 (Some (VInt 5)); vqs := None; tune := None |}.
Definition st (k : nat) : dict := match saved ft dg fe (run k) k with Ok d => d | Err _ => [] end.
Definition both := [VDict (st 1); VDict (st 0)].
Definition resume := VDict [(KStr (ulit "version"), VInt 2); (KStr (ulit "world_size"), VInt 2); (KStr (ulit "ranks"), VList both)].
Definition old := VDict [(KStr k_supported, VBool true); (KStr k_signature, VInt 9); (KStr k_sampler, VDict []); (KStr k_rng, VInt 1)].
Example saved_ok : saved ft dg fe (run 0) 0 = Ok (st 0) /\ saved ft dg fe (run 1) 1 = Ok (st 1).
Proof. split; vm_compute; reflexivity. Qed.
Example gathered : Resume.validate ft dg fe 2 both = Ok ([VDict (st 0); VDict (st 1)], false) /\ Resume.select_state ft dg fe 2 1 resume = Ok (st 1, false).
Proof. split; vm_compute; reflexivity. Qed.
Example damaged : Resume.validate ft dg fe 2 [VDict (st 0); VDict (assign (st 1) k_rng (VInt 7))] = Err RuntimeError
  /\ Resume.validate ft dg fe 2 [VDict (st 0); VDict (st 0)] = Err RuntimeError /\ Resume.validate ft dg fe 2 [VDict (st 0)] = Err RuntimeError
  /\ Resume.validate ft dg fe 2 [VDict (st 0); old] = Err RuntimeError /\ Resume.validate ft dg fe 2 [old; old] = Ok ([old; old], true)
  /\ Resume.select_state ft dg fe 3 1 resume = Err RuntimeError.
Proof. repeat split; vm_compute; reflexivity. Qed.
Example runs_agree : agree (raw (run 0) 0) (raw (run 1) 1).
Proof.
  split; [constructor|]. split; [constructor|]. split; [constructor|]. split; [|split].
  - intros _. split; [constructor|]. intros E. vm_compute in E. discriminate.
  - intros E. exfalso. apply E. vm_compute. reflexivity.
  - vm_compute. exact I.
Qed.
End Ex.
