(** * C44: facts about the ordered dictionary and the eviction loops *)
From Coq Require Import ZArith List Bool Lia.
From Verif Require Import Base BaseFacts NpzCache NpzCacheSpec.
Import ListNotations.
Set Implicit Arguments.
Unset Strict Implicit.
Open Scope Z_scope.

(** ** [longest_end], [keeps_some] *)

Lemma longest_end_all {A} (P : list A -> Prop) l : P l -> longest_end P l l.
Proof.
  intros H. split; [exists []; reflexivity|]. split; [exact H|].
  intros pre' s' -> _. rewrite app_length. lia.
Qed.

Lemma longest_end_cons {A} (P : list A -> Prop) x s l :
  ~ P (x :: l) -> longest_end P s l -> longest_end P s (x :: l).
Proof.
  intros Hn [[pre ->] [Hs Hmax]]. split; [exists (x :: pre); reflexivity|].
  split; [exact Hs|].
  intros pre' s' E Hs'. destruct pre' as [|y pre'].
  - cbn in E. subst s'. contradiction.
  - cbn in E. injection E as _ E. exact (Hmax _ _ E Hs').
Qed.

Lemma keeps_some_refl d : keeps_some d d.
Proof.
  exists (fun _ => true). induction d as [|kv d IH]; cbn; [reflexivity|]. rewrite <- IH. reflexivity.
Qed.

Lemma filter_filter {A} (f g : A -> bool) l :
  filter f (filter g l) = filter (fun x => g x && f x) l.
Proof.
  induction l as [|x l IH]; cbn; [reflexivity|].
  destruct (g x); cbn; [destruct (f x); cbn; rewrite IH; reflexivity|exact IH].
Qed.

Lemma keeps_some_trans a b c : keeps_some a b -> keeps_some b c -> keeps_some a c.
Proof.
  intros [f ->] [g ->]. exists (fun k => g k && f k). rewrite filter_filter. reflexivity.
Qed.

Lemma keys_filter_NoDup (f : path * entry -> bool) d : NoDup (keys d) -> NoDup (keys (filter f d)).
Proof.
  unfold keys. induction d as [|kv d IH]; cbn; [auto|]. intros H. inversion H as [|? ? Hn Hd]; subst.
  destruct (f kv); cbn; auto. constructor; auto.
  intros Hin. apply Hn. apply in_map_iff in Hin. destruct Hin as [x [E Hx]].
  apply in_map_iff. exists x. split; [exact E|]. apply filter_In in Hx. tauto.
Qed.

Lemma keeps_some_NoDup d' d : keeps_some d' d -> NoDup (keys d) -> NoDup (keys d').
Proof. intros [f ->]. apply keys_filter_NoDup. Qed.

Lemma keeps_some_In d' d kv : keeps_some d' d -> In kv d' -> In kv d.
Proof. intros [f ->] H. apply filter_In in H. tauto. Qed.

Lemma keeps_some_key d' d k : keeps_some d' d -> In k (keys d') -> In k (keys d).
Proof.
  intros H Hin. apply in_map_iff in Hin. destruct Hin as [kv [<- Hkv]].
  apply in_map. eapply keeps_some_In; eauto.
Qed.

(** ** The ordered dictionary *)

Lemma od_get_In d k v : od_get d k = Some v -> In (k, v) d.
Proof.
  induction d as [|[k' v'] d IH]; cbn; [discriminate|].
  destruct (Z.eqb_spec k' k) as [->|]; intros H; [injection H as ->; auto|auto].
Qed.

Lemma od_get_None d k : od_get d k = None <-> ~ In k (keys d).
Proof.
  induction d as [|[k' v'] d IH]; cbn; [tauto|].
  destruct (Z.eqb_spec k' k) as [->|]; [split; [discriminate|tauto]|]. rewrite IH. tauto.
Qed.

Lemma od_get_Some_key d k v : od_get d k = Some v -> In k (keys d).
Proof. intros H. apply od_get_In in H. apply (in_map fst) in H. exact H. Qed.

Lemma od_del_keep d k : NoDup (keys d) ->
  od_del d k = filter (fun kv => negb (fst kv =? k)) d.
Proof.
  induction d as [|[k' v'] d IH]; cbn; [reflexivity|]. intros H. inversion H as [|? ? Hn Hd]; subst.
  destruct (Z.eqb_spec k' k) as [->|]; cbn; [|f_equal; auto].
  clear -Hn. induction d as [|[k2 v2] d IH]; cbn; [reflexivity|].
  cbn in Hn. destruct (Z.eqb_spec k2 k) as [->|]; cbn; [tauto|]. f_equal. apply IH. tauto.
Qed.

Lemma od_del_keys d k x : NoDup (keys d) -> In x (keys (od_del d k)) <-> In x (keys d) /\ x <> k.
Proof.
  intros Hd. rewrite od_del_keep by exact Hd. unfold keys. rewrite !in_map_iff. split.
  - intros [kv [<- H]]. apply filter_In in H. destruct H as [H1 H2].
    split; [exists kv; auto|]. intros E. subst k. rewrite Z.eqb_refl in H2. discriminate H2.
  - intros [[kv [<- H]] Hne]. exists kv. split; [reflexivity|]. apply filter_In. split; [exact H|].
    apply negb_true_iff, Z.eqb_neq. exact Hne.
Qed.

Lemma od_set_new d k v : ~ In k (keys d) -> od_set d k v = d ++ [(k, v)].
Proof.
  induction d as [|[k' v'] d IH]; cbn; [reflexivity|]. intros H.
  destruct (Z.eqb_spec k' k) as [->|]; [tauto|]. f_equal. apply IH. tauto.
Qed.

Lemma od_del_new d k v : ~ In k (keys d) -> od_del (d ++ [(k, v)]) k = d.
Proof.
  induction d as [|[k' v'] d IH]; cbn; [rewrite Z.eqb_refl; reflexivity|]. intros H.
  destruct (Z.eqb_spec k' k) as [->|]; [tauto|]. f_equal. apply IH. tauto.
Qed.

Lemma od_get_new d k v : ~ In k (keys d) -> od_get (d ++ [(k, v)]) k = Some v.
Proof.
  induction d as [|[k' v'] d IH]; cbn; [rewrite Z.eqb_refl; reflexivity|]. intros H.
  destruct (Z.eqb_spec k' k) as [->|]; [tauto|]. apply IH. tauto.
Qed.

Lemma od_set_move_new d k v : ~ In k (keys d) ->
  od_move_to_end (od_set d k v) k = Ok (d ++ [(k, v)]).
Proof.
  intros H. unfold od_move_to_end. rewrite od_set_new, od_get_new, od_del_new by exact H. reflexivity.
Qed.

(** ** Removing the oldest item of one class *)

Definition sel (mm : bool) (kv : path * entry) : bool := Bool.eqb (is_mmap_entry (snd kv)) mm.
Definition cls (mm : bool) (d : odict) : odict := filter (sel mm) d.

Lemma mapped_cls d : mapped d = cls true d.
Proof. unfold mapped, cls, sel. apply filter_ext. intros kv. destruct (is_mmap_entry (snd kv)); reflexivity. Qed.

Lemma in_memory_cls d : in_memory d = cls false d.
Proof. unfold in_memory, cls, sel. apply filter_ext. intros kv. destruct (is_mmap_entry (snd kv)); reflexivity. Qed.

Lemma cls_length d : (List.length (cls true d) + List.length (cls false d) = List.length d)%nat.
Proof.
  unfold cls, sel. induction d as [|kv d IH]; cbn; [reflexivity|].
  destruct (is_mmap_entry (snd kv)); cbn; lia.
Qed.

Lemma find_victim_key d mm k : find_victim d mm = Some k -> In k (keys d).
Proof.
  induction d as [|[k' v] d IH]; cbn; [discriminate|].
  destruct (Bool.eqb (is_mmap_entry v) mm); intros H; [injection H as ->; auto|auto].
Qed.

(** With a nonempty class, [evict_oldest] drops its first item and nothing else. *)
Lemma evict_oldest_ok d mm x t : NoDup (keys d) -> cls mm d = x :: t ->
  exists d', evict_oldest d mm = Ok d' /\ keeps_some d' d /\
    cls mm d' = t /\ cls (negb mm) d' = cls (negb mm) d /\
    S (List.length d') = List.length d.
Proof.
  intros Hd Hc. unfold evict_oldest.
  assert (H : exists k, find_victim d mm = Some k /\
              cls mm (od_del d k) = t /\ cls (negb mm) (od_del d k) = cls (negb mm) d /\
              S (List.length (od_del d k)) = List.length d).
  { revert x t Hc Hd. induction d as [|[k v] d IH]; intros x t Hc Hd; [discriminate|].
    cbn in Hd. inversion Hd as [|? ? Hn Hd']; subst.
    cbn in Hc. unfold sel in Hc at 1. cbn in Hc. cbn [find_victim].
    destruct (Bool.eqb (is_mmap_entry v) mm) eqn:E.
    - injection Hc as _ Hc. exists k. split; [reflexivity|]. cbn. rewrite Z.eqb_refl.
      split; [exact Hc|]. split; [|reflexivity].
      unfold sel at 2. cbn. apply Bool.eqb_prop in E. subst mm.
      destruct (is_mmap_entry v); reflexivity.
    - destruct (IH x t Hc Hd') as [k' (H1 & H2 & H3 & H4)]. exists k'. split; [exact H1|]. cbn.
      destruct (Z.eqb_spec k k') as [->|Hne].
      + exfalso. apply Hn. exact (find_victim_key H1).
      + assert (Es : sel mm (k, v) = false) by exact E.
        split; [|split].
        * unfold cls in *. cbn. rewrite Es. exact H2.
        * unfold cls in *. cbn. destruct (sel (negb mm) (k, v)); [f_equal|]; exact H3.
        * cbn. lia. }
  destruct H as [k (H1 & H2 & H3 & H4)]. rewrite H1. exists (od_del d k).
  split; [reflexivity|]. split; [|auto]. exists (fun k' => negb (k' =? k)). apply od_del_keep. exact Hd.
Qed.

(** ** The two loops *)

Lemma evict_mmap_spec fuel cap d :
  0 <= cap -> NoDup (keys d) -> (List.length d <= fuel)%nat ->
  exists d', evict_mmap fuel cap d (zlen (cls true d)) = Ok d' /\ keeps_some d' d /\
    cls false d' = cls false d /\ longest_end (mapped_fits cap) (cls true d') (cls true d) /\
    (List.length d' <= List.length d)%nat.
Proof.
  intros Hcap. revert d. induction fuel as [|f IH]; intros d Hd Hf.
  - destruct d; [|cbn in Hf; lia]. exists []. cbn.
    change (zlen (@nil (path * entry))) with 0. destruct (Z.gtb_spec 0 cap); [lia|].
    split; [reflexivity|]. split; [apply keeps_some_refl|]. split; [reflexivity|].
    split; [|lia]. apply longest_end_all. unfold mapped_fits, zlen. cbn. lia.
  - cbn [evict_mmap]. destruct (Z.gtb_spec (zlen (cls true d)) cap) as [Hgt|Hle].
    + destruct (cls true d) as [|x t] eqn:Ec; [unfold zlen in Hgt; cbn in Hgt; lia|].
      destruct (evict_oldest_ok Hd Ec) as [d1 (E1 & Hk & Ht & Hm & Hl)]. rewrite E1. cbn [bind].
      assert (Hd1 : NoDup (keys d1)) by (eapply keeps_some_NoDup; eauto).
      destruct (IH d1 Hd1 ltac:(lia)) as [d' (E2 & Hk2 & Hm2 & Hle2 & Hl2)].
      rewrite Ht in E2. replace (zlen (x :: t) - 1) with (zlen t) by (unfold zlen; cbn; lia).
      exists d'. split; [exact E2|]. split; [eapply keeps_some_trans; eauto|].
      split; [rewrite Hm2; exact Hm|]. split; [|lia].
      rewrite Ht in Hle2. apply longest_end_cons; [|exact Hle2]. unfold mapped_fits. lia.
    + exists d. split; [reflexivity|]. split; [apply keeps_some_refl|]. split; [reflexivity|].
      split; [|lia]. apply longest_end_all. exact Hle.
Qed.

Lemma first_loaded_bytes_cls d :
  first_loaded_bytes d = match cls false d with [] => 0 | x :: _ => entry_bytes (snd x) end.
Proof.
  unfold cls. induction d as [|[k v] d IH]; cbn; [reflexivity|]. unfold sel at 1. cbn.
  destruct (is_mmap_entry v); cbn; [exact IH|reflexivity].
Qed.

Lemma evict_loaded_spec fuel cap bytes_cap d :
  NoDup (keys d) -> (List.length d <= fuel)%nat ->
  exists d', evict_loaded fuel cap bytes_cap d (zlen (cls false d)) (total_bytes (cls false d)) = Ok d' /\
    keeps_some d' d /\ cls true d' = cls true d /\
    longest_end (memory_fits cap bytes_cap) (cls false d') (cls false d).
Proof.
  revert d. induction fuel as [|f IH]; intros d Hd Hf.
  - destruct d; [|cbn in Hf; lia]. exists []. cbn.
    split; [reflexivity|]. split; [apply keeps_some_refl|]. split; [reflexivity|].
    apply longest_end_all. unfold memory_fits, zlen. cbn. lia.
  - cbn [evict_loaded].
    destruct ((zlen (cls false d) >? 1) &&
              ((zlen (cls false d) >? cap) || (total_bytes (cls false d) >? bytes_cap))) eqn:Ec0.
    + apply andb_true_iff in Ec0. destruct Ec0 as [Hone Hbig].
      destruct (cls false d) as [|x t] eqn:Ec; [discriminate Hone|].
      rewrite first_loaded_bytes_cls, Ec.
      destruct (evict_oldest_ok Hd Ec) as [d1 (E1 & Hk & Ht & Hm & Hl)]. rewrite E1. cbn [bind].
      assert (Hd1 : NoDup (keys d1)) by (eapply keeps_some_NoDup; eauto).
      destruct (IH d1 Hd1 ltac:(lia)) as [d' (E2 & Hk2 & Hm2 & Hle2)].
      rewrite Ht in E2. replace (zlen (x :: t) - 1) with (zlen t) by (unfold zlen; cbn; lia).
      replace (total_bytes (x :: t) - entry_bytes (snd x)) with (total_bytes t)
        by (unfold total_bytes; cbn [map snd fst]; rewrite zsum_cons; lia).
      exists d'. split; [exact E2|]. split; [eapply keeps_some_trans; eauto|].
      split; [rewrite Hm2; exact Hm|].
      rewrite Ht in Hle2. apply longest_end_cons; [|exact Hle2].
      unfold memory_fits. apply orb_true_iff in Hbig.
      destruct (Z.gtb_spec (zlen (x :: t)) 1); [|discriminate].
      destruct (Z.gtb_spec (zlen (x :: t)) cap); [lia|].
      destruct (Z.gtb_spec (total_bytes (x :: t)) bytes_cap); [lia|].
      destruct Hbig; discriminate.
    + exists d. split; [reflexivity|]. split; [apply keeps_some_refl|]. split; [reflexivity|].
      apply longest_end_all. unfold memory_fits.
      destruct (Z.gtb_spec (zlen (cls false d)) 1); [|lia].
      destruct (Z.gtb_spec (zlen (cls false d)) cap); [discriminate|].
      destruct (Z.gtb_spec (total_bytes (cls false d)) bytes_cap); [discriminate|]. lia.
Qed.

Lemma count_mmap_cls d : count_mmap d = zlen (cls true d).
Proof.
  unfold count_mmap, cls, zlen. induction d as [|[k v] d IH]; [reflexivity|].
  cbn [map]. rewrite zsum_cons, IH. cbn [filter]. unfold sel at 2. cbn [snd]. destruct (is_mmap_entry v); cbn [List.length Bool.eqb]; lia.
Qed.

Lemma evict_ok mmap_cap cap bytes_cap d : 0 <= mmap_cap -> NoDup (keys d) ->
  exists d', evict mmap_cap cap bytes_cap d = Ok d' /\ keeps_some d' d /\
    longest_end (mapped_fits mmap_cap) (mapped d') (mapped d) /\
    longest_end (memory_fits cap bytes_cap) (in_memory d') (in_memory d).
Proof.
  intros Hcap Hd. unfold evict. rewrite count_mmap_cls.
  destruct (@evict_mmap_spec (List.length d) mmap_cap d Hcap Hd ltac:(lia))
    as [d1 (E1 & Hk1 & Hm1 & Hl1 & Hlen)]. rewrite E1. cbn [bind].
  assert (Hd1 : NoDup (keys d1)) by (eapply keeps_some_NoDup; eauto).
  destruct (@evict_loaded_spec (List.length d1) cap bytes_cap d1 Hd1 ltac:(lia))
    as [d2 (E2 & Hk2 & Hm2 & Hl2)].
  assert (En : zlen d - zlen (cls true d) = zlen (cls false d1)).
  { rewrite Hm1. unfold zlen. rewrite <- (cls_length d). lia. }
  rewrite En.
  assert (Eb : sum_loaded_bytes d1 = total_bytes (cls false d1)).
  { rewrite <- in_memory_cls. reflexivity. }
  rewrite Eb.
  rewrite E2. exists d2. split; [reflexivity|]. split; [eapply keeps_some_trans; eauto|].
  rewrite !mapped_cls, !in_memory_cls, Hm2. split; [exact Hl1|]. rewrite Hm1 in Hl2. exact Hl2.
Qed.

(** An entry appended last survives eviction when one mapped file may be kept. *)
Lemma longest_end_last {A} (P : list A -> Prop) s l x : longest_end P s (l ++ [x]) -> P [x] ->
  exists s0, s = s0 ++ [x].
Proof.
  intros [[pre E] [Hs Hmax]] Hx.
  assert (Hl : (1 <= List.length s)%nat) by (apply (Hmax l [x]); auto).
  destruct (exists_last (l := s)) as [s0 [y ->]]; [destruct s; [cbn in Hl; lia|discriminate]|].
  rewrite app_assoc in E. apply app_inj_tail in E. destruct E as [_ ->]. exists s0. reflexivity.
Qed.

Lemma evict_keeps_last mmap_cap cap bytes_cap d k v d' :
  1 <= mmap_cap -> NoDup (keys (d ++ [(k, v)])) ->
  evict mmap_cap cap bytes_cap (d ++ [(k, v)]) = Ok d' -> exists d0, d' = d0 ++ [(k, v)].
Proof.
  intros Hcap Hd E.
  destruct (@evict_ok mmap_cap cap bytes_cap _ ltac:(lia) Hd) as [d2 (E2 & Hk & Hm & Hl)].
  rewrite E in E2. injection E2 as <-.
  assert (Hin : In (k, v) d').
  { destruct (is_mmap_entry v) eqn:Ev.
    - unfold mapped in Hm at 2. rewrite filter_app in Hm. cbn in Hm. rewrite Ev in Hm.
      assert (H1 : mapped_fits mmap_cap [(k, v)]) by (unfold mapped_fits, zlen; cbn; lia).
      destruct (longest_end_last Hm H1) as [s0 Hm']. assert (H : In (k, v) (mapped d')) by (rewrite Hm'; apply in_or_app; cbn; auto).
      apply filter_In in H. tauto.
    - unfold in_memory in Hl at 2. rewrite filter_app in Hl. cbn in Hl. rewrite Ev in Hl.
      assert (H1 : memory_fits cap bytes_cap [(k, v)]) by (unfold memory_fits, zlen; cbn; lia).
      destruct (longest_end_last Hl H1) as [s0 Hl']. assert (H : In (k, v) (in_memory d')) by (rewrite Hl'; apply in_or_app; cbn; auto).
      apply filter_In in H. tauto. }
  destruct Hk as [keep ->]. rewrite filter_app in *. cbn in *. destruct (keep k) eqn:Ek.
  - eexists. reflexivity.
  - rewrite app_nil_r in Hin. apply filter_In in Hin. cbn in Hin. rewrite Ek in Hin. destruct Hin; discriminate.
Qed.
