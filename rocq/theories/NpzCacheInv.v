(** * C44: the invariant of the shared cache and its preservation *)
From Coq Require Import ZArith List Bool Lia.
From Verif Require Import Base BaseFacts NpzCache NpzCacheSpec NpzCacheFacts.
Import ListNotations.
Set Implicit Arguments.
Unset Strict Implicit.
Open Scope Z_scope.

Definition call_at (w : world) (i : nat) (p : path) (ph : phase) : Prop :=
  nth_error (w_calls w) i = Some (mk_call p ph).

Record inv (w : world) : Prop := mk_inv {
  inv_keys : NoDup (keys (w_cache w));
  inv_set : NoDup (w_loading w);
  inv_reader : forall i p ph, call_at w i p ph -> is_reading ph = true -> In p (w_loading w);
  inv_has_reader : forall p, In p (w_loading w) ->
    exists i ph, call_at w i p ph /\ is_reading ph = true;
  inv_one_reader : forall i j p ph ph', call_at w i p ph -> call_at w j p ph' ->
    is_reading ph = true -> is_reading ph' = true -> i = j;
  inv_not_cached : forall p, In p (w_loading w) -> ~ In p (keys (w_cache w));
  inv_asleep : forall i p, call_at w i p Asleep -> In p (w_loading w);
  inv_caps : 1 <= w_mmap_cap w /\ 1 <= w_cap w;
  inv_mapped : mapped_fits (w_mmap_cap w) (mapped (w_cache w));
  inv_memory : memory_fits (w_cap w) (w_bytes_cap w) (in_memory (w_cache w))
}.

(** ** Small facts *)

Lemma mem_In p l : mem p l = true <-> In p l.
Proof.
  unfold mem. rewrite existsb_exists. split.
  - intros [x [H E]]. apply Z.eqb_eq in E. subst. exact H.
  - intros H. exists p. split; [exact H|apply Z.eqb_refl].
Qed.

Lemma set_remove_ok l p : NoDup l -> In p l ->
  exists l', set_remove l p = Some l' /\ NoDup l' /\ forall q, In q l' <-> In q l /\ q <> p.
Proof.
  induction l as [|x l IH]; cbn; [tauto|]. intros Hd Hin. inversion Hd as [|? ? Hn Hd']; subst.
  destruct (Z.eqb_spec x p) as [->|Hne].
  - exists l. split; [reflexivity|]. split; [exact Hd'|]. intros q. split.
    + intros H. split; [tauto|]. intros ->. contradiction.
    + intros [[H|H] Hq]; [congruence|exact H].
  - destruct (IH Hd' ltac:(tauto)) as [l' (E & Hl & Hq)]. rewrite E. exists (x :: l').
    split; [reflexivity|]. split.
    + constructor; [|exact Hl]. rewrite Hq. tauto.
    + intros q. cbn. rewrite Hq. split; [intros [->|]; tauto|tauto].
Qed.

Lemma call_at_set_phase w i p ph ph' j q ph2 :
  call_at w i p ph ->
  call_at (set_phase w i ph') j q ph2 <->
  (j = i /\ q = p /\ ph2 = ph') \/ (j <> i /\ call_at w j q ph2).
Proof.
  unfold call_at, set_phase. intros H. rewrite H. cbn.
  assert (Hlt : (i < List.length (w_calls w))%nat) by (apply nth_error_Some; rewrite H; discriminate).
  destruct (Nat.eq_dec j i) as [->|Hne].
  - rewrite nth_error_upd, Nat.eqb_refl. destruct (Nat.ltb_spec i (List.length (w_calls w))); [|lia]. split.
    + intros E. injection E as <- <-. auto.
    + intros [(_ & -> & ->)|[Hn _]]; [reflexivity|congruence].
  - rewrite nth_error_upd. destruct (Nat.eqb_spec j i); [contradiction|].
    split; [auto|]. intros [[E _]|[_ E]]; [contradiction|exact E].
Qed.

Definition woken (ph : phase) : phase := match ph with Asleep => Woken | _ => ph end.

Lemma call_at_notify w i p ph :
  call_at (notify_all w) i p ph <-> exists ph0, call_at w i p ph0 /\ ph = woken ph0.
Proof.
  unfold call_at, notify_all. cbn. rewrite nth_error_map. split.
  - destruct (nth_error (w_calls w) i) as [[q ph0]|] eqn:E; cbn; [|discriminate].
    intros H. injection H as H. exists ph0. unfold wake in H. cbn in H.
    destruct ph0; cbn in *; injection H as <- <-; auto.
  - intros [ph0 [E ->]]. rewrite E. cbn. unfold wake. cbn. destruct ph0; reflexivity.
Qed.

Lemma call_at_fun w i p ph q ph' : call_at w i p ph -> call_at w i q ph' -> q = p /\ ph' = ph.
Proof. unfold call_at. intros H H'. rewrite H in H'. injection H' as -> ->. auto. Qed.

Lemma call_at_loading w l i p ph : call_at (set_loading w l) i p ph <-> call_at w i p ph.
Proof. reflexivity. Qed.
Lemma call_at_cache w d i p ph : call_at (set_cache w d) i p ph <-> call_at w i p ph.
Proof. reflexivity. Qed.

Lemma woken_reading ph : is_reading (woken ph) = is_reading ph.
Proof. destruct ph; reflexivity. Qed.

Lemma nth_call w i c : nth_error (w_calls w) i = Some c -> call_at w i (c_path c) (c_phase c).
Proof. unfold call_at. intros ->. destruct c; reflexivity. Qed.

Lemma keys_app_one d k v : keys (d ++ [(k, v)]) = keys d ++ [k].
Proof. unfold keys. rewrite map_app. reflexivity. Qed.

Lemma NoDup_snoc {A} (l : list A) x : NoDup l -> ~ In x l -> NoDup (l ++ [x]).
Proof.
  induction l as [|y l IH]; cbn; intros H Hn; [constructor; [tauto|constructor]|].
  inversion H; subst. constructor; [|apply IH; tauto].
  intros Hin. apply in_app_or in Hin. cbn in Hin. destruct Hin as [|[|[]]]; [contradiction|subst; tauto].
Qed.

(** ** The blocks, in a state that satisfies the invariant *)

(** The three things the first block can do. *)
Lemma enter_cases w i p ph : inv w -> call_at w i p ph ->
  (In p (w_loading w) /\ enter_block w i p = set_phase w i Asleep) \/
  (~ In p (w_loading w) /\ exists a, od_get (w_cache w) p = Some a /\
     enter_block w i p = set_phase (set_cache w (od_del (w_cache w) p ++ [(p, a)])) i (Finished (Ok a))) \/
  (~ In p (w_loading w) /\ ~ In p (keys (w_cache w)) /\
     enter_block w i p = set_phase (set_loading w (p :: w_loading w)) i Reading).
Proof.
  intros Hi Hc. unfold enter_block. destruct (mem p (w_loading w)) eqn:Em.
  - left. split; [apply mem_In; exact Em|reflexivity].
  - assert (Hn : ~ In p (w_loading w)) by (rewrite <- mem_In, Em; discriminate).
    right. unfold od_move_to_end. destruct (od_get (w_cache w) p) as [a|] eqn:Eg.
    + left. split; [exact Hn|]. exists a. auto.
    + right. split; [exact Hn|]. split; [apply od_get_None; exact Eg|reflexivity].
Qed.

Lemma failed_case w i p e : inv w -> call_at w i p (ReadErr e) ->
  exists l', NoDup l' /\ (forall q, In q l' <-> In q (w_loading w) /\ q <> p) /\
    failed_block w i p e = set_phase (notify_all (set_loading w l')) i (Finished (Err e)).
Proof.
  intros Hi Hc. assert (Hin : In p (w_loading w)) by (eapply inv_reader; eauto).
  destruct (set_remove_ok (inv_set Hi) Hin) as [l' (E & Hd & Hq)].
  exists l'. unfold failed_block. rewrite E. auto.
Qed.

Lemma publish_case w i p a : inv w -> call_at w i p (ReadOk a) ->
  exists l' d', NoDup l' /\ (forall q, In q l' <-> In q (w_loading w) /\ q <> p) /\
    evict (w_mmap_cap w) (w_cap w) (w_bytes_cap w) (w_cache w ++ [(p, a)]) = Ok d' /\
    keeps_some d' (w_cache w ++ [(p, a)]) /\
    longest_end (mapped_fits (w_mmap_cap w)) (mapped d') (mapped (w_cache w ++ [(p, a)])) /\
    longest_end (memory_fits (w_cap w) (w_bytes_cap w)) (in_memory d')
                (in_memory (w_cache w ++ [(p, a)])) /\
    (exists d0, d' = d0 ++ [(p, a)]) /\
    publish_block w i p a =
      set_phase (notify_all (set_loading (set_cache w d') l')) i (Finished (Ok a)).
Proof.
  intros Hi Hc. assert (Hin : In p (w_loading w)) by (eapply inv_reader; eauto).
  destruct (set_remove_ok (inv_set Hi) Hin) as [l' (E & Hd & Hq)].
  pose proof (inv_not_cached Hi Hin) as Hn.
  assert (Hk : NoDup (keys (w_cache w ++ [(p, a)])))
    by (rewrite keys_app_one; apply NoDup_snoc; [apply inv_keys; exact Hi|exact Hn]).
  pose proof (inv_caps Hi) as [Hc1 _].
  destruct (@evict_ok (w_mmap_cap w) (w_cap w) (w_bytes_cap w) _ ltac:(lia) Hk) as [d' (Ee & H1 & H2 & H3)].
  exists l', d'. split; [exact Hd|]. split; [exact Hq|]. split; [exact Ee|]. split; [exact H1|].
  split; [exact H2|]. split; [exact H3|]. split; [eapply evict_keeps_last; eauto|].
  unfold publish_block. rewrite (od_set_move_new a Hn), Ee, E. reflexivity.
Qed.

(** ** Preservation *)

Lemma inv_initial : inv initial.
Proof.
  constructor; cbn; try constructor; try lia; try tauto; try (intros; unfold call_at in *; cbn in *).
  all: try (match goal with H : nth_error [] ?i = Some _ |- _ => destruct i; discriminate H end).
  all: unfold mapped_fits, memory_fits, zlen; cbn; lia.
Qed.

Lemma inv_invoke w p : inv w -> inv (set_calls w (w_calls w ++ [mk_call p Called])).
Proof.
  intros Hi.
  assert (Hat : forall i q ph, call_at (set_calls w (w_calls w ++ [mk_call p Called])) i q ph ->
                call_at w i q ph \/ ph = Called).
  { intros i q ph H. unfold call_at in *. cbn in H.
    destruct (Nat.lt_ge_cases i (List.length (w_calls w))) as [Hlt|Hge].
    - rewrite nth_error_app1 in H by exact Hlt. auto.
    - rewrite nth_error_app2 in H by exact Hge.
      destruct (i - List.length (w_calls w))%nat as [|k]; cbn in H; [injection H; auto|].
      destruct k; discriminate H. }
  constructor; cbn; try (apply Hi).
  - intros i q ph H Hr. apply Hat in H. destruct H as [H| ->]; [eapply inv_reader; eauto|discriminate].
  - intros q Hq. destruct (inv_has_reader Hi Hq) as [i [ph [H Hr]]]. exists i, ph. split; [|exact Hr].
    unfold call_at in *. cbn. rewrite nth_error_app1; [exact H|]. apply nth_error_Some. rewrite H. discriminate.
  - intros i j q ph ph' H H' Hr Hr'. apply Hat in H. apply Hat in H'.
    destruct H as [H| ->]; [|discriminate]. destruct H' as [H'| ->]; [|discriminate].
    eapply inv_one_reader; eauto.
  - intros i q H. apply Hat in H. destruct H as [H|]; [eapply inv_asleep; eauto|discriminate].
Qed.

(** Changing one call's phase without touching the reading status or the cache. *)
Lemma inv_phase w i p ph ph' : inv w -> call_at w i p ph ->
  is_reading ph' = is_reading ph -> (ph' = Asleep -> In p (w_loading w)) ->
  inv (set_phase w i ph').
Proof.
  intros Hi Hc Hr Hs.
  pose proof (fun j q ph2 => call_at_set_phase ph' j q ph2 Hc) as Hat.
  constructor; try (apply Hi).
  - intros j q ph2 H Hr2. apply Hat in H. destruct H as [(-> & -> & ->)|[_ H]].
    + apply (inv_reader Hi Hc). congruence.
    + exact (inv_reader Hi H Hr2).
  - intros q Hq. destruct (inv_has_reader Hi Hq) as [j [ph2 [H Hr2]]].
    destruct (Nat.eq_dec j i) as [->|Hne].
    + destruct (call_at_fun Hc H) as [-> ->]. exists i, ph'. split; [apply Hat; auto|congruence].
    + exists j, ph2. split; [apply Hat; auto|exact Hr2].
  - intros j k q p1 p2 H H' H1 H2. apply Hat in H. apply Hat in H'.
    destruct H as [(-> & -> & ->)|[Hj H]]; destruct H' as [(-> & E & ->)|[Hk H']].
    + reflexivity.
    + eapply (inv_one_reader Hi Hc H'); congruence.
    + subst q. eapply (inv_one_reader Hi H Hc); congruence.
    + exact (inv_one_reader Hi H H' H1 H2).
  - intros j q H. apply Hat in H. destruct H as [(-> & -> & E)|[_ H]]; [auto|exact (inv_asleep Hi H)].
Qed.

Lemma od_get_split d k v : NoDup (keys d) -> od_get d k = Some v ->
  exists pre suf, d = pre ++ (k, v) :: suf /\ od_del d k = pre ++ suf.
Proof.
  induction d as [|[k' v'] d IH]; cbn; [discriminate|]. intros Hd H. inversion Hd as [|? ? Hn Hd']; subst.
  destruct (Z.eqb_spec k' k) as [->|].
  - injection H as ->. exists [], d. auto.
  - destruct (IH Hd' H) as [pre [suf [E1 E2]]]. exists ((k', v') :: pre), suf.
    cbn. rewrite E2, <- E1. auto.
Qed.

Lemma fits_move (d : odict) k v (f : path * entry -> bool) : NoDup (keys d) -> od_get d k = Some v ->
  let d' := od_del d k ++ [(k, v)] in
  zlen (filter f d') = zlen (filter f d) /\ total_bytes (filter f d') = total_bytes (filter f d).
Proof.
  intros Hd H. destruct (od_get_split Hd H) as [pre [suf [E1 E2]]]. cbv zeta. rewrite E2, E1.
  rewrite !filter_app. unfold zlen, total_bytes. rewrite !app_length, !map_app, !zsum_app. cbn [filter].
  destruct (f (k, v)); cbn [map List.length]; rewrite ?zsum_cons; change (zsum []) with 0; split; lia.
Qed.

Lemma inv_cache w d : inv w -> NoDup (keys d) ->
  (forall p, In p (w_loading w) -> ~ In p (keys d)) ->
  mapped_fits (w_mmap_cap w) (mapped d) -> memory_fits (w_cap w) (w_bytes_cap w) (in_memory d) ->
  inv (set_cache w d).
Proof. intros Hi H1 H2 H3 H4. constructor; try exact H1; try exact H2; try exact H3; try exact H4; apply Hi. Qed.

Lemma inv_enter w i p ph : inv w -> call_at w i p ph -> is_reading ph = false ->
  inv (enter_block w i p).
Proof.
  intros Hi Hc Hr. destruct (enter_cases Hi Hc) as [[Hin ->]|[[Hn [a [Hg ->]]]|[Hn [Hk ->]]]].
  - eapply inv_phase; eauto.
  - eapply inv_phase with (p := p) (ph := ph); [|exact Hc|exact (eq_sym Hr)|discriminate].
    pose proof (inv_keys Hi) as Hd.
    apply inv_cache; [exact Hi| | | |].
    + rewrite keys_app_one. apply NoDup_snoc.
      * eapply keeps_some_NoDup; [|exact Hd]. exists (fun k => negb (k =? p)). apply od_del_keep. exact Hd.
      * rewrite od_del_keys by exact Hd. tauto.
    + intros q Hq. rewrite keys_app_one, in_app_iff, od_del_keys by exact Hd. cbn.
      intros [[H _]|[->|[]]]; [exact (inv_not_cached Hi Hq H)|contradiction].
    + destruct (fits_move (fun kv => is_mmap_entry (snd kv)) Hd Hg) as [E _].
      unfold mapped_fits, mapped. rewrite E. apply (inv_mapped Hi).
    + destruct (fits_move (fun kv => negb (is_mmap_entry (snd kv))) Hd Hg) as [E1 E2].
      unfold memory_fits, in_memory. rewrite E1, E2. apply (inv_memory Hi).
  - assert (Hc' : call_at (set_loading w (p :: w_loading w)) i p ph) by exact Hc.
    pose proof (fun j q ph2 => call_at_set_phase Reading j q ph2 Hc') as Hat.
    constructor; try (apply Hi).
    + cbn. constructor; [exact Hn|apply Hi].
    + intros j q ph2 H Hr2. apply Hat in H. cbn. destruct H as [(_ & -> & _)|[_ H]]; [auto|].
      right. exact (inv_reader Hi H Hr2).
    + cbn. intros q [<-|Hq].
      * exists i, Reading. split; [apply Hat; auto|reflexivity].
      * destruct (inv_has_reader Hi Hq) as [j [ph2 [H Hr2]]]. exists j, ph2. split; [|exact Hr2].
        apply Hat. right. split; [|exact H]. intros ->. destruct (call_at_fun Hc H) as [_ ->]. congruence.
    + intros j k q p1 p2 H H' H1 H2. apply Hat in H. apply Hat in H'.
      destruct H as [(-> & -> & ->)|[Hj H]]; destruct H' as [(-> & E & ->)|[Hk' H']].
      * reflexivity.
      * exfalso. apply Hn. exact (inv_reader Hi H' H2).
      * exfalso. apply Hn. subst q. exact (inv_reader Hi H H1).
      * exact (inv_one_reader Hi H H' H1 H2).
    + cbn. intros q [<-|Hq]; [exact Hk|exact (inv_not_cached Hi Hq)].
    + intros j q H. apply Hat in H. cbn. destruct H as [(_ & _ & E)|[_ H]]; [discriminate|].
      right. exact (inv_asleep Hi H).
Qed.

(** The end of a read: the path leaves the loading set, everyone wakes up. *)
Lemma inv_leave w i p ph d l' r : inv w -> call_at w i p ph -> is_reading ph = true ->
  NoDup l' -> (forall q, In q l' <-> In q (w_loading w) /\ q <> p) ->
  NoDup (keys d) -> (forall q, In q (keys d) -> In q (keys (w_cache w)) \/ q = p) ->
  mapped_fits (w_mmap_cap w) (mapped d) -> memory_fits (w_cap w) (w_bytes_cap w) (in_memory d) ->
  inv (set_phase (notify_all (set_loading (set_cache w d) l')) i (Finished r)).
Proof.
  intros Hi Hc Hr Hl Hq Hd Hsub Hm Hb.
  assert (Hc' : call_at (notify_all (set_loading (set_cache w d) l')) i p (woken ph)).
  { apply call_at_notify. exists ph. auto. }
  assert (Hat : forall j q ph2,
    call_at (set_phase (notify_all (set_loading (set_cache w d) l')) i (Finished r)) j q ph2 <->
    (j = i /\ q = p /\ ph2 = Finished r) \/
    (j <> i /\ exists ph0, call_at w j q ph0 /\ ph2 = woken ph0)).
  { intros j q ph2. rewrite (call_at_set_phase _ _ _ _ Hc'), call_at_notify. reflexivity. }
  constructor; try exact Hm; try exact Hb; try exact Hd; try exact Hl; try (apply Hi).
  - intros j q ph2 H Hr2. apply Hat in H. destruct H as [(_ & _ & ->)|[Hj [ph0 [H ->]]]]; [discriminate|].
    rewrite woken_reading in Hr2. apply Hq. split; [exact (inv_reader Hi H Hr2)|].
    intros ->. apply Hj. exact (inv_one_reader Hi H Hc Hr2 Hr).
  - intros q Hin. change (In q l') in Hin. apply Hq in Hin. destruct Hin as [Hin Hne].
    destruct (inv_has_reader Hi Hin) as [j [ph0 [H Hr2]]].
    exists j, (woken ph0). split; [|rewrite woken_reading; exact Hr2].
    apply Hat. right. split; [|exists ph0; auto]. intros ->.
    destruct (call_at_fun Hc H) as [E _]. contradiction.
  - intros j k q p1 p2 H H' H1 H2. apply Hat in H. apply Hat in H'.
    destruct H as [(_ & _ & ->)|[Hj [a [H ->]]]]; [discriminate|].
    destruct H' as [(_ & _ & ->)|[Hk [b [H' ->]]]]; [discriminate|].
    rewrite woken_reading in H1, H2. exact (inv_one_reader Hi H H' H1 H2).
  - intros q Hin Hk. change (In q l') in Hin. change (In q (keys d)) in Hk. apply Hq in Hin.
    destruct Hin as [Hin Hne]. destruct (Hsub q Hk) as [Hk'|]; [exact (inv_not_cached Hi Hin Hk')|contradiction].
  - intros j q H. apply Hat in H. destruct H as [(_ & _ & E)|[Hj [ph0 [H E]]]]; [discriminate|].
    destruct ph0; discriminate.
Qed.

Lemma evict_inv w n b d' : inv w -> 1 <= n ->
  evict (w_mmap_cap w) n b (w_cache w) = Ok d' ->
  inv (mk_world n b (w_mmap_cap w) d' (w_loading w) (w_calls w)).
Proof.
  intros Hi Hn E. pose proof (inv_caps Hi) as [Hc1 _].
  destruct (@evict_ok (w_mmap_cap w) n b (w_cache w) ltac:(lia) (inv_keys Hi)) as [d2 (E2 & Hk & H1 & H2)].
  rewrite E in E2. injection E2 as <-.
  constructor; cbn; try (apply Hi).
  - eapply keeps_some_NoDup; [exact Hk|apply Hi].
  - intros p Hp Hin. apply (inv_not_cached Hi Hp). eapply keeps_some_key; eauto.
  - split; [exact Hc1|exact Hn].
  - apply H1.
  - apply H2.
Qed.

Lemma inv_step abspath w l w' : inv w -> exec abspath w l = Some w' -> inv w'.
Proof.
  intros Hi. destruct l as [p|i|i r|i|n b]; cbn [exec].
  - intros E. injection E as <-. apply inv_invoke. exact Hi.
  - destruct (nth_error (w_calls w) i) as [c|] eqn:Ec; [|discriminate]. apply nth_call in Ec.
    destruct (c_phase c) eqn:Ep; try discriminate; intros E; injection E as <-;
      eapply inv_enter; eauto.
  - destruct (nth_error (w_calls w) i) as [c|] eqn:Ec; [|discriminate]. apply nth_call in Ec.
    destruct (c_phase c) eqn:Ep; try discriminate. intros E; injection E as <-.
    eapply inv_phase; eauto; destruct r; try reflexivity; discriminate.
  - destruct (nth_error (w_calls w) i) as [c|] eqn:Ec; [|discriminate]. apply nth_call in Ec.
    destruct (c_phase c) eqn:Ep; try discriminate; intros E; injection E as <-.
    + destruct (publish_case Hi Ec) as [l' [d' (H1 & H2 & H3 & H4 & H5 & H6 & H7 & ->)]].
      assert (Hn : ~ In (c_path c) (keys (w_cache w))).
      { apply (inv_not_cached Hi). eapply inv_reader; eauto. }
      eapply inv_leave; eauto.
      * eapply keeps_some_NoDup; [exact H4|]. rewrite keys_app_one. apply NoDup_snoc; [apply Hi|exact Hn].
      * intros q Hq. apply (keeps_some_key H4) in Hq. rewrite keys_app_one, in_app_iff in Hq. cbn in Hq.
        intuition.
      * apply H5.
      * apply H6.
    + destruct (failed_case Hi Ec) as [l' (H1 & H2 & ->)].
      replace (set_loading w l') with (set_loading (set_cache w (w_cache w)) l') by (destruct w; reflexivity).
      eapply inv_leave; eauto; apply Hi.
  - intros E. injection E as <-. unfold configure.
    destruct n as [n|]; cbn [fst]; [|exact Hi]. destruct (Z.leb_spec n 0); cbn [fst]; [exact Hi|].
    destruct b as [b|]; cbn [fst]; [|exact Hi]. destruct (Z.leb_spec b 0); cbn [fst]; [exact Hi|].
    cbn. destruct (evict (w_mmap_cap w) n b (w_cache w)) as [d|e] eqn:Ee; cbn [fst].
    + assert (Hn : 1 <= n) by lia. exact (evict_inv Hi Hn Ee).
    + pose proof (inv_caps Hi) as [Hc1 _].
      destruct (@evict_ok (w_mmap_cap w) n b (w_cache w) ltac:(lia) (inv_keys Hi)) as [d2 (E2 & _)].
      congruence.
Qed.

Lemma exec_all_app abspath w ls ms :
  exec_all abspath w (ls ++ ms) =
  match exec_all abspath w ls with Some w' => exec_all abspath w' ms | None => None end.
Proof.
  revert w. induction ls as [|l ls IH]; intros w; cbn; [reflexivity|].
  destruct (exec abspath w l); [apply IH|reflexivity].
Qed.

Lemma inv_run abspath w ls w' : inv w -> exec_all abspath w ls = Some w' -> inv w'.
Proof.
  revert w. induction ls as [|l ls IH]; intros w Hi; cbn; [intros E; injection E as <-; exact Hi|].
  destruct (exec abspath w l) as [w1|] eqn:E; [|discriminate]. intros H.
  eapply IH; [|exact H]. eapply inv_step; eauto.
Qed.
