(** The invariants of the loader with static slots. *)
From Verif Require Import Base BaseFacts DeviceLoader DeviceLoaderFacts.
Set Implicit Arguments.
Unset Strict Implicit.

Section Slots.
Variables V D : Type.
Variable schema_eqb : list (nat * D) -> list (nat * D) -> bool.
Notation sstep := (sstep schema_eqb).
Notation hist st := (copy_done (sd st) ++ copyq (sd st)).
Notation chist st := (comp_done (sd st) ++ compq (sd st)).
Notation bat := (sbatch V D).

Definition value (G : list bat) (h : buffer) : option V :=
  match nth_error G (fst h) with Some b => value_of b (snd h) | None => None end.
Lemma value_in (b : bat) name : In name (names_of b) <-> value_of b name <> None.
Proof.
  unfold names_of, value_of. split.
  - intros H. apply in_map_iff in H. destruct H as (t & E & Ht).
    destruct (find _ b) as [x|] eqn:F; [discriminate|]. exfalso.
    pose proof (find_none _ _ F _ Ht) as X. cbn in X. apply Nat.eqb_neq in X. auto.
  - destruct (find _ b) as [x|] eqn:F; [|congruence]. intros _. apply find_some in F. destruct F as [F1 F2].
    apply Nat.eqb_eq in F2. subst name. apply in_map_iff. exists x. auto.
Qed.
Lemma value_app (G : list bat) b h v : value G h = Some v -> value (G ++ [b]) h = Some v.
Proof.
  unfold value. destruct (nth_error G (fst h)) eqn:E; [|discriminate].
  rewrite nth_error_app1; [rewrite E; auto|]. apply nth_error_Some. congruence.
Qed.
Lemma value_old (G : list bat) b h : (fst h < List.length G)%nat -> value (G ++ [b]) h = value G h.
Proof. intros H. unfold value. rewrite nth_error_app1 by exact H. reflexivity. Qed.

(** The compute stream reads batch k only before event r. *)
Definition reads_before (c : list (dop sevent)) (r k : nat) : Prop :=
  exists p q, c = p ++ Rec (ReadDone r) :: q /\ forall j x l, (j < k)%nat -> ~ In (Read (j, x) l) q.

Record sinv (st : sstate V D) : Prop := {
  T_ops : forall o, In o (hist st) -> match o with
    | Copy h l => l = snd h /\ value (sgiven st) h <> None
    | Rec (Ready k) => (k < List.length (sgiven st))%nat
    | WaitE (ReadDone r) => (r < nrec st)%nat
    | _ => False end;
  T_comp : forall o, In o (chist st) -> match o with
    | Read h l => l = snd h /\ value (sgiven st) h <> None
    | Rec (ReadDone r) => (r < nrec st)%nat
    | WaitE (Ready k) => (k < List.length (sgiven st))%nat
    | _ => False end;
  T_sorted : forall a k x l c k' x' l', hist st = a ++ Copy (k, x) l :: c -> In (Copy (k', x') l') c -> (k <= k')%nat;
  T_ready : forall k, (k < List.length (sgiven st))%nat -> In (Rec (Ready k)) (hist st);
  T_before : forall a k c, hist st = a ++ Rec (Ready k) :: c ->
    (forall x, value (sgiven st) (k, x) <> None -> In (Copy (k, x) x) a) /\
    (forall r, In (WaitE (ReadDone r)) a -> (r < nrec st)%nat);
  T_waits : forall a k x l c, hist st = a ++ Copy (k, x) l :: c ->
    exists r, In (WaitE (ReadDone r)) a /\ reads_before (chist st) r k;
  T_read : forall a k x l c, chist st = a ++ Read (k, x) l :: c -> In (WaitE (Ready k)) a;
  T_recs : forall r, (r < nrec st)%nat -> In (Rec (ReadDone r)) (chist st);
  T_once : forall a r c, chist st = a ++ Rec (ReadDone r) :: c -> ~ In (Rec (ReadDone r)) c;
  T_order : forall a k c p r q, chist st = a ++ WaitE (Ready k) :: c -> hist st = p ++ WaitE (ReadDone r) :: q ->
    In (Rec (Ready k)) q -> In (Rec (ReadDone r)) a;
  T_done1 : forall e, In (WaitE e) (comp_done (sd st)) -> fired (sd st) e;
  T_done2 : forall e, In (WaitE e) (copy_done (sd st)) -> fired (sd st) e;
  T_host : forall h v, value (sgiven st) h = Some v -> host (sd st) h = v;
  T_mem : forall a k x l c v, copy_done (sd st) = a ++ Copy (k, x) l :: c ->
    (forall k' x', In (Copy (k', x') l) c -> k' = k) -> value (sgiven st) (k, x) = Some v -> mem (sd st) l = v;
  T_reads : forall h v, In (h, v) (reads (sd st)) -> value (sgiven st) h = Some v;
  T_phase : match sphase_ st with
    | SUser k => S k = List.length (sgiven st) /\ In (WaitE (Ready k)) (chist st) /\ (1 <= nrec st)%nat
    | SNext => (1 <= nrec st)%nat /\ reads_before (chist st) (nrec st - 1) (List.length (sgiven st))
    | _ => True
    end;
  T_schema : match slots st with
    | None => sgiven st = []
    | Some s => forall b, In b (sgiven st) -> schema_of b = s \/ schema_eqb (schema_of b) s = true
    end
}.

Lemma sfired_ready st k : sinv st -> fired (sd st) (Ready k) -> In (Rec (Ready k)) (copy_done (sd st)).
Proof.
  intros I [H|H]; [exact H|]. exfalso.
  apply (T_comp I (o:=Rec (Ready k))). apply in_or_app. auto.
Qed.
Lemma sfired_read st r : sinv st -> fired (sd st) (ReadDone r) -> In (Rec (ReadDone r)) (comp_done (sd st)).
Proof.
  intros I [H|H]; [|exact H]. exfalso.
  apply (T_ops I (o:=Rec (ReadDone r))). apply in_or_app. auto.
Qed.

(** Two places of the same list. *)
Lemma same_place (A : Type) (x : A) a c p q : a ++ x :: c = p ++ x :: q -> ~ In x c -> ~ In x q -> a = p /\ c = q.
Proof.
  revert p. induction a as [|y a IH]; intros p E N1 N2.
  - destruct p as [|z p]; cbn in E; [injection E as E2; auto|injection E as E1 E2].
    exfalso. apply N1. rewrite E2. apply in_or_app. right. left. reflexivity.
  - destruct p as [|z p]; cbn in E; injection E as E1 E2.
    + exfalso. apply N2. rewrite <- E2. apply in_or_app. right. left. reflexivity.
    + destruct (IH _ E2 N1 N2) as [-> ->]. subst. auto.
Qed.

Lemma sread_right st h l rest : sinv st -> compq (sd st) = Read h l :: rest -> value (sgiven st) h = Some (mem (sd st) l).
Proof.
  intros I E. destruct h as [k x].
  assert (Hin : In (Read (k, x) l) (chist st)) by (rewrite E; apply in_or_app; right; left; reflexivity).
  destruct (T_comp I Hin) as (-> & Hv). cbn [snd] in *.
  assert (Hw : In (WaitE (Ready k)) (comp_done (sd st))).
  { eapply (T_read I (x:=x) (l:=x) (c:=rest)). rewrite E. reflexivity. }
  pose proof (sfired_ready I (T_done1 I Hw)) as Hc.
  apply in_split in Hc. destruct Hc as (a & c & Ec).
  destruct (T_before I (a:=a) (k:=k) (c:=c ++ copyq (sd st))) as (H1 & _); [rewrite Ec, <- app_assoc; reflexivity|].
  specialize (H1 _ Hv). apply in_split in H1. destruct H1 as (a1 & a2 & Ea).
  destruct (value (sgiven st) (k, x)) as [v|] eqn:Ev; [|congruence]. f_equal. symmetry.
  eapply (T_mem I (a:=a1) (k:=k) (x:=x) (c:=a2 ++ Rec (Ready k) :: c)); [rewrite Ec, Ea, <- app_assoc; reflexivity| |exact Ev].
  intros k' x' Hk'.
  assert (Le : (k <= k')%nat).
  { eapply (T_sorted I (a:=a1) (k:=k) (x:=x) (k':=k') (c:=(a2 ++ Rec (Ready k) :: c) ++ copyq (sd st))).
    - rewrite Ec, Ea, <- !app_assoc. cbn [app]. rewrite <- ?app_assoc. reflexivity.
    - apply in_or_app. left. exact Hk'. }
  destruct (Nat.eq_dec k' k) as [|Ne]; [assumption|exfalso].
  apply in_split in Hk'. destruct Hk' as (c1 & c2 & E2).
  assert (Ed : copy_done (sd st) = (a1 ++ Copy (k, x) x :: c1) ++ Copy (k', x') x :: c2).
  { rewrite Ec, Ea, <- !app_assoc. cbn [app]. do 2 f_equal. exact E2. }
  destruct (T_waits I (a:=a1 ++ Copy (k, x) x :: c1) (k:=k') (x:=x') (l:=x) (c:=c2 ++ copyq (sd st))) as (r & Hr & (p & q & Ep & Hq)).
  { rewrite Ed, <- app_assoc. reflexivity. }
  assert (Hd : In (WaitE (ReadDone r)) (copy_done (sd st))) by (rewrite Ed; apply in_or_app; auto).
  pose proof (sfired_read I (T_done2 I Hd)) as Hf. apply in_split in Hf. destruct Hf as (p' & q' & Ep').
  assert (Eq : chist st = p' ++ Rec (ReadDone r) :: (q' ++ compq (sd st))) by (rewrite Ep', <- app_assoc; reflexivity).
  assert (Q : p' = p /\ q' ++ compq (sd st) = q).
  { apply same_place with (x := Rec (ReadDone r)); [congruence|exact (T_once I Eq)|exact (T_once I Ep)]. }
  destruct Q as [_ <-]. apply (Hq k x x); [lia|]. apply in_or_app. right. rewrite E. left. reflexivity.
Qed.

Definition with_sdev (st : sstate V D) (d : dev V sevent) : sstate V D :=
  {| sd := d; ssrc := ssrc st; sgiven := sgiven st; slots := slots st; nrec := nrec st; sphase_ := sphase_ st; sraised := sraised st |}.
Lemma sfired_more (d d' : dev V sevent) e : dstep d d' -> fired d e -> fired d' e.
Proof. intros H [F|F]; destruct H; unfold fired; cbn; rewrite in_app_iff; tauto. Qed.
Lemma shist (d d' : dev V sevent) : dstep d d' ->
  copy_done d' ++ copyq d' = copy_done d ++ copyq d /\ comp_done d' ++ compq d' = comp_done d ++ compq d /\ host d' = host d.
Proof. intros H. destruct H as [o rest E _|o rest E _]; cbn; rewrite E, <- app_assoc; auto. Qed.

Lemma sinv_device st d : sinv st -> dstep (sd st) d -> sinv (with_sdev st d).
Proof.
  intros I H. destruct (shist H) as (E1 & E2 & E3).
  pose proof (fun h l rest => @sread_right st h l rest I) as RR. 
  constructor; cbn [with_sdev sd ssrc sgiven slots nrec sphase_ sraised]; rewrite ?E1, ?E2, ?E3.
  - intros o Ho. exact (T_ops I Ho).
  - intros o Ho. exact (T_comp I Ho).
  - exact (@T_sorted _ I).
  - exact (@T_ready _ I).
  - exact (@T_before _ I).
  - exact (@T_waits _ I).
  - exact (@T_read _ I).
  - exact (@T_recs _ I).
  - exact (@T_once _ I).
  - exact (@T_order _ I).
  - intros e He. destruct H as [o rest E C|o rest E C]; cbn [comp_done] in He.
    + eapply sfired_more; [eapply d_copy; eauto|]. exact (T_done1 I He).
    + apply in_app_iff in He. destruct He as [He|[Eo|[]]].
      * eapply sfired_more; [eapply d_comp; eauto|]. exact (T_done1 I He).
      * eapply sfired_more; [eapply d_comp; eauto|]. rewrite Eo in C. exact C.
  - intros e He. destruct H as [o rest E C|o rest E C]; cbn [copy_done] in He.
    + apply in_app_iff in He. destruct He as [He|[Eo|[]]].
      * eapply sfired_more; [eapply d_copy; eauto|]. exact (T_done2 I He).
      * eapply sfired_more; [eapply d_copy; eauto|]. rewrite Eo in C. exact C.
    + eapply sfired_more; [eapply d_comp; eauto|]. exact (T_done2 I He).
  - exact (@T_host _ I).
  - intros a k x l c v Ec Hl Hv.
    destruct H as [o rest E C|o rest E C]; cbn [copy_done mem exec_mem] in *.
    + destruct (split_app Ec) as [(c' & Eq & ->)|(a' & Eq & Eo)].
      * assert (Hm : mem (sd st) l = v).
        { eapply (T_mem I); eauto. intros k' x' Hh. apply (Hl k' x'). apply in_or_app. auto. }
        destruct o as [[k' x'] l'| | |]; cbn [exec_mem]; auto. unfold put. destruct (Nat.eqb_spec l l') as [->|]; auto.
        assert (Ek : k' = k) by (apply (Hl k' x'); apply in_or_app; right; left; reflexivity). subst k'.
        destruct (T_ops I (o:=Copy (k, x') l')) as [El' _]; [rewrite E; apply in_or_app; right; left; reflexivity|].
        destruct (T_ops I (o:=Copy (k, x) l')) as [El _]; [rewrite Eq; apply in_or_app; left; apply in_or_app; right; left; reflexivity|].
        cbn [snd] in *. subst. apply (T_host I). exact Hv.
      * destruct a' as [|? [|? ?]]; cbn in Eo; [|discriminate|discriminate]. injection Eo as -> <-.
        cbn [exec_mem]. unfold put. rewrite Nat.eqb_refl. apply (T_host I). exact Hv.
    + assert (Ho : exec_mem (sd st) o = mem (sd st)).
      { destruct o; try reflexivity. exfalso.
        apply (T_comp I (o:=Copy src dst)). rewrite E. apply in_or_app. right. left. reflexivity. }
      rewrite Ho. eapply (T_mem I); eauto.
  - intros h v Hr. destruct H as [o rest E C|o rest E C]; cbn [reads exec_reads] in *.
    + destruct o; try exact (T_reads I Hr). exfalso.
      apply (T_ops I (o:=Read what from)). rewrite E. apply in_or_app. right. left. reflexivity.
    + destruct o as [| h' l'| |]; try exact (T_reads I Hr).
      apply in_app_iff in Hr. destruct Hr as [Hr|[Hr|[]]]; [exact (T_reads I Hr)|].
      injection Hr as -> <-. eapply RR; eauto.
  - exact (@T_phase _ I).
  - exact (@T_schema _ I).
Qed.

Ltac sfields := cbn [sd ssrc sgiven slots nrec sphase_ sraised enq_comp enq_copy with_host copy_done copyq comp_done compq mem host reads] in *.

(** The compute stream gets one more operation. *)
Definition comp_ok (st st' : sstate V D) (o : dop sevent) : Prop :=
  match o with
  | Copy _ _ => False
  | Read h l => l = snd h /\ value (sgiven st) h <> None /\ In (WaitE (Ready (fst h))) (chist st) /\ S (fst h) = List.length (sgiven st) /\ nrec st' = nrec st
  | Rec (ReadDone r) => r = nrec st /\ nrec st' = S (nrec st)
  | WaitE (Ready k) => False
  | _ => False
  end.
Lemma reads_before_more c r k o : reads_before c r k -> (forall j x l, (j < k)%nat -> o <> Read (j, x) l) -> reads_before (c ++ [o]) r k.
Proof.
  intros (p & q & -> & H) N. exists p, (q ++ [o]). rewrite <- app_assoc. split; [reflexivity|].
  intros j x l Hj Hin. apply in_app_iff in Hin. destruct Hin as [Hin|[Hin|[]]]; [exact (H j x l Hj Hin)|exact (N j x l Hj Hin)].
Qed.
Lemma sinv_comp st st' o : sd st' = enq_comp (sd st) [o] -> sgiven st' = sgiven st -> slots st' = slots st -> comp_ok st st' o ->
  sinv st ->
  (match sphase_ st' with
    | SUser k => S k = List.length (sgiven st) /\ In (WaitE (Ready k)) (chist st) /\ (1 <= nrec st)%nat
    | SNext => o = Rec (ReadDone (nrec st))
    | _ => True
    end) -> sinv st'.
Proof.
  intros E1 E2 E3 Ok I HP.
  assert (Hn : (nrec st <= nrec st')%nat) by (destruct o as [| |[|]|[|]]; cbn in Ok; try tauto; lia).
  assert (Eh : hist st' = hist st) by (rewrite E1; reflexivity).
  assert (Ec : chist st' = chist st ++ [o]) by (rewrite E1; cbn; rewrite app_assoc; reflexivity).
  assert (Nr : forall j k x l x0 l0 a c, hist st = a ++ Copy (k, x0) l0 :: c -> (j < k)%nat -> o <> Read (j, x) l).
  { intros j k x l x0 l0 a c Ea Hj ->. cbn in Ok. destruct Ok as (_ & _ & _ & Hl & _).
    destruct (T_ops I (o:=Copy (k, x0) l0)) as [_ Hv]; [rewrite Ea; apply in_or_app; right; left; reflexivity|].
    unfold value in Hv. cbn [fst] in Hv. destruct (nth_error (sgiven st) k) eqn:Ek; [|congruence].
    assert (k < List.length (sgiven st))%nat by (apply nth_error_Some; congruence). lia. }
  constructor; rewrite ?Eh, ?Ec, ?E2, ?E3.
  - intros x Hx. pose proof (T_ops I Hx) as X. destruct x as [| |[|]|[|]]; auto. lia.
  - intros x Hx. apply in_app_iff in Hx. destruct Hx as [Hx|[<-|[]]].
    + pose proof (T_comp I Hx) as X. destruct x as [| |[|]|[|]]; auto. lia.
    + destruct o as [| |[|]|[|]]; cbn in Ok; try tauto. lia.
  - exact (@T_sorted _ I).
  - exact (@T_ready _ I).
  - intros a k c Ea. destruct (T_before I Ea) as [B1 B2]. split; [exact B1|]. intros r Hr. specialize (B2 r Hr). lia.
  - intros a k x l c Ea. destruct (T_waits I Ea) as (r & R1 & R2). exists r. split; [exact R1|].
    apply reads_before_more; [exact R2|]. intros j x' l' Hj. eapply Nr; eauto.
  - intros a k x l c Ea. destruct (split_app Ea) as [(c' & Eq & ->)|(a' & -> & Eq)]; [exact (T_read I Eq)|].
    destruct a' as [|? [|? ?]]; cbn in Eq; try discriminate. injection Eq as -> <-. cbn in Ok. rewrite app_nil_r. tauto.
  - intros r Hr. rewrite in_app_iff. destruct (Nat.lt_ge_cases r (nrec st)) as [L|L]; [left; apply (T_recs I); exact L|].
    right. left. destruct o as [| |[r'|]|[|]]; cbn in Ok; try tauto; [lia|]. destruct Ok as [-> Ok]. do 2 f_equal. lia.
  - intros a r c Ea. destruct (split_app Ea) as [(c' & Eq & ->)|(a' & -> & Eq)].
    + rewrite in_app_iff. intros [H|[H|[]]]; [exact (T_once I Eq H)|]. subst o. cbn in Ok. destruct Ok as [-> _].
      assert (X : In (Rec (ReadDone (nrec st))) (chist st)) by (rewrite Eq; apply in_or_app; right; left; reflexivity).
      apply (T_comp I) in X. lia.
    + destruct a' as [|? [|? ?]]; cbn in Eq; try discriminate. injection Eq as -> <-. intros [].
  - intros a k c p r q Ea Eb Hq. destruct (split_app Ea) as [(c' & Eq & ->)|(a' & -> & Eq)]; [exact (T_order I Eq Eb Hq)|].
    destruct a' as [|? [|? ?]]; cbn in Eq; try discriminate. injection Eq as -> <-. cbn in Ok. tauto.
  - rewrite E1. exact (@T_done1 _ I).
  - rewrite E1. exact (@T_done2 _ I).
  - rewrite E1. exact (@T_host _ I).
  - rewrite E1. exact (@T_mem _ I).
  - rewrite E1. exact (@T_reads _ I).
  - destruct (sphase_ st') as [| |k|]; auto.
    + subst o. cbn in Ok. destruct Ok as [_ Ok]. split; [lia|]. rewrite Ok. cbn [Nat.sub]. rewrite Nat.sub_0_r.
      exists (chist st), []. split; [reflexivity|]. intros j x l _ [].
    + rewrite in_app_iff. intuition lia.
  - exact (@T_schema _ I).
Qed.
Lemma sinv_same st st' : sd st' = sd st -> sgiven st' = sgiven st -> slots st' = slots st -> nrec st' = nrec st ->
  (sphase_ st' = SClosing \/ sphase_ st' = SIdle) -> sinv st -> sinv st'.
Proof.
  intros E1 E2 E3 E4 E5 []. constructor; rewrite ?E1, ?E2, ?E3, ?E4; auto. destruct E5 as [-> | ->]; exact Logic.I.
Qed.

Lemma names_copies (b : bat) k o : In o (map (fun name => Copy (Ev:=sevent) (k, name) name) (names_of b)) <->
  exists x, In x (names_of b) /\ o = Copy (k, x) x.
Proof. rewrite in_map_iff. split; intros (x & A & B); exists x; auto. Qed.

Lemma slot_copy (b : bat) k r a h l c : slot_ops k r b = a ++ Copy h l :: c ->
  In (WaitE (ReadDone r)) a /\ fst h = k.
Proof.
  unfold slot_ops. intros E. destruct a as [|o a]; cbn in E; [discriminate|]. injection E as <- E. split; [left; reflexivity|].
  destruct (split_app E) as [(c' & Eq & ->)|(a' & -> & Eq)].
  - assert (X : In (Copy h l) (map (fun name => Copy (Ev:=sevent) (k, name) name) (names_of b))) by (rewrite Eq; apply in_or_app; right; left; reflexivity).
    apply names_copies in X. destruct X as (x & _ & X). injection X as -> _. reflexivity.
  - destruct a' as [|? [|? ?]]; cbn in Eq; discriminate.
Qed.
Lemma in_slot_ops (b : bat) k r o : In o (slot_ops k r b) <->
  o = WaitE (ReadDone r) \/ (exists x, In x (names_of b) /\ o = Copy (k, x) x) \/ o = Rec (Ready k).
Proof.
  unfold slot_ops. cbn [In]. rewrite in_app_iff, names_copies. cbn [In].
  split; [intros [H|[H|[H|[]]]]; auto|intros [H|[H|H]]; auto].
Qed.

Lemma sinv_batch st b rest : sinv st -> sphase_ st = SNext -> ssrc st = b :: rest -> matches schema_eqb st b = true ->
    let k := List.length (sgiven st) in
    sinv
    {| sd := enq_comp (enq_copy (with_host (sd st) (host_slots (host (sd st)) k b)) (slot_ops k (nrec st - 1) b)) [WaitE (Ready k)];
       ssrc := rest; sgiven := sgiven st ++ [b]; slots := Some (match slots st with Some s => s | None => schema_of b end);
       nrec := nrec st; sphase_ := SUser k; sraised := sraised st |}.
Proof.
  intros I Ep Es Hm k.
  set (st' := Build_sstate _ _ _ _ _ _ _).
  pose proof (T_phase I) as TP. rewrite Ep in TP. destruct TP as [Hn Hrb].
  assert (Eg : sgiven st' = sgiven st ++ [b]) by reflexivity.
  assert (Lg : List.length (sgiven st') = S k) by (rewrite Eg, app_length; cbn; unfold k; lia).
  assert (Eh : hist st' = hist st ++ slot_ops k (nrec st - 1) b) by (cbn; rewrite app_assoc; reflexivity).
  assert (Ec : chist st' = chist st ++ [WaitE (Ready k)]) by (cbn; rewrite app_assoc; reflexivity).
  assert (Vn : forall x, value (sgiven st') (k, x) = value_of b x).
  { intros x. unfold value. cbn [fst snd]. rewrite Eg, nth_error_app2 by (unfold k; lia). unfold k. rewrite Nat.sub_diag. reflexivity. }
  assert (Vo : forall h, (fst h < k)%nat -> value (sgiven st') h = value (sgiven st) h) by (intros; rewrite Eg; apply value_old; auto).
  assert (Old : forall h, value (sgiven st) h <> None -> (fst h < k)%nat).
  { intros h H. unfold value in H. destruct (nth_error (sgiven st) (fst h)) eqn:E; [|congruence]. apply nth_error_Some. congruence. }
  assert (Vm : forall h, value (sgiven st) h <> None -> value (sgiven st') h <> None) by (intros h H; rewrite Vo by auto; exact H).
  constructor; rewrite ?Eh, ?Ec, ?Lg.
  - intros o Ho. apply in_app_iff in Ho. destruct Ho as [Ho|Ho].
    + pose proof (T_ops I Ho) as X. destruct o as [| |[|]|[|]]; auto; try (fold k in X; lia); destruct X; auto.
    + apply in_slot_ops in Ho. destruct Ho as [->|[(x & Hx & ->)| ->]]; [cbn; lia| |unfold k; lia].
      split; [reflexivity|]. rewrite Vn. apply value_in. exact Hx.
  - intros o Ho. apply in_app_iff in Ho. destruct Ho as [Ho|[<-|[]]]; [|lia].
    pose proof (T_comp I Ho) as X. destruct o as [| |[|]|[|]]; auto; try (fold k in X; lia); destruct X; auto.
  - intros a j x l c j' x' l' Ea Hin. destruct (split_app Ea) as [(c' & Eq & ->)|(a' & -> & Eq)].
    + apply in_app_iff in Hin. destruct Hin as [Hin|Hin]; [exact (T_sorted I Eq Hin)|].
      destruct (T_ops I (o:=Copy (j, x) l)) as [_ X]; [rewrite Eq; apply in_or_app; right; left; reflexivity|].
      apply Old in X. cbn in X. apply in_slot_ops in Hin. destruct Hin as [H|[(y & _ & H)|H]]; try discriminate. injection H as -> _ _. lia.
    + destruct (slot_copy Eq) as [_ Ej]. cbn in Ej. subst j.
      assert (X : In (Copy (j', x') l') (slot_ops k (nrec st - 1) b)) by (rewrite Eq; apply in_or_app; right; right; exact Hin).
      apply in_slot_ops in X. destruct X as [H|[(y & _ & H)|H]]; try discriminate. injection H as -> _ _. lia.
  - intros j Hj. rewrite in_app_iff. destruct (Nat.eq_dec j k) as [->|].
    + right. apply in_slot_ops. auto.
    + left. apply (T_ready I). fold k. lia.
  - intros a j c Ea. destruct (split_app Ea) as [(c' & Eq & ->)|(a' & -> & Eq)].
    + destruct (T_before I Eq) as [B1 B2]. split; [|exact B2].
      assert (Hj : (j < k)%nat) by (apply (T_ops I (o:=Rec (Ready j))); rewrite Eq; apply in_or_app; right; left; reflexivity).
      intros x Hx. apply B1. rewrite Vo in Hx by exact Hj. exact Hx.
    + unfold slot_ops in Eq. rewrite app_comm_cons in Eq. destruct (split_app Eq) as [(c' & Eq2 & ->)|(a2 & -> & Eq2)].
      { exfalso. assert (X : In (Rec (Ready j)) (WaitE (ReadDone (nrec st - 1)) :: map (fun name => Copy (Ev:=sevent) (k, name) name) (names_of b)))
          by (rewrite Eq2; apply in_or_app; right; left; reflexivity).
        destruct X as [X|X]; [discriminate|]. apply names_copies in X. destruct X as (? & _ & X). discriminate. }
      destruct a2 as [|? [|? ?]]; cbn in Eq2; try discriminate. injection Eq2 as <- <-. rewrite app_nil_r. split.
      * intros x Hx. rewrite Vn in Hx. apply in_or_app. right. right. apply names_copies. exists x. split; [apply value_in; exact Hx|reflexivity].
      * intros r Hr. cbn [nrec st']. apply in_app_iff in Hr. destruct Hr as [Hr|[Hr|Hr]].
        -- apply (T_ops I Hr).
        -- injection Hr as <-. lia.
        -- apply names_copies in Hr. destruct Hr as (? & _ & Hr). discriminate.
  - intros a j x l c Ea. destruct (split_app Ea) as [(c' & Eq & ->)|(a' & -> & Eq)].
    + destruct (T_waits I Eq) as (r & R1 & R2). exists r. split; [exact R1|]. apply reads_before_more; [exact R2|discriminate].
    + destruct (slot_copy Eq) as [Hw Ej]. cbn in Ej. subst j. exists (nrec st - 1)%nat. split; [apply in_or_app; auto|].
      apply reads_before_more; [exact Hrb|discriminate].
  - intros a j x l c Ea. destruct (split_app Ea) as [(c' & Eq & ->)|(a' & -> & Eq)]; [exact (T_read I Eq)|].
    destruct a' as [|? [|? ?]]; cbn in Eq; discriminate.
  - intros r Hr. rewrite in_app_iff. left. apply (T_recs I). exact Hr.
  - intros a r c Ea. destruct (split_app Ea) as [(c' & Eq & ->)|(a' & -> & Eq)].
    + rewrite in_app_iff. intros [H|[H|[]]]; [exact (T_once I Eq H)|discriminate].
    + destruct a' as [|? [|? ?]]; cbn in Eq; discriminate.
  - intros a j c p r q Ea Eb Hq.
    assert (Hr : In (WaitE (ReadDone r)) (hist st ++ slot_ops k (nrec st - 1) b)) by (rewrite Eb; apply in_or_app; right; left; reflexivity).
    assert (Hrn : (r < nrec st)%nat).
    { apply in_app_iff in Hr. destruct Hr as [Hr|Hr]; [exact (T_ops I Hr)|]. apply in_slot_ops in Hr.
      destruct Hr as [Hr|[(? & _ & Hr)|Hr]]; try discriminate. injection Hr as ->. lia. }
    destruct (split_app Ea) as [(c' & Eq & ->)|(a' & -> & Eq)].
    + assert (Hj : (j < k)%nat) by (apply (T_comp I (o:=WaitE (Ready j))); rewrite Eq; apply in_or_app; right; left; reflexivity).
      destruct (split_app Eb) as [(q' & Eq' & ->)|(p' & -> & Eq')].
      * apply in_app_iff in Hq. destruct Hq as [Hq|Hq]; [exact (T_order I Eq Eq' Hq)|].
        apply in_slot_ops in Hq. destruct Hq as [H|[(? & _ & H)|H]]; try discriminate. injection H as ->. lia.
      * exfalso. assert (X : In (Rec (Ready j)) (slot_ops k (nrec st - 1) b)) by (rewrite Eq'; apply in_or_app; right; right; exact Hq).
        apply in_slot_ops in X. destruct X as [H|[(? & _ & H)|H]]; try discriminate. injection H as ->. lia.
    + apply in_or_app. left. apply (T_recs I). exact Hrn.
  - exact (@T_done1 _ I).
  - exact (@T_done2 _ I).
  - intros [j x] v Hv. subst st'. sfields. unfold host_slots. cbn [fst snd]. destruct (Nat.eqb_spec j k) as [->|Nj].
    + rewrite Vn in Hv. rewrite Hv. reflexivity.
    + apply (T_host I). rewrite <- Hv. symmetry. apply Vo. cbn [fst].
      assert (j < S k)%nat; [|lia]. rewrite <- Lg. apply nth_error_Some. unfold value in Hv. cbn [fst] in Hv. destruct (nth_error _ j); congruence.
  - intros a j x l c v Ea Hl Hv. cbn [sd st' enq_comp enq_copy with_host copy_done mem] in *.
    eapply (T_mem I); eauto.
    destruct (T_ops I (o:=Copy (j, x) l)) as [_ X]; [rewrite Ea; apply in_or_app; left; apply in_or_app; right; left; reflexivity|].
    rewrite <- Vo by (apply Old; exact X). exact Hv.
  - intros h v Hr. rewrite Eg. apply value_app. exact (T_reads I Hr).
  - cbn [sphase_ st']. split; [reflexivity|]. split; [|exact Hn]. apply in_or_app. right. left. reflexivity.
  - cbn [slots st' sgiven]. intros x Hx. apply in_app_iff in Hx. pose proof (T_schema I) as TS. unfold matches in Hm.
    destruct (slots st) as [s|].
    + destruct Hx as [Hx|[<-|[]]]; auto.
    + rewrite TS in Hx. destruct Hx as [[]|[<-|[]]]. auto.
Qed.

Theorem sinv_reach m h st : sreach schema_eqb m h st -> sinv st.
Proof.
  induction 1 as [|st st' _ I Hs].
  - constructor; cbn; intros; try tauto; try lia; try congruence; try (destruct a; discriminate).
    unfold value in H. destruct (fst h0); discriminate.
  - destruct Hs.
    + apply (@sinv_device st d); auto.
    + eapply sinv_comp with (st := st) (o := Rec (ReadDone (nrec st))); auto; cbn; auto.
    + apply sinv_batch; auto.
    + eapply sinv_same; [..|exact I]; auto.
    + eapply sinv_same; [..|exact I]; auto.
    + pose proof (T_phase I) as TP. rewrite H in TP. destruct TP as (T1 & T2 & T3).
      eapply sinv_comp with (st := st) (o := Read (k, name) name); auto; cbn [sphase_]; auto.
      cbn [comp_ok snd fst nrec]. split; [reflexivity|]. split; [|auto].
      unfold value. cbn [fst snd]. rewrite H0. apply value_in. exact H1.
    + eapply sinv_comp with (st := st) (o := Rec (ReadDone (nrec st))); auto; cbn; auto.
    + eapply sinv_same; [..|exact I]; auto.
    + eapply sinv_same; [..|exact I]; auto.
Qed.

(** The two streams never wait for each other in a circle. *)
Lemma sdev_progress st : sinv st -> (copyq (sd st) <> [] \/ compq (sd st) <> []) -> exists d, dstep (sd st) d.
Proof.
  intros I H.
  destruct (copyq (sd st)) as [|o rest] eqn:E1.
  - destruct (compq (sd st)) as [|o rest] eqn:E2; [destruct H; congruence|].
    eexists. eapply d_comp; [exact E2|]. destruct o as [| | |e]; cbn; auto.
    pose proof (T_comp I (o:=WaitE e)) as X. rewrite E2 in X. specialize (X ltac:(apply in_or_app; right; left; reflexivity)).
    destruct e as [r|k]; [contradiction|]. pose proof (T_ready I X) as R. rewrite E1, app_nil_r in R. left. exact R.
  - destruct o as [h l|h l|e|e]; try (eexists; eapply d_copy; [exact E1|exact Logic.I]).
    assert (Hin : In (WaitE e) (hist st)) by (rewrite E1; apply in_or_app; right; left; reflexivity).
    pose proof (T_ops I Hin) as X. destruct e as [r|k]; [|contradiction].
    pose proof (T_recs I X) as R. apply in_app_iff in R.
    destruct R as [R|R]; [eexists; eapply d_copy; [exact E1|right; exact R]|].
    destruct (compq (sd st)) as [|o2 rest2] eqn:E2; [destruct R|].
    eexists. eapply d_comp; [exact E2|]. destruct o2 as [| | |e2]; cbn; auto.
    pose proof (T_comp I (o:=WaitE e2)) as Y. rewrite E2 in Y. specialize (Y ltac:(apply in_or_app; right; left; reflexivity)).
    destruct e2 as [r2|k2]; [contradiction|]. pose proof (T_ready I Y) as Z. rewrite E1 in Z. apply in_app_iff in Z.
    destruct Z as [Z|Z]; [left; exact Z|]. exfalso. destruct Z as [Z|Z]; [discriminate|].
    assert (Eb : hist st = copy_done (sd st) ++ WaitE (ReadDone r) :: rest) by (rewrite E1; reflexivity).
    assert (Ea : chist st = comp_done (sd st) ++ WaitE (Ready k2) :: rest2) by (rewrite E2; reflexivity).
    pose proof (T_order I Ea Eb Z) as Hd.
    apply in_split in Hd. destruct Hd as (p & q & Ep).
    assert (Eo : chist st = p ++ Rec (ReadDone r) :: (q ++ compq (sd st))) by (rewrite Ep, <- app_assoc; reflexivity).
    apply (T_once I Eo). apply in_or_app. right. rewrite E2. exact R.
Qed.
End Slots.
