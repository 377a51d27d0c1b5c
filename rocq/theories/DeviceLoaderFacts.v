(** The invariants of the prefetching loader. *)
From Verif Require Import Base BaseFacts DeviceLoader.
Set Implicit Arguments.
Unset Strict Implicit.

Lemma split_app (A : Type) (l new a c : list A) o : l ++ new = a ++ o :: c ->
  (exists c', l = a ++ o :: c' /\ c = c' ++ new) \/ (exists a', a = l ++ a' /\ new = a' ++ o :: c).
Proof.
  revert a. induction l as [|x l IH]; intros a E.
  - right. exists a. auto.
  - destruct a as [|y a]; cbn in E; injection E as <- E.
    + left. exists l. auto.
    + destruct (IH _ E) as [(c' & -> & ->)|(a' & -> & E2)].
      * left. exists c'. auto.
      * right. exists a'. auto.
Qed.
Lemma map_split (A B : Type) (f : A -> B) l a o c : map f l = a ++ o :: c ->
  exists a' x c', l = a' ++ x :: c' /\ map f a' = a /\ f x = o /\ map f c' = c.
Proof.
  revert a. induction l as [|x l IH]; intros a E; [destruct a; discriminate|].
  destruct a as [|y a]; cbn in E; injection E as E1 E2.
  - exists [], x, l. auto.
  - destruct (IH _ E2) as (a' & z & c' & -> & <- & <- & <-). exists (x :: a'), z, c'. rewrite <- E1. auto.
Qed.
Lemma seq_split_lt n m a x c : seq n m = a ++ x :: c -> (forall y, In y c -> x < y)%nat /\ (n <= x < n + m)%nat.
Proof.
  revert n a. induction m as [|m IH]; intros n a E; [destruct a; discriminate|].
  destruct a as [|z a]; cbn in E; injection E as E1 E2.
  - subst. split; [|lia]. intros y Hy. apply in_seq in Hy. lia.
  - destruct (IH _ _ E2). split; [assumption|lia].
Qed.

Lemma in_buffers k n h : In h (buffers k n) <-> fst h = k /\ (snd h < n)%nat.
Proof.
  unfold buffers. rewrite in_map_iff. split.
  - intros (i & <- & Hi). apply in_seq in Hi. cbn. lia.
  - intros (<- & H). destruct h as [k i]. exists i. split; [reflexivity|]. apply in_seq. cbn in H. lia.
Qed.
Lemma in_copies k n b o : In o (copies k n b) <-> exists i, (i < n)%nat /\ o = Copy (k, i) (b (k, i)).
Proof.
  unfold copies. rewrite in_map_iff. split.
  - intros (h & <- & Hh). apply in_buffers in Hh. destruct h as [k' i], Hh as [E Hi]. cbn in E, Hi. subst. eauto.
  - intros (i & Hi & ->). exists (k, i). split; [reflexivity|]. apply in_buffers. auto.
Qed.

Section Facts.
Variable V : Type.
Variable P : nat.
Variable source : list (hbatch V).

Definition lex (a b : buffer) : Prop := (fst a < fst b \/ (fst a = fst b /\ snd a < snd b))%nat.
(** The contents of a tensor of the source. *)
Definition content (T : list (hbatch V)) (h : buffer) : option V :=
  match nth_error T (fst h) with Some b => nth_error (hb_tensors b) (snd h) | None => None end.
Notation hist st := (copy_done (pd st) ++ copyq (pd st)).
Notation chist st := (comp_done (pd st) ++ compq (pd st)).

(** Shape of the two streams. *)
Record streams (st : pstate V) : Prop := {
  S_ops : forall o, In o (hist st) ->
    (exists k i, o = Copy (k, i) (blk st (k, i)) /\ (k < List.length (taken st))%nat /\ (i < width st k)%nat)
    \/ (exists k, o = Rec (CopyEnd k) /\ (k < List.length (taken st))%nat);
  S_rec : forall k, (k < List.length (taken st))%nat -> In (Rec (CopyEnd k)) (hist st);
  S_sorted : forall a h l c h' l', hist st = a ++ Copy h l :: c -> In (Copy h' l') c -> lex h h';
  S_before : forall a k c, hist st = a ++ Rec (CopyEnd k) :: c ->
    (forall i, (i < width st k)%nat -> In (Copy (k, i) (blk st (k, i))) a) /\
    (forall i l, ~ In (Copy (k, i) l) c) /\ ~ In (Rec (CopyEnd k)) c;
  S_comp : forall o, In o (chist st) ->
    match o with
    | Copy _ _ => False
    | Read h l => l = blk st h /\ (fst h < List.length (taken st))%nat /\ (snd h < width st (fst h))%nat
    | Rec (CopyEnd _) => False
    | Rec (Freed k) => In k (dropped st)
    | WaitE (CopyEnd k) => (k < List.length (taken st))%nat
    | WaitE (Freed _) => False
    end;
  S_read : forall a h l c, chist st = a ++ Read h l :: c ->
    In (WaitE (CopyEnd (fst h))) a /\ ~ In (Rec (Freed (fst h))) a;
  S_waited : forall e, In (WaitE e) (comp_done (pd st)) -> fired (pd st) e
}.

Definition popped (st : pstate V) : nat := List.length (used st).

(** The queues of the generator. *)
Record queues (st : pstate V) : Prop := {
  Q_source : taken st ++ src st = source;
  Q_popped : (popped st <= List.length (taken st))%nat;
  Q_pending : pending st = seq (popped st) (List.length (taken st) - popped st);
  Q_used : used st = seq 0 (popped st);
  Q_retired : exists r, (r <= popped st)%nat /\ retired st = seq r (popped st - r) /\
                forall k, (k < r)%nat -> fired (pd st) (CopyEnd k);
  Q_held : forall k, (k < popped st)%nat <-> In k (held st) \/ In k (dropped st);
  Q_distinct : NoDup (held st ++ dropped st);
  Q_delivered : delivered st = seq 0 (List.length (delivered st));
  Q_phase : match phase st with
            | PFill (Some k) => k = List.length (delivered st) /\ popped st = S k
            | PClosing None | PEnd None => (List.length (delivered st) <= popped st <= S (List.length (delivered st)))%nat
            | _ => popped st = List.length (delivered st)
            end;
  Q_waits : forall k, (k < popped st)%nat -> In (WaitE (CopyEnd k)) (chist st);
  Q_bound : (List.length (pending st) <= P)%nat;
  Q_kept : (List.length (retired st) <= match phase st with PPop => P | _ => P + 1 end)%nat;
  Q_first : phase st = PFill None -> delivered st = [] /\ retired st = [];
  Q_some : phase st = PPop -> pending st <> [];
  Q_asked : match phase st with
            | PUser | PClosing (Some false) | PEnd (Some false) => asked st = List.length (delivered st)
            | _ => asked st = S (List.length (delivered st)) end;
  Q_open : exhausted st = false -> forall b, In b (taken st) -> hb_terminal b = false;
  Q_last : forall a b c, taken st = a ++ b :: c -> c <> [] -> hb_terminal b = false;
  Q_end : exhausted st = true -> src st = [] \/ exists a b, taken st = a ++ [b] /\ hb_terminal b = true;
  Q_busy : match phase st with
           | PHead | PUser => pending st = [] -> exhausted st = true
           | PRelease | PSync | PPop => pending st <> []
           | PClosing (Some true) | PEnd (Some true) => pending st = [] /\ exhausted st = true
           | _ => True
           end;
  Q_nexts : nexts st = List.length (taken st) \/
    (nexts st = S (List.length (taken st)) /\ (forall b, In b (taken st) -> hb_terminal b = false)
     /\ (exhausted st = true \/ phase st = PClosing None \/ phase st = PEnd None));
  Q_drained : forall why, phase st = PEnd why -> copyq (pd st) = []
}.

(** Memory. *)
Record memory (st : pstate V) : Prop := {
  M_blocks : forall k i i', (k < List.length (taken st))%nat -> (i < width st k)%nat -> (i' < width st k)%nat ->
    blk st (k, i) = blk st (k, i') -> i = i';
  M_reuse : forall j k i i', (j < k < List.length (taken st))%nat -> (i < width st j)%nat -> (i' < width st k)%nat ->
    blk st (j, i) = blk st (k, i') -> In (Rec (Freed j)) (comp_done (pd st));
  M_host : forall k i v, In k (pending st) \/ In k (retired st) -> content (taken st) (k, i) = Some v -> host (pd st) (k, i) = v;
  M_mem : forall a h l c v, copy_done (pd st) = a ++ Copy h l :: c -> (forall h', ~ In (Copy h' l) c) ->
    content (taken st) h = Some v -> mem (pd st) l = v;
  M_reads : forall h v, In (h, v) (reads (pd st)) -> content (taken st) h = Some v
}.

Definition inv st := streams st /\ queues st /\ memory st.

Lemma content_width st h : (fst h < List.length (taken st))%nat -> (snd h < width st (fst h))%nat <-> content (taken st) h <> None.
Proof.
  intros H. unfold width, content. destruct (nth_error (taken st) (fst h)) as [b|] eqn:E.
  - rewrite nth_error_Some. tauto.
  - apply nth_error_None in E. lia.
Qed.
Lemma content_app T b h v : content T h = Some v -> content (T ++ [b]) h = Some v.
Proof.
  unfold content. destruct (nth_error T (fst h)) eqn:E; [|discriminate].
  rewrite nth_error_app1; [rewrite E; auto|]. apply nth_error_Some. congruence.
Qed.

Lemma fired_copy st k : streams st -> fired (pd st) (CopyEnd k) <-> In (Rec (CopyEnd k)) (copy_done (pd st)).
Proof.
  intros S. unfold fired. split; [|tauto]. intros [H|H]; [exact H|].
  exfalso. apply (S_comp S (o:=Rec (CopyEnd k))). apply in_or_app. auto.
Qed.
Lemma fired_freed st k : streams st -> fired (pd st) (Freed k) <-> In (Rec (Freed k)) (comp_done (pd st)).
Proof.
  intros S. unfold fired. split; [|tauto]. intros [H|H]; [|exact H].
  exfalso. destruct (S_ops S (o:=Rec (Freed k))) as [(x & y & E & _)|(x & E & _)]; try discriminate. apply in_or_app. auto.
Qed.

(** A batch whose host memory has been given up is not read by any copy. *)
Lemma copying_kept st k i l : streams st -> queues st -> In (Copy (k, i) l) (copyq (pd st)) ->
  In k (pending st) \/ In k (retired st).
Proof.
  intros S Q H.
  destruct (S_ops S (o:=Copy (k, i) l)) as [(k' & i' & E & Hk & Hi)|(x & E & _)]; [apply in_or_app; auto| |discriminate].
  injection E as <- <- _.
  rewrite (Q_pending Q). destruct (Q_retired Q) as (r & Hr & E & Hf).
  rewrite E, !in_seq. pose proof (Q_popped Q).
  destruct (Nat.lt_ge_cases k r) as [L|L]; [|lia]. exfalso.
  specialize (Hf _ L). apply (fired_copy k S) in Hf. apply in_split in Hf. destruct Hf as (a & c & Ec).
  destruct (S_before S (a:=a) (k:=k) (c:=c ++ copyq (pd st))) as (_ & H2 & _).
  { rewrite Ec, <- app_assoc. reflexivity. }
  apply (H2 i l). apply in_or_app. auto.
Qed.

(** What a kernel reads when it runs. *)
Lemma read_right st h l rest : inv st -> compq (pd st) = Read h l :: rest -> content (taken st) h = Some (mem (pd st) l).
Proof.
  intros (S & Q & M) E.
  assert (Hin : In (Read h l) (chist st)) by (rewrite E; apply in_or_app; right; left; reflexivity).
  destruct (S_comp S Hin) as (-> & Hk & Hi).
  destruct (S_read S (a:=comp_done (pd st)) (h:=h) (l:=blk st h) (c:=rest)) as [Hw Hf]; [rewrite E; reflexivity|].
  pose proof (S_waited S Hw) as Hc. apply (fired_copy _ S) in Hc. apply in_split in Hc. destruct Hc as (a & c & Ec).
  destruct (S_before S (a:=a) (k:=fst h) (c:=c ++ copyq (pd st))) as (H1 & _ & _).
  { rewrite Ec, <- app_assoc. reflexivity. }
  specialize (H1 _ Hi). rewrite <- surjective_pairing in H1. apply in_split in H1. destruct H1 as (a1 & a2 & Ea).
  destruct (content (taken st) h) as [v|] eqn:Ev.
  2:{ exfalso. apply content_width in Hk. tauto. }
  f_equal. symmetry. eapply (M_mem M (a:=a1) (h:=h) (c:=a2 ++ Rec (CopyEnd (fst h)) :: c)); [|intros h' Hh'|exact Ev].
  { rewrite Ec, Ea, <- app_assoc. reflexivity. }
  assert (Hlex : lex h h').
  { eapply (S_sorted S (a:=a1) (h:=h)); [rewrite Ec, Ea, <- !app_assoc; cbn [app]; reflexivity|].
    rewrite app_comm_cons, app_assoc. apply in_or_app. left. exact Hh'. }
  destruct (S_ops S (o:=Copy h' (blk st h))) as [(k' & i' & E' & Hk' & Hi')|(x & E' & _)]; [| |discriminate].
  { rewrite Ec, Ea. apply in_or_app. left. rewrite <- app_assoc. apply in_or_app. right. right. exact Hh'. }
  injection E' as -> El. destruct h as [k i]. cbn [fst snd] in *. destruct Hlex as [L|[L1 L2]]; cbn [fst snd] in *.
  - apply Hf. eapply (M_reuse M (j:=k) (k:=k') (i:=i) (i':=i')); auto.
  - subst k'. assert (i = i') by (eapply (M_blocks M (k:=k)); eauto). lia.
Qed.
End Facts.
