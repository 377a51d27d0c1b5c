(** * C33: merging a configuration override.
    Specification vocabulary: ConfigMergeSpec.v. *)
From Verif Require Import Base BaseFacts Checkpoint CheckpointFacts ConfigMerge ConfigMergeSpec.
Set Implicit Arguments. Unset Strict Implicit.

Section C33.
Variable A : Type.
Notation tree := (tree A).
Notation heap := (heap A).
Notation hval := (hval A).
Notation found := (found A).
Implicit Types (h : heap) (t : tree).

Section TreeInd.
Variable P : tree -> Prop.
Hypothesis Hleaf : forall x, P (Leaf x).
Hypothesis Hdict : forall a l, Forall (fun kv => P (snd kv)) l -> P (Dict a l).
Fixpoint tree_ind2 (t : tree) : P t :=
  match t with
  | Leaf x => Hleaf x
  | Dict a l => Hdict a ((fix go (l : list (str * tree)) : Forall (fun kv => P (snd kv)) l :=
      match l with
      | [] => Forall_nil _
      | kv :: r => Forall_cons kv (tree_ind2 (snd kv) : (fun kv => P (snd kv)) kv) (go r)
      end) l)
  end.
End TreeInd.

(** ** The merged tree *)
Fixpoint merge (base over : tree) {struct over} : option tree :=
  match base, over with
  | Dict a l1, Dict _ l2 =>
      (fix go (l1 l2 : list (str * tree)) {struct l2} : option tree :=
        match l2 with
        | [] => Some (Dict a l1)
        | (k, v) :: r =>
          match v, dict_get l1 k with
          | Dict _ _, Some (Dict c m) => match merge (Dict c m) v with Some t => go (dict_set l1 k t) r | None => None end
          | Dict _ _, Some (Leaf _) => None
          | _, _ => go (dict_set l1 k v) r
          end
        end) l1 l2
  | _, _ => None
  end.
Fixpoint merge_go (a : nat) (l1 l2 : list (str * tree)) {struct l2} : option tree :=
  match l2 with
  | [] => Some (Dict a l1)
  | (k, v) :: r =>
    match v, dict_get l1 k with
    | Dict _ _, Some (Dict c m) => match merge (Dict c m) v with Some t => merge_go a (dict_set l1 k t) r | None => None end
    | Dict _ _, Some (Leaf _) => None
    | _, _ => merge_go a (dict_set l1 k v) r
    end
  end.
Lemma merge_eq a l1 b l2 : merge (Dict a l1) (Dict b l2) = merge_go a l1 l2.
Proof.
  cbn [merge]. revert l1. induction l2 as [|[k v] r IH]; intros l1; [reflexivity|]. cbn [merge_go].
  destruct v as [x|d m2]; [apply IH|]. destruct (dict_get l1 k) as [[y|c m]|]; [reflexivity| |apply IH].
  destruct (merge (Dict c m) (Dict d m2)); [apply IH|reflexivity].
Qed.

Lemma get_set_same (B : Type) (l : list (str * B)) k v : dict_get (dict_set l k v) k = Some v.
Proof.
  induction l as [|[k' v'] l IH]; cbn; [rewrite str_eqb_refl; reflexivity|].
  destruct (str_eqb k k') eqn:E; cbn; rewrite E; [reflexivity|exact IH].
Qed.
Lemma get_set_other (B : Type) (l : list (str * B)) k k' v : k <> k' -> dict_get (dict_set l k v) k' = dict_get l k'.
Proof.
  intros H. induction l as [|[k2 v2] l IH]; cbn.
  - destruct (str_eqb k' k) eqn:E; [apply str_eqb_eq in E; congruence|reflexivity].
  - destruct (str_eqb k k2) eqn:E; cbn.
    + apply str_eqb_eq in E. subst k2. destruct (str_eqb k' k) eqn:E; [apply str_eqb_eq in E; congruence|reflexivity].
    + destruct (str_eqb k' k2); [reflexivity|exact IH].
Qed.
Lemma set_map (B C : Type) (f : B -> C) (l : list (str * B)) k v :
  map (fun kv => (fst kv, f (snd kv))) (dict_set l k v) = dict_set (map (fun kv => (fst kv, f (snd kv))) l) k (f v).
Proof. induction l as [|[k' v'] l IH]; [reflexivity|]. cbn. destruct (str_eqb k k'); cbn; [reflexivity|rewrite IH; reflexivity]. Qed.
Lemma get_map (B C : Type) (f : B -> C) (l : list (str * B)) k :
  dict_get (map (fun kv => (fst kv, f (snd kv))) l) k = option_map f (dict_get l k).
Proof. induction l as [|[k' v'] l IH]; [reflexivity|]. cbn. destruct (str_eqb k k'); [reflexivity|exact IH]. Qed.
Lemma set_get_id (B : Type) (l : list (str * B)) k v : dict_get l k = Some v -> dict_set l k v = l.
Proof.
  induction l as [|[k' v'] l IH]; cbn; [discriminate|]. destruct (str_eqb k k') eqn:E; intros H; [injection H as ->; reflexivity|].
  rewrite (IH H). reflexivity.
Qed.
Lemma get_in (B : Type) (l : list (str * B)) k v : dict_get l k = Some v -> In (k, v) l.
Proof.
  induction l as [|[k' v'] l IH]; cbn; [discriminate|]. destruct (str_eqb k k') eqn:E; intros H.
  - injection H as ->. apply str_eqb_eq in E. subst. left. reflexivity.
  - right. apply IH. exact H.
Qed.
Lemma set_in (B : Type) (l : list (str * B)) k v kv : In kv (dict_set l k v) -> In kv l \/ kv = (k, v) \/ (snd kv = v).
Proof.
  induction l as [|[k' v'] l IH]; cbn; [intros [<-|[]]; tauto|]. destruct (str_eqb k k') eqn:E; cbn.
  - intros [<-|H]; [right; right; reflexivity|left; right; exact H].
  - intros [<-|H]; [left; left; reflexivity|]. destruct (IH H) as [H1|H1]; [left; right; exact H1|right; exact H1].
Qed.
Lemma set_Forall (B : Type) (Q : B -> Prop) (l : list (str * B)) k v :
  Forall (fun kv => Q (snd kv)) l -> Q v -> Forall (fun kv => Q (snd kv)) (dict_set l k v).
Proof.
  intros H Hv. apply Forall_forall. intros kv Hin. apply set_in in Hin. rewrite Forall_forall in H.
  destruct Hin as [Hin|[->|Hin]]; [auto|exact Hv|rewrite Hin; exact Hv].
Qed.
Lemma get_Forall (B : Type) (Q : B -> Prop) (l : list (str * B)) k v : Forall (fun kv => Q (snd kv)) l -> dict_get l k = Some v -> Q v.
Proof. intros H G. apply get_in in G. rewrite Forall_forall in H. apply (H _ G). Qed.

(** ** Footprints *)
Definition faddrs (l : list (str * tree)) : list nat := flat_map (fun kv => addrs (snd kv)) l.
Lemma get_addrs l k t : dict_get l k = Some t -> forall c, In c (addrs t) -> In c (faddrs l).
Proof. intros H c Hc. apply get_in in H. apply in_flat_map. exists (k, t). auto. Qed.
Lemma frame h h' t : (forall c, In c (addrs t) -> h' c = h c) -> holds h t -> holds h' t.
Proof.
  induction t as [x|a l IH] using tree_ind2; intros F H; [constructor|]. inversion H as [|? ? H1 H2]; subst. constructor.
  - rewrite F; [exact H1|left; reflexivity].
  - rewrite Forall_forall in *. intros kv Hin. apply IH; [exact Hin| |apply H2; exact Hin].
    intros c Hc. apply F. right. apply in_flat_map. exists kv. auto.
Qed.
(** In a tree without sharing, two different entries have disjoint footprints, and
    replacing one entry's footprint keeps it so. *)
Lemma get_split l k (t : tree) : dict_get l k = Some t ->
  exists l1 l2, l = l1 ++ (k, t) :: l2 /\ (forall s, dict_set l k s = l1 ++ (k, s) :: l2).
Proof.
  induction l as [|[k' v'] l IH]; cbn; [discriminate|]. destruct (str_eqb k k') eqn:E; intros H.
  - injection H as ->. apply str_eqb_eq in E. subst k'. exists [], l. split; reflexivity.
  - destruct (IH H) as (l1 & l2 & -> & Hs). exists ((k', v') :: l1), l2. split; [reflexivity|]. intros s. cbn. rewrite Hs. reflexivity.
Qed.
Lemma get_none_set l k (t : tree) : dict_get l k = None -> dict_set l k t = l ++ [(k, t)].
Proof.
  induction l as [|[k' v'] l IH]; [reflexivity|]. cbn. destruct (str_eqb k k'); [discriminate|]. intros H. rewrite (IH H). reflexivity.
Qed.
Lemma faddrs_app l m : faddrs (l ++ m) = faddrs l ++ faddrs m.
Proof. apply flat_map_app. Qed.
Lemma NoDup_app_iff (l m : list nat) : NoDup (l ++ m) <-> NoDup l /\ NoDup m /\ (forall c, In c l -> ~ In c m).
Proof.
  induction l as [|x l IH]; cbn [app].
  - split; [intros H; repeat split; [constructor|exact H|intros c []]|intros (_ & H & _); exact H].
  - rewrite !NoDup_cons_iff, IH, in_app_iff. cbn [In]. split.
    + intros (H1 & H2 & H3 & H4). split; [tauto|]. split; [exact H3|]. intros c [<-|Hc]; [tauto|auto].
    + intros ((H1 & H2) & H3 & H4). split; [intros [H|H]; [auto|apply (H4 x); auto]|]. split; [exact H2|]. split; [exact H3|]. intros c Hc. apply H4. right. exact Hc.
Qed.
(** Replacing the entry of one key by a tree whose footprint is new or was that entry's. *)
Definition old (l : list (str * tree)) (k : str) (c : nat) : Prop := exists s, dict_get l k = Some s /\ In c (addrs s).
Lemma set_addrs l k t c : In c (faddrs (dict_set l k t)) -> In c (faddrs l) \/ In c (addrs t).
Proof.
  unfold faddrs. rewrite !in_flat_map. intros (kv & Hin & Hc). apply set_in in Hin. destruct Hin as [Hin|[->|Hin]].
  - left. exists kv. auto.
  - right. exact Hc.
  - right. rewrite <- Hin. exact Hc.
Qed.
Lemma set_NoDup l k t : NoDup (faddrs l) -> NoDup (addrs t) ->
  (forall c, In c (addrs t) -> old l k c \/ ~ In c (faddrs l)) -> NoDup (faddrs (dict_set l k t)).
Proof.
  intros Hn Ht Hc. destruct (dict_get l k) as [s|] eqn:E.
  - destruct (get_split E) as (l1 & l2 & -> & ->). rewrite !faddrs_app in *. cbn [faddrs flat_map snd] in *.
    fold (faddrs l2) in *. rewrite !NoDup_app_iff in *. destruct Hn as (N1 & (N2 & N3 & N4) & N5).
    assert (G : forall c, In c (addrs t) -> In c (addrs s) \/ (~ In c (faddrs l1) /\ ~ In c (faddrs l2))).
    { intros c H. destruct (Hc c H) as [(s' & E' & H')|H'].
      - rewrite E in E'. injection E' as <-. left. exact H'.
      - right. rewrite !in_app_iff in H'. tauto. }
    split; [exact N1|]. split; [split; [exact Ht|split; [exact N3|]]|].
    + intros c H. destruct (G c H) as [H'|(_ & H')]; [apply N4; exact H'|exact H'].
    + intros c H. rewrite in_app_iff. intros [H'|H'].
      * destruct (G c H') as [H2|(H2 & _)]; [|contradiction]. apply (N5 c H). rewrite in_app_iff. left. exact H2.
      * apply (N5 c H). rewrite in_app_iff. right. exact H'.
  - rewrite (get_none_set t E), faddrs_app. cbn [faddrs flat_map snd]. rewrite app_nil_r, NoDup_app_iff.
    split; [exact Hn|]. split; [exact Ht|]. intros c H H'. destruct (Hc c H') as [(s & E' & _)|H2]; [congruence|contradiction].
Qed.
Lemma get_disjoint l k k' t t' c : NoDup (faddrs l) -> k <> k' -> dict_get l k = Some t -> dict_get l k' = Some t' ->
  In c (addrs t) -> ~ In c (addrs t').
Proof.
  intros Hn Hk E E' H H'. destruct (get_split E) as (l1 & l2 & -> & _). rewrite !faddrs_app in Hn. cbn [faddrs flat_map snd] in Hn.
  fold (faddrs l2) in Hn. rewrite !NoDup_app_iff in Hn. destruct Hn as (N1 & (N2 & N3 & N4) & N5).
  apply get_in in E'. rewrite in_app_iff in E'. destruct E' as [E'|[E'|E']].
  - assert (X : In c (faddrs l1)) by (apply in_flat_map; eauto). apply (N5 c X). rewrite in_app_iff. left. exact H.
  - injection E' as E1 E2. congruence.
  - assert (X : In c (faddrs l2)) by (apply in_flat_map; eauto). apply (N4 c H X).
Qed.

(** ** The loop follows [merge] *)
Lemma merge_addrs over : forall base m, merge base over = Some m ->
  head m = head base /\ (forall c, In c (addrs m) -> In c (addrs base) \/ In c (addrs over)).
Proof.
  induction over as [x|b l2 IH] using tree_ind2; intros base m H; [destruct base; discriminate|].
  destruct base as [x|a l1]; [discriminate|]. rewrite merge_eq in H. cbn [addrs]. fold (faddrs l2). fold (faddrs l1).
  assert (G : head m = HRef A a /\ forall c, In c (addrs m) -> c = a \/ In c (faddrs l1) \/ In c (faddrs l2)).
  { clear b. revert l1 H. induction l2 as [|[k v] r IHr]; intros l1 H; cbn [merge_go] in H.
    - injection H as <-. split; [reflexivity|]. intros c [<-|H]; [left; reflexivity|right; left; exact H].
    - inversion IH as [|? ? IHv IHrest]; subst. cbn [snd] in IHv. cbn [faddrs flat_map snd]. fold (faddrs r).
      assert (Simple : merge_go a (dict_set l1 k v) r = Some m -> head m = HRef A a /\ forall c, In c (addrs m) -> c = a \/ In c (faddrs l1) \/ In c (addrs v ++ faddrs r)).
      { intros H'. destruct (IHr IHrest _ H') as (Hh & Ha). split; [exact Hh|]. intros c Hc. rewrite in_app_iff.
        destruct (Ha c Hc) as [?|[X|?]]; [tauto| |tauto]. apply set_addrs in X. tauto. }
      destruct v as [x|d m2]; [apply Simple; exact H|]. destruct (dict_get l1 k) as [[y|c0 m1]|] eqn:E; [discriminate| |apply Simple; exact H].
      destruct (merge (Dict c0 m1) (Dict d m2)) as [t|] eqn:Em; [|discriminate].
      destruct (IHv _ _ Em) as (_ & Ht). destruct (IHr IHrest _ H) as (Hh & Ha). split; [exact Hh|]. intros c Hc. rewrite in_app_iff.
      destruct (Ha c Hc) as [?|[X|?]]; [tauto| |tauto]. apply set_addrs in X. destruct X as [X|X]; [tauto|]. destruct (Ht c X) as [Y|Y]; [|tauto].
      right. left. apply (get_addrs E). exact Y. }
  destruct G as (Hh & Ha). split; [exact Hh|]. intros c Hc. cbn [In]. destruct (Ha c Hc) as [?|[?|?]]; auto.
Qed.
Lemma merge_NoDup over : forall base m, NoDup (addrs base) -> NoDup (addrs over) -> (forall c, In c (addrs base) -> ~ In c (addrs over)) ->
  merge base over = Some m -> NoDup (addrs m).
Proof.
  induction over as [x|b l2 IH] using tree_ind2; intros base m N1 N2 D H; [destruct base; discriminate|].
  destruct base as [x|a l1]; [discriminate|]. rewrite merge_eq in H. cbn [addrs] in *. fold (faddrs l2) in *. fold (faddrs l1) in *.
  assert (N2' : NoDup (faddrs l2)) by (inversion N2; assumption).
  assert (D' : forall c, In c (a :: faddrs l1) -> ~ In c (faddrs l2)) by (intros c Hc X; apply (D c Hc); right; exact X).
  clear N2 D b. revert l1 N1 D' H. induction l2 as [|[k v] r IHr]; intros l1 N1 D H; cbn [merge_go] in H.
  - injection H as <-. exact N1.
  - inversion IH as [|? ? IHv IHrest]; subst. cbn [snd] in IHv. cbn [faddrs flat_map snd] in N2', D. fold (faddrs r) in *.
    apply NoDup_app_iff in N2'. destruct N2' as (Nv & Nr & Dv). rewrite NoDup_cons_iff in N1. destruct N1 as (Na & N1).
    assert (Step : forall t, NoDup (addrs t) -> (forall c, In c (addrs t) -> old l1 k c \/ In c (addrs v)) ->
       merge_go a (dict_set l1 k t) r = Some m -> NoDup (addrs m)).
    { intros t Nt Ht H'. apply (IHr IHrest Nr (dict_set l1 k t)); [| |exact H'].
      - apply NoDup_cons_iff. split.
        + intros X. apply set_addrs in X. destruct X as [X|X]; [contradiction|]. destruct (Ht _ X) as [(s & E & Y)|Y].
          * apply Na. apply (get_addrs E). exact Y.
          * apply (D a); [left; reflexivity|]. rewrite in_app_iff. left. exact Y.
        + apply set_NoDup; [exact N1|exact Nt|]. intros c Hc. destruct (Ht c Hc) as [Y|Y]; [left; exact Y|right].
          intros X. apply (D c); [right; exact X|]. rewrite in_app_iff. left. exact Y.
      - intros c [<-|X] Y; [apply (D a); [left; reflexivity|rewrite in_app_iff; right; exact Y]|].
        apply set_addrs in X. destruct X as [X|X]; [apply (D c); [right; exact X|rewrite in_app_iff; right; exact Y]|].
        destruct (Ht _ X) as [(s & E & Z)|Z]; [|apply (Dv c Z Y)].
        apply (D c); [right; apply (get_addrs E); exact Z|rewrite in_app_iff; right; exact Y]. }
    destruct v as [x|d m2]; [eapply Step; [| |exact H]; [constructor|intros c []]|].
    destruct (dict_get l1 k) as [[y|c0 m1]|] eqn:E; [discriminate| |eapply Step; [exact Nv| |exact H]; intros c Hc; right; exact Hc].
    destruct (merge (Dict c0 m1) (Dict d m2)) as [t|] eqn:Em; [|discriminate].
    eapply Step; [| |exact H].
    + apply (IHv (Dict c0 m1)); [|exact Nv| |exact Em].
      * destruct (get_split E) as (p & q & -> & _). rewrite faddrs_app in N1. cbn [faddrs flat_map snd] in N1. rewrite !NoDup_app_iff in N1. tauto.
      * intros c Hc X. apply (D c); [right; apply (get_addrs E); exact Hc|]. rewrite in_app_iff. left. exact X.
    + intros c Hc. destruct (merge_addrs Em) as (_ & Ha). destruct (Ha c Hc) as [X|X]; [left; exists (Dict c0 m1); auto|right; exact X].
Qed.

(** The loop of recursive_update, named. *)
Definition loop (f : nat) (a1 : nat) := fix loop (h : heap) (items : list (str * hval)) {struct items} : heap * option exn :=
      match items with
      | [] => (h, None)
      | (key, value) :: rest =>
        match h a1 with
        | None => (h, Some RuntimeError)
        | Some entries =>
          match value, dict_get entries key with
          | HRef _ sub, Some (HRef _ mine) =>
              match recursive_update f h mine sub with
              | (h', None) => loop h' rest
              | (h', Some e) => (h', Some e)
              end
          | HRef _ sub, Some (HLeaf _) => (h, Some TypeError)
          | _, _ => loop (write h a1 (dict_set entries key value)) rest
          end
        end
      end.
Lemma update_S f h a1 a2 : recursive_update (S f) h a1 a2 =
  match h a2 with None => (h, Some RuntimeError) | Some items => loop f a1 h items end.
Proof. reflexivity. Qed.
Definition heads (l : list (str * tree)) := map (fun kv => (fst kv, head (snd kv))) l.
Lemma write_same h a es : write h a es a = Some es.
Proof. unfold write. rewrite Nat.eqb_refl. reflexivity. Qed.
Lemma write_other h a es b : b <> a -> write h a es b = h b.
Proof. intros H. unfold write. destruct (b =? a)%nat eqn:E; [apply Nat.eqb_eq in E; contradiction|reflexivity]. Qed.

Definition outcome (base over : tree) (h' : heap) (r : option exn) : Prop :=
  match merge base over with Some m => r = None /\ holds h' m | None => r = Some TypeError end.
Lemma depth_in a (l : list (str * tree)) kv : In kv l -> (depth (snd kv) < depth (Dict a l))%nat.
Proof.
  cbn [depth]. induction l as [|x l IH]; [intros []|]. cbn [map fold_right]. intros [->|H]; [lia|]. specialize (IH H). lia.
Qed.
Lemma update_merge over : forall b l2, over = Dict b l2 -> forall f h a l1, (depth over <= f)%nat ->
  well_formed over -> holds h (Dict a l1) -> holds h over -> NoDup (addrs (Dict a l1)) -> NoDup (addrs over) ->
  (forall c, In c (addrs (Dict a l1)) -> ~ In c (addrs over)) ->
  exists h' r, recursive_update f h a b = (h', r) /\ (forall c, ~ In c (addrs (Dict a l1)) -> h' c = h c) /\ outcome (Dict a l1) over h' r.
Proof.
  induction over as [x|b l2 IH] using tree_ind2; intros b' l2' E f h a l1 Hf Hw Hb Ho N1 N2 D; [discriminate|]. injection E as <- <-.
  destruct f as [|f]; [cbn in Hf; lia|]. rewrite update_S. inversion Ho as [|? ? Ho1 Ho2]; subst. rewrite Ho1. fold (heads l2).
  unfold outcome. rewrite merge_eq. inversion Hw as [|? ? Hwk Hwl]; subst.
  (* the loop over a suffix of the items *)
  assert (L : forall r, Forall (fun kv => forall b l2, snd kv = Dict b l2 -> forall f h a l1, (depth (snd kv) <= f)%nat ->
       well_formed (snd kv) -> holds h (Dict a l1) -> holds h (snd kv) -> NoDup (addrs (Dict a l1)) -> NoDup (addrs (snd kv)) ->
       (forall c, In c (addrs (Dict a l1)) -> ~ In c (addrs (snd kv))) ->
       exists h' r, recursive_update f h a b = (h', r) /\ (forall c, ~ In c (addrs (Dict a l1)) -> h' c = h c) /\ outcome (Dict a l1) (snd kv) h' r) r ->
     Forall (fun kv => (depth (snd kv) <= f)%nat) r -> NoDup (map fst r) -> Forall (fun kv => well_formed (snd kv)) r ->
     forall h l, holds h (Dict a l) -> Forall (fun kv => holds h (snd kv)) r -> NoDup (a :: faddrs l) -> NoDup (faddrs r) ->
     (forall c, In c (a :: faddrs l) -> ~ In c (faddrs r)) ->
     exists h' o, loop f a h (heads r) = (h', o) /\
       (forall c, c <> a -> (forall k, In k (map fst r) -> ~ old l k c) -> h' c = h c) /\
       match merge_go a l r with Some m => o = None /\ holds h' m | None => o = Some TypeError end).
  { clear. induction r as [|[k v] r IHr]; intros IH Hd Hk Hw h l Hb Ho N1 N2 D.
    - exists h, None. split; [reflexivity|]. split; [reflexivity|]. cbn. split; [reflexivity|exact Hb].
    - inversion IH as [|? ? IHv IHrest]; subst. inversion Hd as [|? ? Dv Dr]; subst. cbn [map fst] in Hk. inversion Hk as [|? ? K1 K2]; subst.
      inversion Hw as [|? ? Wv Wr]; subst. inversion Ho as [|? ? Hv Hr]; subst. cbn [snd] in *.
      cbn [faddrs flat_map snd] in N2, D. fold (faddrs r) in N2, D. apply NoDup_app_iff in N2. destruct N2 as (Nv & Nr & Dvr).
      rewrite NoDup_cons_iff in N1. destruct N1 as (Na & Nl). inversion Hb as [|? ? Hb1 Hb2]; subst.
      cbn [heads map fst snd]. fold (heads r). cbn [loop merge_go]. rewrite Hb1. rewrite get_map.
      (* what remains after entry k has become [t] *)
      assert (Step : forall h1 t, holds h1 (Dict a (dict_set l k t)) -> NoDup (addrs t) ->
          (forall c, In c (addrs t) -> old l k c \/ In c (addrs v)) ->
          (forall c, c <> a -> ~ old l k c -> h1 c = h c) ->
          exists h' o, loop f a h1 (heads r) = (h', o) /\
            (forall c, c <> a -> (forall k', In k' (k :: map fst r) -> ~ old l k' c) -> h' c = h c) /\
            match merge_go a (dict_set l k t) r with Some m => o = None /\ holds h' m | None => o = Some TypeError end).
      { intros h1 t Ht Nt Hc Hfr.
        destruct (IHr IHrest Dr K2 Wr h1 (dict_set l k t)) as (h' & o & E1 & E2 & E3).
        - exact Ht.
        - apply Forall_forall. intros kv Hin. rewrite Forall_forall in Hr. apply (@frame h h1); [|apply Hr; exact Hin].
          intros c X. assert (Y : In c (faddrs r)) by (apply in_flat_map; eauto). apply Hfr.
          + intros ->. apply (D a); [left; reflexivity|]. rewrite in_app_iff. right. exact Y.
          + intros (s & Es & Z). apply (D c); [right; apply (get_addrs Es); exact Z|]. rewrite in_app_iff. right. exact Y.
        - apply NoDup_cons_iff. split.
          + intros X. apply set_addrs in X. destruct X as [X|X]; [contradiction|]. destruct (Hc _ X) as [(s & Es & Y)|Y].
            * apply Na. apply (get_addrs Es). exact Y.
            * apply (D a); [left; reflexivity|]. rewrite in_app_iff. left. exact Y.
          + apply set_NoDup; [exact Nl|exact Nt|]. intros c X. destruct (Hc c X) as [Y|Y]; [left; exact Y|right].
            intros Z. apply (D c); [right; exact Z|]. rewrite in_app_iff. left. exact Y.
        - exact Nr.
        - intros c [<-|X] Y; [apply (D a); [left; reflexivity|rewrite in_app_iff; right; exact Y]|].
          apply set_addrs in X. destruct X as [X|X]; [apply (D c); [right; exact X|rewrite in_app_iff; right; exact Y]|].
          destruct (Hc _ X) as [(s & Es & Z)|Z]; [|apply (Dvr c Z Y)].
          apply (D c); [right; apply (get_addrs Es); exact Z|rewrite in_app_iff; right; exact Y].
        - exists h', o. split; [exact E1|]. split; [|exact E3]. intros c Hca Hold. rewrite E2.
          + apply Hfr; [exact Hca|]. apply Hold. left. reflexivity.
          + exact Hca.
          + intros k' Hk' (s & Es & Z). rewrite get_set_other in Es by (intros ->; contradiction).
            apply (Hold k'); [right; exact Hk'|]. exists s. auto. }
      assert (Set_ : exists h' o, loop f a (write h a (dict_set (heads l) k (head v))) (heads r) = (h', o) /\
            (forall c, c <> a -> (forall k', In k' (k :: map fst r) -> ~ old l k' c) -> h' c = h c) /\
            match merge_go a (dict_set l k v) r with Some m => o = None /\ holds h' m | None => o = Some TypeError end).
      { apply Step.
        - constructor; [rewrite write_same; unfold heads; rewrite set_map; reflexivity|].
          apply (@set_Forall _ (holds _)).
          + apply Forall_forall. intros kv Hin. rewrite Forall_forall in Hb2. apply (@frame h); [|apply Hb2; exact Hin].
            intros c X. apply write_other. intros ->. apply Na. apply in_flat_map. eauto.
          + apply (@frame h); [|exact Hv]. intros c X. apply write_other. intros ->. apply (D a); [left; reflexivity|]. rewrite in_app_iff. left. exact X.
        - exact Nv.
        - intros c X. right. exact X.
        - intros c Hc _. apply write_other. exact Hc. }
      destruct v as [x|d m2]; [exact Set_|]. cbn [head] in *.
      destruct (dict_get l k) as [[y|c0 m1]|] eqn:E; cbn [option_map head]; [| |exact Set_].
      + exists h, (Some TypeError). split; [reflexivity|]. split; [reflexivity|]. reflexivity.
      + destruct (IHv d m2 eq_refl f h c0 m1) as (h1 & o1 & E1 & E2 & E3).
        * exact Dv.
        * exact Wv.
        * apply (get_Forall Hb2 E).
        * exact Hv.
        * destruct (get_split E) as (p & q & -> & _). rewrite faddrs_app in Nl. cbn [faddrs flat_map snd] in Nl. rewrite !NoDup_app_iff in Nl. tauto.
        * exact Nv.
        * intros c X Y. apply (D c); [right; apply (get_addrs E); exact X|]. rewrite in_app_iff. left. exact Y.
        * rewrite E1. unfold outcome in E3. destruct (merge (Dict c0 m1) (Dict d m2)) as [t|] eqn:Em.
          -- destruct E3 as (-> & Ht). destruct (merge_addrs Em) as (Hh & Ha). apply Step.
             ++ constructor.
                ** rewrite E2; [rewrite Hb1|].
                   --- f_equal. rewrite set_map. rewrite Hh. symmetry. apply set_get_id. rewrite get_map, E. reflexivity.
                   --- intros X. apply Na. apply (get_addrs E). exact X.
                ** apply Forall_forall. intros kv Hin.
                   destruct (get_split E) as (p & q & -> & Hs). rewrite Hs in Hin. rewrite in_app_iff in Hin.
                   rewrite faddrs_app in Nl. cbn [faddrs flat_map snd] in Nl. fold (faddrs q) in Nl. rewrite !NoDup_app_iff in Nl. destruct Nl as (M1 & (M2 & M3 & M4) & M5).
                   rewrite Forall_forall in Hb2. destruct Hin as [Hin|[<-|Hin]].
                   --- apply (@frame h); [|apply Hb2; rewrite in_app_iff; left; exact Hin]. intros c X. apply E2. intros Y.
                       apply (M5 c); [apply in_flat_map; eauto|]. rewrite in_app_iff. left. exact Y.
                   --- exact Ht.
                   --- apply (@frame h); [|apply Hb2; rewrite in_app_iff; right; right; exact Hin]. intros c X. apply E2. intros Y.
                       apply (M4 c Y). apply in_flat_map. eauto.
             ++ apply (@merge_NoDup (Dict d m2) (Dict c0 m1)); [|exact Nv| |exact Em].
                ** destruct (get_split E) as (p & q & -> & _). rewrite faddrs_app in Nl. cbn [faddrs flat_map snd] in Nl. rewrite !NoDup_app_iff in Nl. tauto.
                ** intros c X Y. apply (D c); [right; apply (get_addrs E); exact X|]. rewrite in_app_iff. left. exact Y.
             ++ intros c X. destruct (Ha c X) as [Y|Y]; [left; exists (Dict c0 m1); auto|right; exact Y].
             ++ intros c Hc Hold. apply E2. intros X. apply Hold. exists (Dict c0 m1). auto.
          -- subst o1. exists h1, (Some TypeError). split; [reflexivity|]. split; [|reflexivity].
             intros c Hc Hold. apply E2. intros X. apply (Hold k); [left; reflexivity|]. exists (Dict c0 m1). auto. }
  destruct (L l2) with (h := h) (l := l1) as (h' & o & E1 & E2 & E3).
  - exact IH.
  - apply Forall_forall. intros kv Hin. pose proof (depth_in b Hin). lia.
  - exact Hwk.
  - exact Hwl.
  - exact Hb.
  - exact Ho2.
  - exact N1.
  - cbn [addrs] in N2. inversion N2; assumption.
  - intros c X Y. apply (D c X). right. exact Y.
  - exists h', o. split; [exact E1|]. split; [|exact E3]. intros c Hc. apply E2.
    + intros ->. apply Hc. left. reflexivity.
    + intros k _ (s & Es & X). apply Hc. right. apply (get_addrs Es). exact X.
Qed.

(** ** What the merged tree holds *)
Definition combine (s v : option tree) : option tree :=
  match v with
  | None => s
  | Some (Leaf x) => Some (Leaf x)
  | Some (Dict d m2) => match s with Some (Dict c m1) => merge (Dict c m1) (Dict d m2) | _ => Some (Dict d m2) end
  end.
Definition clash (s v : option tree) : Prop :=
  match s, v with
  | Some (Leaf _), Some (Dict _ _) => True
  | Some (Dict c m1), Some (Dict d m2) => merge (Dict c m1) (Dict d m2) = None
  | _, _ => False
  end.
Lemma not_in_get (B : Type) (l : list (str * B)) k : ~ In k (map fst l) -> dict_get l k = None.
Proof.
  induction l as [|[k' v'] l IH]; [reflexivity|]. cbn. intros H. destruct (str_eqb k k') eqn:E; [apply str_eqb_eq in E; subst; tauto|]. apply IH. tauto.
Qed.
Lemma get_cons_other (B : Type) (l : list (str * B)) k k' v : k <> k' -> dict_get ((k, v) :: l) k' = dict_get l k'.
Proof. intros H. cbn. destruct (str_eqb k' k) eqn:E; [apply str_eqb_eq in E; congruence|reflexivity]. Qed.
Lemma get_cons_same (B : Type) (l : list (str * B)) k v : dict_get ((k, v) :: l) k = Some v.
Proof. cbn. rewrite str_eqb_refl. reflexivity. Qed.
Lemma str_dec (a b : str) : a = b \/ a <> b.
Proof. destruct (str_eqb a b) eqn:E; [left; apply str_eqb_eq; exact E|right; intros ->; rewrite str_eqb_refl in E; discriminate]. Qed.
Lemma merge_go_get a r : forall l, NoDup (map fst r) ->
  match merge_go a l r with
  | Some m => exists l', m = Dict a l' /\ (forall k, dict_get l' k = combine (dict_get l k) (dict_get r k)) /\ (forall k, ~ clash (dict_get l k) (dict_get r k))
  | None => exists k, clash (dict_get l k) (dict_get r k)
  end.
Proof.
  induction r as [|[k v] r IH]; intros l Hn; cbn [merge_go].
  - exists l. split; [reflexivity|]. split; [intros k; reflexivity|]. intros k. cbn. destruct (dict_get l k) as [[]|]; cbn; auto.
  - cbn [map fst] in Hn. inversion Hn as [|? ? K1 K2]; subst.
    assert (Step : forall t, combine (dict_get l k) (Some v) = Some t -> ~ clash (dict_get l k) (Some v) ->
      match merge_go a (dict_set l k t) r with
      | Some m => exists l', m = Dict a l' /\ (forall k', dict_get l' k' = combine (dict_get l k') (dict_get ((k, v) :: r) k')) /\
                             (forall k', ~ clash (dict_get l k') (dict_get ((k, v) :: r) k'))
      | None => exists k', clash (dict_get l k') (dict_get ((k, v) :: r) k')
      end).
    { intros t Ht Hc. specialize (IH (dict_set l k t) K2).
      destruct (merge_go a (dict_set l k t) r) as [m|].
      - destruct IH as (l' & -> & G1 & G2). exists l'. split; [reflexivity|]. split; intros k'.
        + destruct (str_dec k k') as [<-|N].
          * rewrite G1, get_set_same, (not_in_get K1), get_cons_same. cbn [combine]. symmetry. exact Ht.
          * rewrite G1, get_set_other, get_cons_other by exact N. reflexivity.
        + destruct (str_dec k k') as [<-|N]; [rewrite get_cons_same; exact Hc|].
          specialize (G2 k'). rewrite get_set_other in G2 by exact N. rewrite get_cons_other by exact N. exact G2.
      - destruct IH as (k' & C). destruct (str_dec k k') as [<-|N].
        + rewrite (not_in_get K1) in C. destruct (dict_get (dict_set l k t) k) as [[]|]; destruct C.
        + exists k'. rewrite get_set_other in C by exact N. rewrite get_cons_other by exact N. exact C. }
    destruct v as [x|d m2].
    + apply Step; [reflexivity|]. destruct (dict_get l k) as [[]|]; cbn; auto.
    + destruct (dict_get l k) as [[y|c m1]|] eqn:E.
      * exists k. rewrite get_cons_same, E. exact I.
      * destruct (merge (Dict c m1) (Dict d m2)) as [t|] eqn:Em.
        -- apply Step; cbn [combine clash]; [exact Em|]. rewrite Em. discriminate.
        -- exists k. rewrite get_cons_same, E. exact Em.
      * apply Step; [reflexivity|]. cbn. auto.
Qed.
(** The two are in conflict at [p]: a dictionary would override something else. *)
Definition conflict (base over : tree) (p : list str) : Prop :=
  at_path over p = Some (ADict A) /\ exists x, at_path base p = Some (Value x).
Definition by_path (base over m : tree) : Prop := forall p,
  (forall f, at_path over p = Some f -> at_path m p = Some f) /\
  (at_path over p = None -> below_value over p -> at_path m p = None) /\
  (at_path over p = None -> ~ below_value over p -> at_path m p = at_path base p).
Lemma below_cons b (l : list (str * tree)) k q (s : tree) : dict_get l k = Some s -> (below_value (Dict b l) (k :: q) <-> below_value s q).
Proof.
  intros E. split.
  - intros (p & r & x & Hp & Hx). destruct p as [|k' p]; [discriminate|]. cbn in Hp. injection Hp as <- ->. cbn in Hx. rewrite E in Hx.
    exists p, r, x. auto.
  - intros (p & r & x & -> & Hx). exists (k :: p), r, x. split; [reflexivity|]. cbn. rewrite E. exact Hx.
Qed.
Lemma merge_spec over : forall b l2, over = Dict b l2 -> forall a l1, well_formed over ->
  match merge (Dict a l1) over with
  | Some m => by_path (Dict a l1) over m /\ (forall p, ~ conflict (Dict a l1) over p)
  | None => exists p, conflict (Dict a l1) over p
  end.
Proof.
  induction over as [x|b l2 IH] using tree_ind2; intros b' l2' E a l1 Hw; [discriminate|]. clear E b' l2'.
  inversion Hw as [|? ? Hk Hl]; subst. rewrite merge_eq. pose proof (merge_go_get a l1 Hk) as G.
  assert (Sub : forall k d m2 c m1, dict_get l2 k = Some (Dict d m2) ->
    match merge (Dict c m1) (Dict d m2) with
    | Some m => by_path (Dict c m1) (Dict d m2) m /\ (forall p, ~ conflict (Dict c m1) (Dict d m2) p)
    | None => exists p, conflict (Dict c m1) (Dict d m2) p
    end).
  { intros k d m2 c m1 Ek. apply get_in in Ek. rewrite Forall_forall in IH, Hl. apply (IH _ Ek d m2 eq_refl c m1 (Hl _ Ek)). }
  destruct (merge_go a l1 l2) as [m|].
  - destruct G as (l' & -> & G1 & G2). split.
    + intros [|k q].
      { split; [intros f H; exact H|]. split; [intros H; discriminate|intros H; discriminate]. }
      cbn [at_path]. rewrite G1. destruct (dict_get l2 k) as [v|] eqn:Ev; cbn [combine].
      * rewrite (below_cons b q Ev). destruct v as [x|d m2].
        -- split; [intros f H; exact H|]. split; [intros H _; exact H|]. intros H N. exfalso. apply N. exists [], q, x. split; reflexivity.
        -- destruct (dict_get l1 k) as [[y|c m1]|] eqn:Es.
           ++ exfalso. apply (G2 k). rewrite Ev, Es. exact I.
           ++ specialize (Sub k d m2 c m1 Ev). destruct (merge (Dict c m1) (Dict d m2)) as [t|] eqn:Em.
              ** destruct Sub as (S1 & _). apply (S1 q).
              ** exfalso. apply (G2 k). rewrite Ev, Es. exact Em.
           ++ split; [intros f H; exact H|]. split; [intros H _; exact H|]. intros H _. exact H.
      * split; [intros f H; discriminate|]. split; [|intros _ _; reflexivity].
        intros _ (p & r & x & Hp & Hx). destruct p as [|k' p]; [discriminate|]. injection Hp as <- _. cbn in Hx. rewrite Ev in Hx. discriminate.
    + intros [|k q] (C1 & x & C2); [discriminate|]. cbn in C1, C2. destruct (dict_get l2 k) as [v|] eqn:Ev; [|discriminate].
      destruct (dict_get l1 k) as [s|] eqn:Es; [|discriminate]. specialize (G2 k). rewrite Ev, Es in G2.
      destruct v as [z|d m2]; [destruct q; discriminate|]. destruct s as [y|c m1]; [apply G2; exact I|]. specialize (Sub k d m2 c m1 Ev). cbn [clash] in G2.
      destruct (merge (Dict c m1) (Dict d m2)) as [t|]; [|congruence]. destruct Sub as (_ & S2). apply (S2 q). split; [exact C1|eauto].
  - destruct G as (k & C). destruct (dict_get l1 k) as [[y|c m1]|] eqn:Es; destruct (dict_get l2 k) as [[z|d m2]|] eqn:Ev; try (exfalso; exact C).
    + exists [k]. split; cbn; [rewrite Ev; reflexivity|]. rewrite Es. exists y. reflexivity.
    + specialize (Sub k d m2 c m1 Ev). cbn [clash] in C. rewrite C in Sub. destruct Sub as (q & C1 & x & C2). exists (k :: q). split; cbn; [rewrite Ev; exact C1|].
      rewrite Es. eauto.
Qed.

(** ** The theorems.
    [base] and [over] are configurations in separate memory (as two configuration files
    are); [fuel] only has to exceed the nesting of the override. *)
Section Theorems.
Variables (h : heap) (a b : nat) (l1 l2 : list (str * tree)) (fuel : nat).
Let base := Dict a l1.
Let over := Dict b l2.
Hypothesis fuel_ok : (depth over <= fuel)%nat.
Hypothesis base_here : holds h base.
Hypothesis over_here : holds h over.
Hypothesis over_keys : well_formed over.
Hypothesis separate : NoDup (addrs base ++ addrs over).

Lemma run : exists h' r, recursive_update fuel h a b = (h', r) /\ (forall c, ~ In c (addrs base) -> h' c = h c) /\ outcome base over h' r.
Proof.
  apply NoDup_app_iff in separate as (S1 & S2 & S3). apply (@update_merge over b l2 eq_refl); assumption.
Qed.
Lemma over_still h' : (forall c, ~ In c (addrs base) -> h' c = h c) -> holds h' over.
Proof.
  intros H. apply (@frame h); [|exact over_here]. intros c Hc. apply H. intros X. apply NoDup_app_iff in separate as (_ & _ & S3). apply (S3 c X Hc).
Qed.
End Theorems.

(** After a successful merge the base dictionary (the same object) holds, at every path:
    what the override has there; nothing, if the override has a value further up; and
    otherwise what the base had.  The override still is what it was, and so is every
    other object. *)
Theorem C33_merge_by_path : forall h a b l1 l2 fuel h',
  let base := Dict a l1 in let over := Dict b l2 in
  (depth over <= fuel)%nat -> holds h base -> holds h over -> well_formed over -> NoDup (addrs base ++ addrs over) ->
  recursive_update fuel h a b = (h', None) ->
  (exists m, head m = HRef A a /\ holds h' m /\ forall p,
     (forall f, at_path over p = Some f -> at_path m p = Some f) /\
     (at_path over p = None -> below_value over p -> at_path m p = None) /\
     (at_path over p = None -> ~ below_value over p -> at_path m p = at_path base p)) /\
  holds h' over /\ (forall c, ~ In c (addrs base) -> h' c = h c).
Proof.
  intros h a b l1 l2 fuel h' base over Hf Hb Ho Hw Hs E. subst base over. destruct (run Hf Hb Ho Hw Hs) as (h1 & r & E1 & F & O). rewrite E in E1. injection E1 as <- <-.
  split; [|split; [apply (over_still Ho Hs F)|exact F]].
  unfold outcome in O. pose proof (@merge_spec _ b l2 eq_refl a l1 Hw) as M.
  destruct (merge (Dict a l1) (Dict b l2)) as [m|] eqn:Em; [|discriminate]. destruct O as (_ & Hm). destruct M as (M & _).
  exists m. split; [|split; [exact Hm|exact M]]. destruct (merge_addrs Em) as (Hh & _). exact Hh.
Qed.

(** The merge succeeds exactly if nowhere a dictionary would have to be merged into
    something that is not one; otherwise TypeError is raised.  The override is never modified. *)
Theorem C33_conflicts_are_reported : forall h a b l1 l2 fuel,
  let base := Dict a l1 in let over := Dict b l2 in
  (depth over <= fuel)%nat -> holds h base -> holds h over -> well_formed over -> NoDup (addrs base ++ addrs over) ->
  exists h' r, recursive_update fuel h a b = (h', r) /\ holds h' over /\
    ((r = None /\ ~ exists p x, at_path over p = Some (ADict A) /\ at_path base p = Some (Value x)) \/
     (r = Some TypeError /\ exists p x, at_path over p = Some (ADict A) /\ at_path base p = Some (Value x))).
Proof.
  intros h a b l1 l2 fuel base over Hf Hb Ho Hw Hs. subst base over. destruct (run Hf Hb Ho Hw Hs) as (h1 & r & E1 & F & O).
  exists h1, r. split; [exact E1|]. split; [apply (over_still Ho Hs F)|]. unfold outcome in O.
  pose proof (@merge_spec _ b l2 eq_refl a l1 Hw) as M.
  destruct (merge (Dict a l1) (Dict b l2)) as [m|].
  - left. split; [apply O|]. intros (p & x & C1 & C2). destruct M as (_ & M). apply (M p). split; eauto.
  - right. split; [exact O|]. destruct M as (p & C1 & x & C2). eauto.
Qed.

(** Merging what is already there changes nothing (even though after a merge base and
    override share dictionaries). *)
Lemma includes_noop over : forall b l2, over = Dict b l2 -> forall f h a l1, (depth over <= f)%nat ->
  holds h (Dict a l1) -> holds h over -> well_formed over -> (forall p x, at_path over p = Some x -> at_path (Dict a l1) p = Some x) ->
  exists h', recursive_update f h a b = (h', None) /\ forall c, h' c = h c.
Proof.
  induction over as [x|b l2 IH] using tree_ind2; intros b' l2' E f h a l1 Hf Hb Ho Hw Hi; [discriminate|]. injection E as <- <-.
  destruct f as [|f]; [cbn in Hf; lia|]. rewrite update_S. inversion Ho as [|? ? Ho1 Ho2]; subst. rewrite Ho1. fold (heads l2).
  inversion Hw as [|? ? Hk Hl]; subst.
  assert (L : forall r, incl r l2 -> forall h1, (forall c, h1 c = h c) -> exists h', loop f a h1 (heads r) = (h', None) /\ forall c, h' c = h c).
  { induction r as [|[k v] r IHr]; intros Hr h1 H1; [exists h1; auto|]. cbn [heads map fst snd]. fold (heads r). cbn [loop]. rewrite H1.
    inversion Hb as [|? ? Hb1 Hb2]; subst. rewrite Hb1, get_map.
    assert (Hin : In (k, v) l2) by (apply Hr; left; reflexivity). assert (Hr' : incl r l2) by (intros y Hy; apply Hr; right; exact Hy).
    assert (G : dict_get l2 k = Some v).
    { clear - Hin Hk. induction l2 as [|[k' v'] l IHl]; [destruct Hin|]. cbn [map fst] in Hk. inversion Hk as [|? ? K1 K2]; subst. destruct Hin as [Hin|Hin].
      - injection Hin as -> ->. apply get_cons_same.
      - rewrite get_cons_other; [apply IHl; assumption|]. intros ->. apply K1. apply (in_map fst) in Hin. exact Hin. }
    pose proof (Hi [k]) as Hik. cbn in Hik. rewrite G in Hik. destruct v as [x|d m2].
    - specialize (Hik _ eq_refl). destruct (dict_get l1 k) as [[y|c m1]|] eqn:Es; try discriminate. injection Hik as ->. cbn [head].
      rewrite set_get_id by (rewrite get_map, Es; reflexivity). apply IHr; [exact Hr'|]. intros c. unfold write.
      destruct (c =? a)%nat eqn:Ec; [apply Nat.eqb_eq in Ec; subst; symmetry; exact Hb1|apply H1].
    - specialize (Hik _ eq_refl). destruct (dict_get l1 k) as [[y|c m1]|] eqn:Es; try discriminate. cbn [head option_map].
      rewrite Forall_forall in IH, Ho2, Hl. destruct (IH _ Hin d m2 eq_refl f h1 c m1) as (h2 & E2 & F2).
      + pose proof (depth_in b Hin). cbn [snd] in *. lia.
      + apply (@frame h); [intros; apply H1|]. apply (get_Forall Hb2 Es).
      + apply (@frame h); [intros; apply H1|]. apply (Ho2 _ Hin).
      + apply (Hl _ Hin).
      + intros p x Hp. specialize (Hi (k :: p) x). cbn in Hi. rewrite G, Es in Hi. apply Hi. exact Hp.
      + rewrite E2. apply IHr; [exact Hr'|]. intros c'. rewrite F2. apply H1. }
  apply L; [apply incl_refl|reflexivity].
Qed.
Theorem C33_merging_twice_is_merging_once : forall h a b l1 l2 fuel h',
  let base := Dict a l1 in let over := Dict b l2 in
  (depth over <= fuel)%nat -> holds h base -> holds h over -> well_formed over -> NoDup (addrs base ++ addrs over) ->
  recursive_update fuel h a b = (h', None) ->
  exists h'', recursive_update fuel h' a b = (h'', None) /\ forall c, h'' c = h' c.
Proof.
  intros h a b l1 l2 fuel h' base over Hf Hb Ho Hw Hs E.
  destruct (C33_merge_by_path Hf Hb Ho Hw Hs E) as ((m & Hh & Hm & Hp) & Ho' & _). destruct m as [x|a' lm]; [discriminate|]. injection Hh as ->.
  apply (@includes_noop over b l2 eq_refl fuel h' a lm Hf Hm Ho' Hw). intros p x Hx. apply (Hp p). exact Hx.
Qed.
End C33.

(** ** What one might expect but does not hold *)
(** The merged configuration refers to dictionaries of the override: a later merge writes
    into them. *)
Theorem C33_earlier_overrides_are_left_alone_refuted :
  ~ (forall (A : Type) (h : heap A) a b c l1 l2 l3 fuel h1 h2,
      let base := Dict a l1 in let over1 := Dict b l2 in let over2 := Dict c l3 in
      (depth over1 <= fuel)%nat -> (depth over2 <= fuel)%nat -> holds h base -> holds h over1 -> holds h over2 ->
      well_formed base -> well_formed over1 -> well_formed over2 -> NoDup (addrs base ++ addrs over1 ++ addrs over2) ->
      recursive_update fuel h a b = (h1, None) -> recursive_update fuel h1 a c = (h2, None) -> holds h2 over1).
Proof.
  intros H.
  set (k := lit "model"). set (d := lit "dim").
  set (h := fun n : nat => match n with
    | 0 => Some [] | 1 => Some [(k, HRef Z 2)] | 2 => Some [(d, HLeaf 64%Z)]
    | 3 => Some [(k, HRef Z 4)] | 4 => Some [(d, HLeaf 128%Z)] | _ => None end%nat).
  set (o1 := [(k, Dict 2 [(d, Leaf 64)])]). set (o2 := [(k, Dict 4 [(d, Leaf 128)])]).
  destruct (recursive_update 3 h 0 1) as [h1 r1] eqn:E1. destruct (recursive_update 3 h1 0 3) as [h2 r2] eqn:E2.
  assert (R1 : r1 = None) by (vm_compute in E1; injection E1 as _ <-; reflexivity). subst r1.
  assert (R2 : r2 = None) by (vm_compute in E1; injection E1 as <-; vm_compute in E2; injection E2 as _ <-; reflexivity). subst r2.
  specialize (H Z h 0%nat 1%nat 3%nat [] o1 o2 3%nat h1 h2). cbv zeta in H.
  assert (X : holds h2 (Dict 1 o1)).
  { apply H; try exact E1; try exact E2; try (cbn; lia); repeat (constructor; cbn; try tauto); cbn; try lia; intuition discriminate. }
  inversion X as [|? ? _ X2]; subst. unfold o1 in X2. inversion X2 as [|? ? X3 _]; subst. cbn [snd] in X3. inversion X3 as [|? ? X4 _]; subst.
  vm_compute in E1. injection E1 as <-. vm_compute in E2. injection E2 as <-. vm_compute in X4. discriminate.
Qed.
(** A merge that raises may already have changed the base. *)
Theorem C33_a_failed_merge_changes_nothing_refuted :
  ~ (forall (A : Type) (h : heap A) a b l1 l2 fuel h' e,
      let base := Dict a l1 in let over := Dict b l2 in
      (depth over <= fuel)%nat -> holds h base -> holds h over -> well_formed base -> well_formed over -> NoDup (addrs base ++ addrs over) ->
      recursive_update fuel h a b = (h', Some e) -> holds h' base).
Proof.
  intros H.
  set (k := lit "lr"). set (d := lit "model").
  set (h := fun n : nat => match n with
    | 0 => Some [(k, HLeaf 1%Z); (d, HLeaf 2%Z)] | 1 => Some [(k, HLeaf 5%Z); (d, HRef Z 2)] | 2 => Some [] | _ => None end%nat).
  destruct (recursive_update 3 h 0 1) as [h1 r1] eqn:E1.
  assert (R1 : r1 = Some TypeError) by (vm_compute in E1; injection E1 as _ <-; reflexivity). subst r1.
  specialize (H Z h 0%nat 1%nat [(k, Leaf 1); (d, Leaf 2)] [(k, Leaf 5); (d, Dict 2 [])] 3%nat h1 TypeError). cbv zeta in H.
  assert (X : holds h1 (Dict 0 [(k, Leaf 1); (d, Leaf 2)])).
  { apply H; try exact E1; try (cbn; lia); repeat (constructor; cbn; try tauto); cbn; try lia; intuition discriminate. }
  inversion X as [|? ? X4 _]; subst. vm_compute in E1. injection E1 as <-. vm_compute in X4. discriminate.
Qed.

(** ** A concrete merge: {model: {dim: 64, act: 1}, lr: 3} with {model: {dim: 128}, seed: {n: 7}} *)
Module Ex.
Definition k1 := lit "model". Definition k2 := lit "dim". Definition k3 := lit "act". Definition k4 := lit "lr". Definition k5 := lit "seed". Definition k6 := lit "n".
Definition base := Dict 0 [(k1, Dict 1 [(k2, Leaf 64); (k3, Leaf 1)]); (k4, Leaf 3)].
Definition over := Dict 2 [(k1, Dict 3 [(k2, Leaf 128)]); (k5, Dict 4 [(k6, Leaf 7)])].
Definition h : heap Z := fun n => match n with
  | 0 => Some [(k1, HRef Z 1); (k4, HLeaf 3%Z)] | 1 => Some [(k2, HLeaf 64%Z); (k3, HLeaf 1%Z)]
  | 2 => Some [(k1, HRef Z 3); (k5, HRef Z 4)] | 3 => Some [(k2, HLeaf 128%Z)] | 4 => Some [(k6, HLeaf 7%Z)] | _ => None end%nat.
Example hypotheses : (depth over <= 5)%nat /\ holds h base /\ holds h over /\ well_formed over /\ NoDup (addrs base ++ addrs over).
Proof. split; [cbn; lia|]. unfold base, over. split; [|split; [|split]]; repeat (constructor; cbn; try tauto); cbn; try lia; intuition discriminate. Qed.
Example result : exists h', recursive_update 5 h 0 2 = (h', None) /\
  holds h' (Dict 0 [(k1, Dict 1 [(k2, Leaf 128); (k3, Leaf 1)]); (k4, Leaf 3); (k5, Dict 4 [(k6, Leaf 7)])]).
Proof. eexists. split; [vm_compute; reflexivity|]. repeat (constructor; try (vm_compute; reflexivity)). Qed.
End Ex.
