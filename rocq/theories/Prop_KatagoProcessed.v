(** C63: processed_katago_numpy and its iterative variant give the same rows. *)
From Verif Require Import Base BaseFacts Decoder DecoderFacts Katago KatagoSpec KatagoFacts.
Set Implicit Arguments. Unset Strict Implicit.

Section Claim.
Variables B G V P : Type.
Variables (bshape : B -> list Z) (gshape : G -> list Z) (vshape : V -> list Z) (pshape : P -> list Z).
Variable spatial : list Z -> Z * Z.
Variable side_is : Z -> G -> bool.
Variable opt : poptions B G V P.
Notation table := (table B G V P).
Notation archive := (archive B G V P).
Notation prow := (prow B G V P).
Notation size_of := (fun b : B => spatial (bshape b)).
Notation consistent := (consistent (G := G) (V := V) (P := P) size_of).
Notation map_tables := (map_tables bshape gshape vshape pshape spatial opt).
Notation map_dataset := (map_dataset bshape gshape vshape pshape spatial side_is opt).
Notation load_archive := (load_archive side_is opt).
Notation wanted_row := (wanted_row side_is opt).
Notation chan := (channel_row opt).

(** ** One file *)
Lemma side_mask s t rs g : rep t rs -> t_gf t = Some g ->
  map (side_is s) g = map (fun r : prow => match row_g r with Some x => side_is s x | None => false end) rs.
Proof.
  intros (_ & _ & Hg & _) E. rewrite E in Hg. cbn in Hg. revert g Hg E. induction rs as [|r rs IH]; intros [|x g] Hg _; cbn in *; try discriminate; [reflexivity|]. injection Hg as Hr Hg. rewrite Hr. f_equal.
  revert Hg. clear. revert g. induction rs as [|r rs IH]; intros [|x g] Hg; cbn in *; try discriminate; [reflexivity|]. injection Hg as Hr Hg. rewrite Hr. f_equal. apply IH. exact Hg.
Qed.
Lemma filter_same A (p q : A -> bool) l : (forall a, p a = q a) -> filter p l = filter q l.
Proof. intros H. apply filter_ext. exact H. Qed.
Lemma filter_yes A (p : A -> bool) l : (forall a, p a = true) -> filter p l = l.
Proof. intros H. induction l as [|a l IH]; [reflexivity|]. cbn. rewrite H, IH. reflexivity. Qed.

Lemma loaded_rows keep f t : rowwise opt keep -> load_archive f = Ok t ->
  exists rs, file_rows f = Ok rs /\ rs <> []
  /\ if wanted_file opt f then exists out, mapM chan (filter (wanted_row keep) rs) = Ok out /\ rows_of t = Ok out else rows_of t = Ok [].
Proof.
  intros Hk H. unfold Katago.load_archive in H. destruct (a_bf f) as [bf|] eqn:Eb; [|discriminate]. destruct (a_vt f) as [vt|] eqn:Ev; [|discriminate].
  apply guard_Ok in H. destruct H as (Hn & H). apply guard_Ok in H. destruct H as (Hl & H). apply Bool.andb_true_iff in Hl. destruct Hl as (Hl & Lp). apply Bool.andb_true_iff in Hl. destruct Hl as (Lv & Lg).
  set (raw := {| t_size := a_size f; t_bf := bf; t_gf := a_gf f; t_vt := vt; t_pt := a_pt f |}) in *.
  destruct (rep_exists (t := raw)) as (rs & R & Lr).
  { cbn. apply Nat.eqb_eq. exact Lv. } { cbn. destruct (a_gf f); cbn; [apply Nat.eqb_eq; exact Lg|exact I]. } { cbn. destruct (a_pt f); cbn; [apply Nat.eqb_eq; exact Lp|exact I]. }
  cbn [t_bf] in Lr. exists rs. split; [unfold file_rows; rewrite Eb, Ev; apply rep_rows; exact R|]. split; [intros ->; cbn in Lr; destruct bf; [discriminate Hn|discriminate Lr]|].
  unfold wanted_file. destruct (p_boardsizes opt (a_size f)); cbn [negb] in H.
  2:{ injection H as <-. unfold rows_of. reflexivity. }
  apply bind_Ok in H. destruct H as (mask & Hm & H). apply bind_Ok in H. destruct H as (mask' & Hm' & H). apply bind_Ok in H. destruct H as (t1 & Ht & H).
  assert (X : rep t1 (filter (wanted_row keep) rs)).
  { unfold rowwise in Hk. unfold KatagoSpec.wanted_row. destruct (p_filter_stm opt) as [s|].
    - destruct (t_gf raw) as [g|] eqn:Eg; [|discriminate]. injection Hm as <-. rewrite (side_mask s R Eg) in Hm'. destruct (p_condition opt) as [c|].
      + rewrite (Hk _ _ (rep_rows R)) in Hm'. cbn [bind] in Hm'. injection Hm' as <-. rewrite mask_and in Ht.
        destruct (rep_select (fun r => match row_g r with Some x => side_is s x | None => false end && keep r) R) as (t2 & E & R2 & _). rewrite E in Ht. injection Ht as <-. exact R2.
      + injection Hm' as <-. destruct (rep_select (fun r => match row_g r with Some x => side_is s x | None => false end) R) as (t2 & E & R2 & _). rewrite E in Ht. injection Ht as <-.
        rewrite (filter_same (q := fun r => match row_g r with Some x => side_is s x | None => false end)); [exact R2|]. intros r. rewrite Hk. apply Bool.andb_true_r.
    - injection Hm as <-. destruct (p_condition opt) as [c|].
      + rewrite (Hk _ _ (rep_rows R)) in Hm'. cbn [bind] in Hm'. injection Hm' as <-. destruct (rep_select keep R) as (t2 & E & R2 & _). rewrite E in Ht. injection Ht as <-. exact R2.
      + injection Hm' as <-. injection Ht as <-. rewrite filter_yes; [exact R|]. intros r. rewrite Hk. reflexivity. }
  destruct (channels_rep X H) as (out & E & R'). exists out. split; [exact E|apply rep_rows; exact R'].
Qed.

(** ** All files at once *)
Lemma concat_nonempty A (ls : list (list A)) : ls <> [] -> forallb (@nonempty A) ls = true -> List.concat ls <> [].
Proof. destruct ls as [|[|a l] r]; intros H E; [congruence|discriminate|discriminate]. Qed.
Lemma collected_spec A (shape : A -> list Z) ls o : collected shape ls = Ok o ->
  forallb (@nonempty A) ls = true /\ match o with None => ls = [] | Some l => ls <> [] /\ l = List.concat ls /\ forall a b, List.In a l -> List.In b l -> shape a = shape b end.
Proof.
  intros H. unfold collected in H. apply guard_Ok in H. destruct H as (Hn & H). split; [exact Hn|]. destruct ls as [|l0 r]; [injection H as <-; reflexivity|]. apply bind_Ok in H. destruct H as (l & Hl & H). injection H as <-.
  split; [discriminate|]. unfold concatenate in Hl. destruct (List.concat (l0 :: r)) as [|a q] eqn:E; [injection Hl as <-; split; [reflexivity|intros a b []]|].
  apply guard_Ok in Hl. destruct Hl as (Hf & Hl). injection Hl as <-. split; [reflexivity|]. rewrite forallb_forall in Hf.
  assert (Y : forall x, List.In x (a :: q) -> shape x = shape a). { intros x [->|Hx]; [reflexivity|]. specialize (Hf x Hx). unfold zl_eqb in Hf. destruct (list_eq_dec Z.eq_dec (shape x) (shape a)); [assumption|discriminate]. }
  intros x y Hx Hy. rewrite (Y x Hx), (Y y Hy). reflexivity.
Qed.
Definition count A (get : archive -> option (list A)) (fs : list archive) : nat := List.length (List.concat (present get fs)).
Lemma count_le A C (get : archive -> option (list A)) (bf : archive -> option (list C)) fs :
  (forall f, List.In f fs -> exists b, bf f = Some b) -> (forall f b l, List.In f fs -> bf f = Some b -> get f = Some l -> List.length l = List.length b) ->
  (count get fs <= count bf fs)%nat.
Proof.
  intros Hb H. unfold count, present. induction fs as [|f fs IH]; [reflexivity|]. cbn [flat_map]. rewrite !concat_app, !app_length. specialize (IH (fun f Hf => Hb f (or_intror Hf)) (fun f b l Hf => H f b l (or_intror Hf))).
  destruct (Hb f (or_introl eq_refl)) as (b & Eb). rewrite Eb. destruct (get f) as [l|] eqn:El; cbn [List.concat]; rewrite ?app_nil_r; [rewrite (H f b l (or_introl eq_refl) Eb El)|cbn [List.length]]; lia.
Qed.
Lemma count_all A C (get : archive -> option (list A)) (bf : archive -> option (list C)) fs :
  (forall f, List.In f fs -> exists b, bf f = Some b) -> (forall f b l, List.In f fs -> bf f = Some b -> get f = Some l -> List.length l = List.length b) ->
  (forall f b, List.In f fs -> bf f = Some b -> b <> []) -> count get fs = count bf fs -> forall f, List.In f fs -> exists l, get f = Some l.
Proof.
  intros Hb H Hne E. induction fs as [|f fs IH]; [intros f []|].
  assert (L : (count get fs <= count bf fs)%nat) by (apply count_le; [intros g Hg; apply Hb; right; exact Hg|intros g b l Hg; apply H; right; exact Hg]).
  assert (X : (exists l, get f = Some l) /\ count get fs = count bf fs).
  { unfold count, present in E, L |- *. cbn [flat_map] in E. rewrite !concat_app, !app_length in E. destruct (Hb f (or_introl eq_refl)) as (b & Eb). rewrite Eb in E. pose proof (Hne f b (or_introl eq_refl) Eb) as Nb. assert (Nl : List.length b <> 0%nat) by (destruct b; [congruence|discriminate]).
    destruct (get f) as [l|] eqn:El; cbn [List.concat] in E; rewrite ?app_nil_r in E; cbn [List.length] in E; [rewrite (H f b l (or_introl eq_refl) Eb El) in E; split; [eexists; reflexivity|lia]|lia]. }
  destruct X as (X & Y). intros g [<-|Hg]; [exact X|]. apply IH; [intros h Hh; apply Hb; right; exact Hh|intros h b l Hh; apply H; right; exact Hh|intros h b Hh; apply Hne; right; exact Hh|exact Y|exact Hg].
Qed.

Definition whole (f : archive) (bf : list B) (vt : list V) : table := {| t_size := a_size f; t_bf := bf; t_gf := a_gf f; t_vt := vt; t_pt := a_pt f |}.
(** The files in [fs] have the rows [rss]. *)
Definition shown (f : archive) (rs : list prow) : Prop := exists bf vt, a_bf f = Some bf /\ a_vt f = Some vt /\ rep (whole f bf vt) rs.
Lemma shown_rows fs rss : Forall2 shown fs rss -> mapM (@file_rows B G V P) fs = Ok rss.
Proof.
  intros H. induction H as [|f rs fs rss (bf & vt & Eb & Ev & R) _ IH]; [reflexivity|]. cbn [mapM]. unfold file_rows at 1. rewrite Eb, Ev. pose proof (rep_rows R) as E; unfold whole in E; rewrite E. cbn [bind]. rewrite IH. reflexivity.
Qed.
Lemma shown_bf fs rss : Forall2 shown fs rss -> List.concat (present (@a_bf _ _ _ _) fs) = map (@row_b _ _ _ _) (List.concat rss).
Proof.
  intros H. induction H as [|f rs fs rss (bf & vt & Eb & Ev & R) _ IH]; [reflexivity|]. unfold present in *. cbn [flat_map List.concat]. rewrite concat_app, map_app, IH, Eb. cbn [List.concat]. rewrite app_nil_r. destruct R as (R & _). cbn in R. rewrite R. reflexivity.
Qed.
Lemma shown_vt fs rss : Forall2 shown fs rss -> List.concat (present (@a_vt _ _ _ _) fs) = map (@row_v _ _ _ _) (List.concat rss).
Proof.
  intros H. induction H as [|f rs fs rss (bf & vt & Eb & Ev & R) _ IH]; [reflexivity|]. unfold present in *. cbn [flat_map List.concat]. rewrite concat_app, map_app, IH, Ev. cbn [List.concat]. rewrite app_nil_r. destruct R as (_ & R & _). cbn in R. rewrite R. reflexivity.
Qed.
Lemma shown_opt A (get : archive -> option (list A)) (h : prow -> option A) fs rss :
  (forall f rs, shown f rs -> ocol (get f) (map h rs)) -> Forall2 shown fs rss ->
  ((forall f, List.In f fs -> get f = None) -> Forall (fun x => x = None) (map h (List.concat rss)))
  /\ ((forall f, List.In f fs -> exists l, get f = Some l) -> map h (List.concat rss) = map Some (List.concat (present get fs))).
Proof.
  intros X H. induction H as [|f rs fs rss Sh _ IH]; [split; [constructor|reflexivity]|]. destruct IH as (I1 & I2). specialize (X f rs Sh). unfold present in *. cbn [flat_map List.concat]. rewrite map_app. split; intros Hf.
  - apply Forall_app. split; [rewrite (Hf f (or_introl eq_refl)) in X; exact X|]. apply I1. intros g Hg. apply Hf. right. exact Hg.
  - destruct (Hf f (or_introl eq_refl)) as (l & El). rewrite El in *. rewrite concat_app, map_app, I2 by (intros g Hg; apply Hf; right; exact Hg). cbn [List.concat]. rewrite app_nil_r. cbn in X. rewrite X. reflexivity.
Qed.
Lemma shown_gf f rs : shown f rs -> ocol (a_gf f) (map (@row_g _ _ _ _) rs).
Proof. intros (bf & vt & _ & _ & _ & _ & R & _). exact R. Qed.
Lemma shown_pt f rs : shown f rs -> ocol (a_pt f) (map (@row_p _ _ _ _) rs).
Proof. intros (bf & vt & _ & _ & _ & _ & _ & R & _). exact R. Qed.
Lemma show f : consistent f -> a_bf f <> None -> a_vt f <> None -> exists rs, shown f rs.
Proof.
  intros C Nb Nv. destruct (a_bf f) as [bf|] eqn:Eb; [|congruence]. destruct (a_vt f) as [vt|] eqn:Ev; [|congruence]. destruct (C bf Eb) as (Cg & Cv & Cp & _).
  destruct (rep_exists (t := whole f bf vt)) as (rs & R & _); cbn.
  - apply Cv. exact Ev. - destruct (a_gf f); cbn; [apply Cg; reflexivity|exact I]. - destruct (a_pt f); cbn; [apply Cp; reflexivity|exact I].
  - exists rs, bf, vt. split; [exact Eb|]. split; [exact Ev|exact R].
Qed.
Lemma show_all fs : (forall f, List.In f fs -> consistent f /\ a_bf f <> None /\ a_vt f <> None) -> exists rss, Forall2 shown fs rss.
Proof.
  induction fs as [|f fs IH]; intros H; [exists []; constructor|]. destruct (H f (or_introl eq_refl)) as (C & Nb & Nv). destruct (show C Nb Nv) as (rs & R). destruct IH as (rss & Rs); [intros g Hg; apply H; right; exact Hg|]. exists (rs :: rss). constructor; assumption.
Qed.
Lemma shown_size fs rss r : Forall2 shown fs rss -> (forall f, List.In f fs -> consistent f) -> List.In r (List.concat rss) -> row_size r = size_of (row_b r).
Proof.
  intros H. induction H as [|f rs fs rss (bf & vt & Eb & Ev & R) _ IH]; intros C Hr; [destruct Hr|]. cbn [List.concat] in Hr. apply in_app_iff in Hr. destruct Hr as [Hr|Hr]; [|apply IH; [intros g Hg; apply C; right; exact Hg|exact Hr]].
  destruct R as (Rb & _ & _ & _ & Rs). cbn in Rb, Rs. rewrite Forall_forall in Rs. rewrite (Rs r Hr). destruct (C f (or_introl eq_refl) bf Eb) as (_ & _ & _ & Cs). rewrite Forall_forall in Cs. symmetry. apply Cs. rewrite Rb. apply in_map. exact Hr.
Qed.
Lemma tables_rep files T : map_tables files = Ok T -> (forall f, List.In f files -> consistent f) ->
  exists rss, Forall2 shown (filter (wanted_file opt) files) rss /\ rep T (List.concat rss).
Proof.
  intros H C. unfold Katago.map_tables in H. apply guard_Ok in H. destruct H as (Hbf & H). change (fun f : archive => p_boardsizes opt (a_size f)) with (wanted_file opt) in H. set (fs := filter (wanted_file opt) files) in *.
  apply bind_Ok in H. destruct H as (ob & Hb & H). apply bind_Ok in H. destruct H as (og & Hg & H). apply bind_Ok in H. destruct H as (ov & Hv & H). apply bind_Ok in H. destruct H as (op & Hp & H).
  destruct ob as [bf|]; [|discriminate]. destruct ov as [vt|]; [|discriminate]. apply guard_Ok in H. destruct H as (Hn & H). apply guard_Ok in H. destruct H as (Hl & H). injection H as <-.
  apply Bool.andb_true_iff in Hl. destruct Hl as (Hl & Lp). apply Bool.andb_true_iff in Hl. destruct Hl as (Lv & Lg).
  apply collected_spec in Hb. destruct Hb as (Nb & _ & Eb & Sb). apply collected_spec in Hv. destruct Hv as (_ & _ & Ev & _). apply collected_spec in Hg. destruct Hg as (_ & Eg). apply collected_spec in Hp. destruct Hp as (_ & Ep).
  assert (In_files : forall f, List.In f fs -> List.In f files) by (intros f Hf; unfold fs in Hf; apply filter_In in Hf; tauto).
  assert (Xb : forall f, List.In f fs -> exists b, a_bf f = Some b). { intros f Hf. rewrite forallb_forall in Hbf. specialize (Hbf f (In_files f Hf)). destruct (a_bf f); [eexists; reflexivity|discriminate]. }
  assert (Xn : forall f b, List.In f fs -> a_bf f = Some b -> b <> []).
  { intros f b Hf E N. rewrite forallb_forall in Nb. specialize (Nb b). unfold present in Nb. rewrite List.in_flat_map in Nb. assert (Y : nonempty b = true). { apply Nb. exists f. split; [exact Hf|]. rewrite E. left. reflexivity. } subst b. discriminate. }
  assert (Cf : forall f, List.In f fs -> consistent f) by (intros f Hf; apply C, In_files, Hf).
  assert (Av : forall f, List.In f fs -> exists l, a_vt f = Some l).
  { apply (count_all (bf := @a_bf _ _ _ _)); [exact Xb| |exact Xn|unfold count; rewrite <- Ev, <- Eb; apply Nat.eqb_eq; exact Lv]. intros f b l Hf E1 E2. destruct (Cf f Hf b E1) as (_ & Y & _). apply Y. exact E2. }
  destruct (show_all (fs := fs)) as (rss & Sh).
  { intros f Hf. split; [apply Cf; exact Hf|]. destruct (Xb f Hf) as (b & ->). destruct (Av f Hf) as (v & ->). split; discriminate. }
  exists rss. split; [exact Sh|]. unfold rep. cbn [t_bf t_vt t_gf t_pt t_size]. split; [rewrite Eb; apply shown_bf; exact Sh|]. split; [rewrite Ev; apply shown_vt; exact Sh|].
  split; [|split].
  - destruct (shown_opt (@shown_gf) Sh) as (O1 & O2). destruct og as [lg|]; cbn.
    + destruct Eg as (_ & Eg & _). rewrite O2; [rewrite Eg; reflexivity|]. apply (count_all (bf := @a_bf _ _ _ _)); [exact Xb| |exact Xn|unfold count; rewrite <- Eg, <- Eb; apply Nat.eqb_eq; exact Lg]. intros f b l Hf E1 E2. destruct (Cf f Hf b E1) as (Y & _). apply Y. exact E2.
    + apply O1. intros f Hf. destruct (a_gf f) as [l|] eqn:E; [|reflexivity]. exfalso. assert (Y : List.In l (present (@a_gf _ _ _ _) fs)) by (unfold present; apply List.in_flat_map; exists f; split; [exact Hf|rewrite E; left; reflexivity]). rewrite Eg in Y. destruct Y.
  - destruct (shown_opt (@shown_pt) Sh) as (O1 & O2). destruct op as [lg|]; cbn.
    + destruct Ep as (_ & Ep & _). rewrite O2; [rewrite Ep; reflexivity|]. apply (count_all (bf := @a_bf _ _ _ _)); [exact Xb| |exact Xn|unfold count; rewrite <- Ep, <- Eb; apply Nat.eqb_eq; exact Lp]. intros f b l Hf E1 E2. destruct (Cf f Hf b E1) as (_ & _ & Y & _). apply Y. exact E2.
    + apply O1. intros f Hf. destruct (a_pt f) as [l|] eqn:E; [|reflexivity]. exfalso. assert (Y : List.In l (present (@a_pt _ _ _ _) fs)) by (unfold present; apply List.in_flat_map; exists f; split; [exact Hf|rewrite E; left; reflexivity]). rewrite Ep in Y. destruct Y.
  - apply Forall_forall. intros r Hr. rewrite (shown_size Sh Cf Hr). assert (Ir : List.In (row_b r) bf) by (rewrite Eb, (shown_bf Sh); apply in_map; exact Hr). destruct bf as [|b0 q]; [destruct Ir|]. cbn. f_equal. apply Sb; [exact Ir|left; reflexivity].
Qed.

(** ** C63 *)
(** The iterative variant: from each file, its wanted rows. *)
Theorem C63_a_file_gives_its_wanted_rows : forall keep f t, rowwise opt keep -> load_archive f = Ok t ->
  exists rs, file_rows f = Ok rs /\ rs <> []
  /\ if wanted_file opt f then exists out, mapM chan (filter (wanted_row keep) rs) = Ok out /\ rows_of t = Ok out else rows_of t = Ok [].
Proof. exact loaded_rows. Qed.
(** The map-style variant: the wanted rows of all files, one file after the other. *)
Theorem C63_the_dataset_has_the_wanted_rows_of_its_files : forall keep files t, rowwise opt keep -> Forall consistent files -> map_dataset files = Ok t ->
  exists rss out, mapM (@file_rows B G V P) (filter (wanted_file opt) files) = Ok rss
  /\ mapM chan (filter (wanted_row keep) (List.concat rss)) = Ok out /\ rows_of t = Ok out.
Proof.
  intros keep files t Hk C H. unfold Katago.map_dataset in H. apply bind_Ok in H. destruct H as (T & HT & H). rewrite Forall_forall in C. destruct (tables_rep HT C) as (rss & Sh & R). exists rss.
  apply bind_Ok in H. destruct H as (t1 & H1 & H). apply bind_Ok in H. destruct H as (t2 & H2 & H).
  assert (X : rep t2 (filter (wanted_row keep) (List.concat rss))).
  { unfold rowwise in Hk. unfold KatagoSpec.wanted_row. destruct (p_filter_stm opt) as [s|].
    - destruct (t_gf T) as [g|] eqn:Eg; [|discriminate]. rewrite (side_mask s R Eg) in H1. destruct (rep_select (fun r => match row_g r with Some x => side_is s x | None => false end) R) as (u & E & R1 & _). rewrite E in H1. injection H1 as <-.
      destruct (p_condition opt) as [c|].
      + rewrite (Hk _ _ (rep_rows R1)) in H2. cbn [bind] in H2. destruct (rep_select keep R1) as (u2 & E2 & R2 & _). rewrite E2 in H2. injection H2 as <-. rewrite filter_and in R2. exact R2.
      + injection H2 as <-. rewrite (filter_same (q := fun r => match row_g r with Some x => side_is s x | None => false end)); [exact R1|]. intros r. rewrite Hk. apply Bool.andb_true_r.
    - injection H1 as <-. destruct (p_condition opt) as [c|].
      + rewrite (Hk _ _ (rep_rows R)) in H2. cbn [bind] in H2. destruct (rep_select keep R) as (u2 & E2 & R2 & _). rewrite E2 in H2. injection H2 as <-. exact R2.
      + injection H2 as <-. rewrite filter_yes; [exact R|]. intros r. rewrite Hk. reflexivity. }
  destruct (channels_rep X H) as (out & E & R'). exists out. split; [apply shown_rows; exact Sh|]. split; [exact E|apply rep_rows; exact R'].
Qed.
Lemma load_consistent f t : load_archive f = Ok t -> (forall bf, a_bf f = Some bf -> Forall (fun b => size_of b = a_size f) bf) -> consistent f.
Proof.
  intros H C. unfold Katago.load_archive in H. destruct (a_bf f) as [bf|] eqn:Eb; [|discriminate]. destruct (a_vt f) as [vt|] eqn:Ev; [|discriminate].
  apply guard_Ok in H. destruct H as (Hn & H). apply guard_Ok in H. destruct H as (Hl & H). apply Bool.andb_true_iff in Hl. destruct Hl as (Hl & Lp). apply Bool.andb_true_iff in Hl. destruct Hl as (Lv & Lg).
  intros bf' E. rewrite Eb in E. injection E as <-. split; [intros l E; rewrite E in Lg; apply Nat.eqb_eq; exact Lg|]. split; [intros l E; rewrite Ev in E; injection E as <-; apply Nat.eqb_eq; exact Lv|].
  split; [intros l E; rewrite E in Lp; apply Nat.eqb_eq; exact Lp|]. apply C. reflexivity.
Qed.
Lemma loaded_all keep files ts : rowwise opt keep -> mapM load_archive files = Ok ts ->
  exists rss outs, mapM (@file_rows B G V P) (filter (wanted_file opt) files) = Ok rss /\ mapM (@rows_of B G V P) ts = Ok outs
  /\ mapM chan (filter (wanted_row keep) (List.concat rss)) = Ok (List.concat outs).
Proof.
  intros Hk. revert ts. induction files as [|f files IH]; intros ts H; cbn [mapM] in H; [injection H as <-; exists [], []; repeat split; reflexivity|].
  apply bind_Ok in H. destruct H as (t & Ht & H). apply bind_Ok in H. destruct H as (r & Hr & H). injection H as <-. destruct (IH r Hr) as (rss & outs & A1 & A2 & A3). destruct (loaded_rows Hk Ht) as (rs & E1 & _ & E2). cbn [filter mapM]. destruct (wanted_file opt f).
  - destruct E2 as (out & E2 & E3). exists (rs :: rss), (out :: outs). cbn [mapM]. rewrite E1, E3. cbn [bind]. rewrite A1, A2. cbn [bind List.concat]. split; [reflexivity|]. split; [reflexivity|].
    rewrite filter_app, mapM_app, E2. cbn [bind]. rewrite A3. reflexivity.
  - exists rss, ([] :: outs). rewrite E2. cbn [bind]. rewrite A2. split; [exact A1|]. split; [reflexivity|exact A3].
Qed.
(** So the two variants give the same rows in the same order, whenever both accept the files. *)
Theorem C63_map_and_iterative_agree : forall keep files t ts, rowwise opt keep ->
  (forall f bf, List.In f files -> a_bf f = Some bf -> Forall (fun b => size_of b = a_size f) bf) ->
  map_dataset files = Ok t -> mapM load_archive files = Ok ts ->
  exists outs, mapM (@rows_of B G V P) ts = Ok outs /\ rows_of t = Ok (List.concat outs).
Proof.
  intros keep files t ts Hk C H Hl. destruct (loaded_all Hk Hl) as (rss & outs & A1 & A2 & A3). exists outs. split; [exact A2|].
  destruct (C63_the_dataset_has_the_wanted_rows_of_its_files Hk (files := files) (t := t)) as (rss' & out & B1 & B2 & B3); [|exact H|].
  - apply Forall_forall. intros f Hf. assert (L : exists u, load_archive f = Ok u) by (apply In_nth_error in Hf; destruct Hf as (i & Hi); destruct (mapM_nth Hl Hi) as (u & U & _); exists u; exact U). destruct L as (u & L). eapply load_consistent; [exact L|]. intros bf E. eapply C; eassumption.
  - rewrite A1 in B1. injection B1 as <-. rewrite A3 in B2. injection B2 as <-. exact B3.
Qed.

(** Which files the map-style variant accepts: those the other accepts, if a file is wanted, and the wanted files agree on the
    arrays they have and on the shapes of these. *)
Definition uniform A (shape : A -> list Z) (get : archive -> option (list A)) (fs : list archive) : Prop :=
  ((forall f, List.In f fs -> get f = None) \/ (forall f, List.In f fs -> get f <> None))
  /\ forall f h l m a b, List.In f fs -> List.In h fs -> get f = Some l -> get h = Some m -> List.In a l -> List.In b m -> shape a = shape b.
Lemma collected_ok A (shape : A -> list Z) get fs : uniform shape get fs -> (forall f l, List.In f fs -> get f = Some l -> l <> []) ->
  exists o, collected shape (present get fs) = Ok o /\ match o with None => forall f, List.In f fs -> get f = None | Some l => l = List.concat (present get fs) /\ exists f, List.In f fs /\ get f <> None end.
Proof.
  intros (_ & U) N. unfold collected.
  assert (Np : forallb (@nonempty A) (present get fs) = true).
  { apply forallb_forall. intros l Hl. unfold present in Hl. apply List.in_flat_map in Hl. destruct Hl as (f & Hf & Hl). destruct (get f) as [m|] eqn:E; [|destruct Hl]. destruct Hl as [->|[]]. specialize (N f l Hf E). destruct l; [congruence|reflexivity]. }
  rewrite Np. destruct (present get fs) as [|l0 r] eqn:Ep.
  - exists None. split; [reflexivity|]. intros f Hf. destruct (get f) as [l|] eqn:E; [|reflexivity]. exfalso. assert (Y : List.In l (present get fs)) by (unfold present; apply List.in_flat_map; exists f; split; [exact Hf|rewrite E; left; reflexivity]). rewrite Ep in Y. destruct Y.
  - assert (Cc : concatenate shape (l0 :: r) = Ok (List.concat (l0 :: r))).
    { unfold concatenate. assert (Y : forall a b, List.In a (List.concat (l0 :: r)) -> List.In b (List.concat (l0 :: r)) -> shape a = shape b).
      { rewrite <- Ep. intros a b Ha Hb. apply in_concat in Ha. destruct Ha as (l & Hl & Ha). apply in_concat in Hb. destruct Hb as (m & Hm & Hb). unfold present in Hl, Hm. apply List.in_flat_map in Hl. apply List.in_flat_map in Hm. destruct Hl as (f & Hf & Hl). destruct Hm as (h & Hh & Hm).
        destruct (get f) as [l'|] eqn:E1; [|destruct Hl]. destruct (get h) as [m'|] eqn:E2; [|destruct Hm]. destruct Hl as [->|[]]. destruct Hm as [->|[]]. eapply U; [exact Hf|exact Hh|exact E1|exact E2|exact Ha|exact Hb]. }
      destruct (List.concat (l0 :: r)) as [|a q]; [reflexivity|]. replace (forallb (fun b => zl_eqb (shape b) (shape a)) q) with true; [reflexivity|]. symmetry. apply forallb_forall. intros b Hb. unfold zl_eqb. destruct (list_eq_dec Z.eq_dec (shape b) (shape a)) as [_|n]; [reflexivity|]. destruct n. apply Y; [right; exact Hb|left; reflexivity]. }
    rewrite Cc. cbn [bind]. eexists. split; [reflexivity|]. split; [reflexivity|]. assert (Y : List.In l0 (present get fs)) by (rewrite Ep; left; reflexivity). unfold present in Y. apply List.in_flat_map in Y. destruct Y as (f & Hf & Hl). exists f. split; [exact Hf|]. destruct (get f); [discriminate|destruct Hl].
Qed.
Lemma present_len A (get : archive -> option (list A)) fs : (forall f, List.In f fs -> get f <> None) -> (forall f bf l, List.In f fs -> a_bf f = Some bf -> get f = Some l -> List.length l = List.length bf) ->
  (forall f, List.In f fs -> a_bf f <> None) -> List.length (List.concat (present get fs)) = List.length (List.concat (present (@a_bf _ _ _ _) fs)).
Proof.
  intros H L Hb. unfold present. induction fs as [|f fs IH]; [reflexivity|]. cbn [flat_map]. rewrite !concat_app, !app_length, IH; [|intros g Hg; apply H; right; exact Hg|intros g b l Hg; apply L; right; exact Hg|intros g Hg; apply Hb; right; exact Hg].
  f_equal. destruct (get f) as [l|] eqn:E; [|destruct (H f (or_introl eq_refl)); exact E]. destruct (a_bf f) as [b|] eqn:Eb; [|destruct (Hb f (or_introl eq_refl)); exact Eb]. cbn [List.concat]. rewrite !app_nil_r. apply (L f); [left; reflexivity|exact Eb|exact E].
Qed.
Theorem C63_what_the_iterative_variant_accepts_the_map_variant_accepts : forall keep files ts, rowwise opt keep ->
  (forall f bf, List.In f files -> a_bf f = Some bf -> Forall (fun b => size_of b = a_size f) bf) ->
  mapM load_archive files = Ok ts ->
  let fs := filter (wanted_file opt) files in
  fs <> [] -> uniform bshape (@a_bf _ _ _ _) fs -> uniform gshape (@a_gf _ _ _ _) fs -> uniform vshape (@a_vt _ _ _ _) fs -> uniform pshape (@a_pt _ _ _ _) fs ->
  exists t, map_dataset files = Ok t.
Proof.
  intros keep files ts Hk C Hl fs Hne Ub Ug Uv Up.
  assert (L : forall f, List.In f files -> exists u, load_archive f = Ok u) by (intros f Hf; apply In_nth_error in Hf; destruct Hf as (i & Hi); destruct (mapM_nth Hl Hi) as (u & U & _); exists u; exact U).
  assert (Cf : forall f, List.In f files -> consistent f) by (intros f Hf; destruct (L f Hf) as (u & Lu); eapply load_consistent; [exact Lu|]; intros bf E; eapply C; eassumption).
  assert (Sub : forall f, List.In f fs -> List.In f files) by (intros f Hf; unfold fs in Hf; apply filter_In in Hf; tauto).
  assert (Hb : forall f, List.In f files -> a_bf f <> None /\ a_vt f <> None /\ forall bf, a_bf f = Some bf -> bf <> []).
  { intros f Hf. destruct (L f Hf) as (u & Lu). unfold Katago.load_archive in Lu. destruct (a_bf f) as [bf|]; [|discriminate]. destruct (a_vt f) as [vt|]; [|discriminate]. apply guard_Ok in Lu. destruct Lu as (Ln & _). split; [discriminate|]. split; [discriminate|]. intros bf' E. injection E as <-. destruct bf; [discriminate Ln|discriminate]. }
  assert (Hne' : forall A (get : archive -> option (list A)), (forall f bf l, List.In f fs -> a_bf f = Some bf -> get f = Some l -> List.length l = List.length bf) -> forall f l, List.In f fs -> get f = Some l -> l <> []).
  { intros A get X f l Hf E N. subst l. destruct (Hb f (Sub f Hf)) as (B1 & _ & B3). destruct (a_bf f) as [bf|] eqn:Eb; [|congruence]. specialize (X f bf [] Hf Eb E). apply (B3 bf eq_refl). destruct bf; [reflexivity|discriminate]. }
  assert (Gl : forall f bf l, List.In f fs -> a_bf f = Some bf -> a_gf f = Some l -> List.length l = List.length bf) by (intros f bf l Hf E1 E2; destruct (Cf f (Sub f Hf) bf E1) as (Y & _); apply Y; exact E2).
  assert (Vl : forall f bf l, List.In f fs -> a_bf f = Some bf -> a_vt f = Some l -> List.length l = List.length bf) by (intros f bf l Hf E1 E2; destruct (Cf f (Sub f Hf) bf E1) as (_ & Y & _); apply Y; exact E2).
  assert (Pl : forall f bf l, List.In f fs -> a_bf f = Some bf -> a_pt f = Some l -> List.length l = List.length bf) by (intros f bf l Hf E1 E2; destruct (Cf f (Sub f Hf) bf E1) as (_ & _ & Y & _); apply Y; exact E2).
  destruct (collected_ok Ub) as (ob & Eb & Ob); [intros f l Hf E; apply (Hb f (Sub f Hf)); exact E|].
  destruct (collected_ok Ug (Hne' _ _ Gl)) as (og & Eg & Og). destruct (collected_ok Uv (Hne' _ _ Vl)) as (ov & Ev & Ov). destruct (collected_ok Up (Hne' _ _ Pl)) as (op & Ep & Op).
  assert (Fx : exists f, List.In f fs) by (destruct fs as [|f r]; [congruence|exists f; left; reflexivity]). destruct Fx as (f0 & Hf0).
  destruct ob as [bf|]; [|destruct (Hb f0 (Sub f0 Hf0)) as (B1 & _); destruct B1; apply Ob; exact Hf0]. destruct ov as [vt|]; [|destruct (Hb f0 (Sub f0 Hf0)) as (_ & B1 & _); destruct B1; apply Ov; exact Hf0].
  destruct Ob as (Ob & _). destruct Ov as (Ov & _).
  assert (All : forall f, List.In f fs -> a_bf f <> None) by (intros f Hf; apply (Hb f (Sub f Hf))).
  assert (Tm : exists T, map_tables files = Ok T).
  { unfold Katago.map_tables. replace (forallb _ files) with true; [|symmetry; apply forallb_forall; intros f Hf; destruct (Hb f Hf) as (B1 & _); destruct (a_bf f); [reflexivity|congruence]].
    change (filter (fun f : archive => p_boardsizes opt (a_size f)) files) with fs. rewrite Eb, Eg, Ev, Ep. cbn [bind].
    replace (List.length bf =? 0)%nat with false.
    2:{ symmetry. apply Nat.eqb_neq. subst bf. intros N. destruct (a_bf f0) as [b0|] eqn:E0; [|destruct (All f0 Hf0); exact E0]. assert (In_ : List.In b0 (present (@a_bf _ _ _ _) fs)) by (unfold present; apply List.in_flat_map; exists f0; split; [exact Hf0|rewrite E0; left; reflexivity]).
        destruct (Hb f0 (Sub f0 Hf0)) as (_ & _ & B3). specialize (B3 b0 E0). destruct b0 as [|x b0]; [congruence|]. assert (Ix : List.In x (List.concat (present (@a_bf _ _ _ _) fs))) by (apply in_concat; eexists; split; [exact In_|left; reflexivity]). destruct (List.concat (present (@a_bf _ _ _ _) fs)); [destruct Ix|discriminate]. }
    cbn [negb]. subst bf vt. rewrite (present_len (get := @a_vt _ _ _ _)) by (first [exact Vl|exact All|intros f Hf; apply (Hb f (Sub f Hf))]). rewrite Nat.eqb_refl. cbn [andb].
    replace (match og with Some l => _ | None => true end) with true.
    2:{ destruct og as [l|]; [|reflexivity]. destruct Og as (-> & f & Hf & Nf). rewrite (present_len (get := @a_gf _ _ _ _)); [rewrite Nat.eqb_refl; reflexivity| |exact Gl|exact All]. destruct Ug as ([U|U] & _); [destruct Nf; apply U; exact Hf|exact U]. }
    replace (match op with Some l => _ | None => true end) with true.
    2:{ destruct op as [l|]; [|reflexivity]. destruct Op as (-> & f & Hf & Nf). rewrite (present_len (get := @a_pt _ _ _ _)); [rewrite Nat.eqb_refl; reflexivity| |exact Pl|exact All]. destruct Up as ([U|U] & _); [destruct Nf; apply U; exact Hf|exact U]. }
    eexists. reflexivity. }
  destruct Tm as (T & HT). destruct (tables_rep HT Cf) as (rss & Sh & R).
  assert (Tg : t_gf T = og).
  { unfold Katago.map_tables in HT. apply guard_Ok in HT. destruct HT as (_ & HT). change (filter (fun f : archive => p_boardsizes opt (a_size f)) files) with fs in HT. rewrite Eb, Eg, Ev, Ep in HT. cbn [bind] in HT. apply guard_Ok in HT. destruct HT as (_ & HT). apply guard_Ok in HT. destruct HT as (_ & HT). injection HT as <-. reflexivity. }
  (* the side is there if it is asked for *)
  assert (Hg0 : (p_filter_stm opt <> None \/ stm_input_channel opt <> None) -> t_gf T <> None).
  { rewrite Tg. intros Hq Ho. rewrite Ho in Og. specialize (Og f0 Hf0). destruct (L f0 (Sub f0 Hf0)) as (u & Lu). unfold fs in Hf0. apply filter_In in Hf0. destruct Hf0 as (_ & W0). unfold wanted_file in W0.
    unfold Katago.load_archive in Lu. destruct (a_bf f0) as [b0|]; [|discriminate]. destruct (a_vt f0) as [v0|]; [|discriminate]. apply guard_Ok in Lu. destruct Lu as (_ & Lu). apply guard_Ok in Lu. destruct Lu as (_ & Lu). rewrite W0 in Lu. cbn [negb t_gf] in Lu. rewrite Og in Lu.
    destruct Hq as [Hq|Hq].
    - destruct (p_filter_stm opt); [discriminate|congruence].
    - destruct (p_filter_stm opt); [discriminate|]. cbn [bind] in Lu. apply bind_Ok in Lu. destruct Lu as (m & Hm & Lu). apply bind_Ok in Lu. destruct Lu as (t1 & Ht1 & Lu).
      assert (G1 : t_gf t1 = None). { destruct m as [m|]; [|injection Ht1 as <-; reflexivity]. unfold select_table in Ht1. cbn [t_bf t_vt t_gf t_pt optM] in Ht1. apply bind_Ok in Ht1. destruct Ht1 as (? & _ & Ht1). cbn [bind] in Ht1. apply bind_Ok in Ht1. destruct Ht1 as (? & _ & Ht1). apply bind_Ok in Ht1. destruct Ht1 as (? & _ & Ht1). injection Ht1 as <-. reflexivity. }
      unfold channels in Lu. rewrite G1 in Lu. destruct (stm_input_channel opt); [|congruence]. apply bind_Ok in Lu. destruct Lu as (? & _ & Lu). discriminate. }
  destruct (loaded_all Hk Hl) as (rss' & outs & A1 & _ & A3). rewrite (shown_rows Sh) in A1. injection A1 as <-.
  unfold Katago.map_dataset. rewrite HT. cbn [bind].
  assert (X : exists t1, match p_filter_stm opt with None => Ok T | Some s => match t_gf T with None => Err ValueError | Some g => select_table (flatnonzero (map (side_is s) g)) T end end = Ok t1
    /\ rep t1 (filter (fun r => match p_filter_stm opt, row_g r with None, _ => true | Some s, Some x => side_is s x | Some _, None => false end) (List.concat rss)) /\ (t_gf T = None <-> t_gf t1 = None)).
  { destruct (p_filter_stm opt) as [s|].
    - destruct (t_gf T) as [g|] eqn:Egt; [|exfalso; apply Hg0; [left; discriminate|reflexivity]]. rewrite (side_mask s R Egt). destruct (rep_select (fun r => match row_g r with Some x => side_is s x | None => false end) R) as (u & E & R1 & _ & N1). exists u. split; [exact E|]. split; [exact R1|]. rewrite <- Egt. exact N1.
    - exists T. split; [reflexivity|]. split; [|tauto]. rewrite filter_yes; [exact R|reflexivity]. }
  destruct X as (t1 & E1 & R1 & N1). rewrite E1. cbn [bind].
  assert (X : exists t2, match p_condition opt with None => Ok t1 | Some c => mask <- c t1 ;; select_table (flatnonzero mask) t1 end = Ok t2 /\ rep t2 (filter (wanted_row keep) (List.concat rss)) /\ (t_gf t1 = None <-> t_gf t2 = None)).
  { unfold rowwise in Hk. unfold KatagoSpec.wanted_row. rewrite <- filter_and. destruct (p_condition opt) as [c|].
    - rewrite (Hk _ _ (rep_rows R1)). cbn [bind]. destruct (rep_select keep R1) as (u & E & R2 & _ & N2). exists u. split; [exact E|]. split; [exact R2|exact N2].
    - exists t1. split; [reflexivity|]. split; [|tauto]. rewrite (filter_yes _ Hk). exact R1. }
  destruct X as (t2 & E2 & R2 & N2). rewrite E2. cbn [bind]. destruct (rep_channels R2 A3) as (t3 & E3 & _); [|exists t3; exact E3].
  intros Hq N. apply (Hg0 (or_intror Hq)). apply N1, N2. exact N.
Qed.
End Claim.

(** ** Concrete cases *)
(** Rows as integers. *)
Definition px_opt : poptions Z Z Z Z :=
  {| p_boardsizes := fun '(h, w) => (h =? 3) && (w =? 3); p_filter_stm := Some 1;
     p_condition := Some (fun t => rs <- rows_of t ;; Ok (map (fun r => row_v r <? 30) rs)); board_input_channels := Some (fun b => Ok (b + 100)); stm_input_channel := None; value_target_channels := None |}.
Definition px_file (sz : Z * Z) (b g v : list Z) : archive Z Z Z Z := {| a_size := sz; a_bf := Some b; a_gf := Some g; a_vt := Some v; a_pt := None |}.
Definition px_files := [px_file (3, 3) [1; 2; 3] [1; -1; 1] [10; 20; 30]; px_file (4, 4) [4] [1] [40]; px_file (3, 3) [5] [1] [15]].
Definition px_shape (_ : Z) : list Z := [2; 3; 3].
Definition px_map opt := map_dataset px_shape (fun _ : Z => [1]) (fun _ : Z => [3]) (fun _ : Z => []) (fun _ => (3, 3)) Z.eqb opt.
Definition px_row (b v : Z) : prow Z Z Z Z := {| row_size := (3, 3); row_b := b; row_g := Some 1; row_v := v; row_p := None |}.

Example C63_hypotheses_met :
  rowwise px_opt (fun r => row_v r <? 30)
  /\ (exists t, px_map px_opt px_files = Ok t /\ rows_of t = Ok [px_row 101 10; px_row 105 15])
  /\ exists ts, mapM (load_archive Z.eqb px_opt) px_files = Ok ts /\ mapM (@rows_of Z Z Z Z) ts = Ok [[px_row 101 10]; []; [px_row 105 15]].
Proof.
  split; [|split].
  - unfold rowwise. cbn. intros t rs H. rewrite H. reflexivity.
  - eexists. split; vm_compute; reflexivity.
  - eexists. split; vm_compute; reflexivity.
Qed.

(** F37.  Only the total numbers of rows are compared: of two files with 2 and 1 boards but 1 and 2 value targets, the second board of
    the first file is given a value target of the second file.  The iterative variant refuses both files. *)
Definition px_all : poptions Z Z Z Z :=
  {| p_boardsizes := fun _ => true; p_filter_stm := None; p_condition := None; board_input_channels := None; stm_input_channel := None; value_target_channels := None |}.
Theorem C63_files_with_unequal_rows_are_refused_refuted :
  let a := px_file (3, 3) [1; 2] [1; 1] [10] in
  let b := px_file (3, 3) [3] [1] [20; 30] in
  load_archive Z.eqb px_all a = Err ValueError /\ load_archive Z.eqb px_all b = Err ValueError
  /\ exists t, px_map px_all [a; b] = Ok t /\ rows_of t = Ok [px_row 1 10; px_row 2 20; px_row 3 30].
Proof. split; [vm_compute; reflexivity|]. split; [vm_compute; reflexivity|]. eexists. split; vm_compute; reflexivity. Qed.
