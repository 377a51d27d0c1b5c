(** The dictionary of a global batch, for C67. *)
From Coq Require Import String Field_theory Field Ring.
From Verif Require Import Base BaseFacts DecoderFacts Loss LossSpec LossFacts LossTerms.
Set Implicit Arguments. Unset Strict Implicit.

Section Whole.
Context {R : Type} {N : numbers R} {row : Type}.
Variables (ropp rinv : R -> R).
Hypothesis F : field_theory r0 r1 radd rmul rsub ropp rdiv rinv eq.
Add Field R_field3 : F.
Notation "x + y" := (radd x y). Notation "x * y" := (rmul x y). Notation "x - y" := (rsub x y). Notation "x / y" := (rdiv x y).
Hypothesis char0 : forall n, n <> 0%nat -> inj n <> r0.
Hypothesis constant : forall x, too_far x r0 = false.

(** A statistic as a function of the number of replicas and of the rows they have together. *)
Definition family := nat -> list row -> loss_stat R.
Definition at_ (k : nat) (rows : list row) (m : dict family) : dict (loss_stat R) := map (fun '(key, f) => (key, f k rows)) m.
Definition additive (f : family) : Prop := forall a ra b rb, combine_loss (f a ra) (f b rb) = Ok (f (a + b)%nat (ra ++ rb)).
Lemma dict_rel_map_r A B C (P : A -> C -> Prop) (g : B -> C) m n : dict_rel (fun a b => P a (g b)) m n -> dict_rel P m (map (fun '(k, v) => (k, g v)) n).
Proof. induction 1 as [|(k1, a) (k2, b) l l' (E & Pab) HF IH]; constructor; auto. Qed.
Lemma combine_at a ra b rb m : Forall (fun e => additive (snd e)) m -> combine_dicts (at_ a ra m) (at_ b rb m) = Ok (at_ (a + b) (ra ++ rb) m).
Proof. induction 1 as [|(key, f) m Hf H IH]; [reflexivity|]. cbn [at_ map combine_dicts]. cbn [snd] in Hf. rewrite String.eqb_refl, (Hf a ra b rb). cbn [bind]. unfold at_ in IH. rewrite IH. reflexivity. Qed.
Lemma combine_all_at m : Forall (fun e => additive (snd e)) m -> forall l k rows,
  combine_all (at_ k rows m) (map (fun r => at_ 1 r m) l) = Ok (at_ (k + List.length l) (rows ++ List.concat l) m).
Proof.
  intros H. induction l as [|r l IH]; intros k rows.
  - cbn [map combine_all List.length List.concat]. rewrite Nat.add_0_r, app_nil_r. reflexivity.
  - cbn [map combine_all]. rewrite (combine_at k rows 1 r H). cbn [bind]. rewrite IH. cbn [List.length List.concat]. rewrite <- app_assoc, <- Nat.add_assoc. reflexivity.
Qed.
Definition settles (rows : list row) (f : family) (v : R) : Prop := additive f /\ forall k, k <> 0%nat -> finalize (f k rows) = Ok v.
Lemma settles_all rows m t : dict_rel (settles rows) m t -> Forall (fun e => additive (snd e)) m /\ forall k, k <> 0%nat -> mapM (fun '(k, s) => v <- finalize s ;; Ok (k, v)) (at_ k rows m) = Ok t.
Proof.
  induction 1 as [|(k1, f) (k2, v) m t (E & Ha & Hv) H (IH1 & IH2)]; [split; [constructor|reflexivity]|]. cbn in E, Ha, Hv. subst k2. split; [constructor; assumption|].
  intros k Hk. cbn [at_ map mapM]. rewrite (Hv k Hk). cbn [bind]. unfold at_ in IH2. rewrite (IH2 k Hk). reflexivity.
Qed.

Variable c : config R.
Variable d : reading R row.
Variable good : list row -> Prop.
Notation corr := (corr good).
Notation scaled := (@scaled R N row).
Lemma entries_scaled g us rows : entries g us rows = map (fun u => scaled 1 g u rows) us.
Proof. unfold entries, LossFacts.scaled. apply map_ext. intros u. f_equal; cbn [inj]; ring. Qed.
Definition plain_family (u : term R row (stat R)) : family := fun _ rows => Plain (t_of u rows).
Definition named_family (us : list (term R row (stat R))) : dict family := dict_update [] (map (fun u => (t_name u, plain_family u)) us).
Definition plain (m : dict (stat R)) : dict (loss_stat R) := map (fun '(k, s) => (k, Plain s)) m.
Definition family_of (us : list (term R row (stat R))) : dict family := dict_set (named_family us) "total_loss" (fun k rows => Total (map (fun u => scaled k GAll u rows) us) None).
Definition sums_of (k : nat) : kd_sums := {| k_alpha := inj k * kd_alpha c; k_alpha2 := inj k * square (kd_alpha c); k_T := inj k * kd_T c; k_T2 := inj k * square (kd_T c); k_replicas := k |}.
Notation dep := (filter (fun t => t_dependent t)).
Notation indep := (filter (fun t => negb (t_dependent t))).
Definition kd_entries (us real : list (term R row (stat R))) k rows : list (entry R) :=
  map (fun u => scaled k GKd u rows) (dep us) ++ map (fun u => scaled k GReal u rows) (dep real) ++ map (fun u => scaled k GIndependent u rows) (indep real).
Definition kd_family_of (us real : list (term R row (stat R))) : dict family :=
  dict_set (dict_update (named_family real) (prefixed (named_family us))) "total_loss" (fun k rows => Total (kd_entries us real k rows) (Some (sums_of k))).
Lemma named_at us k rows : dict_rel (fun (f : family) (s : loss_stat R) => s = f k rows) (named_family us) (plain (named us rows)).
Proof.
  unfold plain. apply dict_rel_map_r. unfold named_family, named. apply dict_update_rel; [|constructor]. induction us as [|u us IH]; cbn [map]; constructor; auto.
Qed.
Lemma statistics_at batch us : eval_terms c d false = Ok us -> compute_supervised_loss_statistics c d false batch = Ok (at_ 1 (real_rows batch) (family_of us)).
Proof.
  intros E. unfold compute_supervised_loss_statistics. rewrite E. cbn [bind]. f_equal. unfold at_. symmetry. set (rows := real_rows batch).
  symmetry. apply dict_rel_eq with (f := fun f : family => f 1%nat rows). unfold family_of. apply dict_set_rel; [exact (named_at us 1 rows)|]. rewrite entries_scaled. reflexivity.
Qed.
Lemma kd_statistics_at batch us real : eval_terms c d true = Ok us -> eval_terms c d false = Ok real -> compute_supervised_loss_statistics c d true batch = Ok (at_ 1 (real_rows batch) (kd_family_of us real)).
Proof.
  intros E E'. unfold compute_supervised_loss_statistics. rewrite E, E'. cbn [bind]. f_equal. set (rows := real_rows batch).
  apply dict_rel_eq with (f := fun f : family => f 1%nat rows). unfold kd_family_of. apply dict_set_rel.
  - apply dict_update_rel; [apply prefixed_rel|]; exact (named_at _ 1 rows).
  - unfold kd_entries, sums_of. rewrite !entries_scaled. do 2 f_equal. f_equal; cbn [inj]; ring.
Qed.

Lemma plain_settles rows t u : good rows -> corr t u -> settles rows (plain_family u) (t_of t rows).
Proof.
  intros G C. split.
  - intros a ra b rb. unfold plain_family. cbn [combine_loss]. rewrite (corr_add C). reflexivity.
  - intros k _. exact (corr_value C G).
Qed.
Lemma named_settles rows ts us : good rows -> Forall2 corr ts us -> dict_rel (settles rows) (named_family us) (named ts rows).
Proof.
  intros G H. unfold named_family, named. apply dict_update_rel; [|constructor]. induction H as [|t u ts us C H IH]; cbn [map]; constructor; auto. cbn [fst snd]. split; [exact (corr_name C)|]. apply plain_settles; assumption.
Qed.
Lemma adds ts us : Forall2 corr ts us -> Forall (fun u => forall x y, combine_stat (t_of u x) (t_of u y) = Ok (t_of u (x ++ y))) us.
Proof. induction 1 as [|t u ts us C H IH]; constructor; auto. exact (corr_add C). Qed.
Lemma total_settles rows ts us v : good rows -> Forall2 corr ts us -> sum_terms ts None rows = Some v ->
  settles rows (fun k rows => Total (map (fun u => scaled k GAll u rows) us) None) v.
Proof.
  intros G H E. split.
  - intros a ra b rb. cbn [combine_loss]. rewrite (combine_scaled F a b GAll ra rb (adds H)). reflexivity.
  - intros k Hk. cbn [finalize]. rewrite (finalize_scaled F char0 constant GAll Hk G H). cbn [bind].
    rewrite sum_terms_osum in E. assert (Ef : filter (fun _ : term R row R => true) ts = ts) by (clear; induction ts as [|t ts IH]; cbn; congruence). rewrite Ef in E. rewrite E. reflexivity.
Qed.
Lemma sums_combine a b : {| k_alpha := k_alpha (sums_of a) + k_alpha (sums_of b); k_alpha2 := k_alpha2 (sums_of a) + k_alpha2 (sums_of b); k_T := k_T (sums_of a) + k_T (sums_of b); k_T2 := k_T2 (sums_of a) + k_T2 (sums_of b); k_replicas := (k_replicas (sums_of a) + k_replicas (sums_of b))%nat |} = sums_of (a + b).
Proof. unfold sums_of. cbn [k_alpha k_alpha2 k_T k_T2 k_replicas]. rewrite (inj_add F). f_equal; ring. Qed.
Lemma filter_app_g A (p : A -> bool) l m : filter p (l ++ m) = filter p l ++ filter p m.
Proof. apply filter_app. Qed.
Lemma kd_total_settles rows ts us real_ts real a b i : good rows -> Forall2 corr ts us -> Forall2 corr real_ts real ->
  sum_terms ts (Some true) rows = Some a -> sum_terms real_ts (Some true) rows = Some b -> or_else (sum_terms real_ts (Some false) rows) r0 = i ->
  settles rows (fun k rows => Total (kd_entries us real k rows) (Some (sums_of k))) (kd_alpha c * a * (kd_T c * kd_T c) + (r1 - kd_alpha c) * b + i).
Proof.
  intros G H H' Ea Eb Ei.
  assert (Hd : Forall2 corr (dep ts) (dep us)) by (eapply Forall2_filter; [|exact H]; intros t u C; cbn; rewrite (corr_dep C); reflexivity).
  assert (Hr : Forall2 corr (dep real_ts) (dep real)) by (eapply Forall2_filter; [|exact H']; intros t u C; cbn; rewrite (corr_dep C); reflexivity).
  assert (Hi : Forall2 corr (indep real_ts) (indep real)) by (eapply Forall2_filter; [|exact H']; intros t u C; cbn; rewrite (corr_dep C); reflexivity).
  assert (Ed : forall l : list (term R row R), filter (fun t => Bool.eqb (t_dependent t) true) l = dep l) by (intros l; apply filter_ext; intros t; destruct (t_dependent t); reflexivity).
  assert (En : forall l : list (term R row R), filter (fun t => Bool.eqb (t_dependent t) false) l = indep l) by (intros l; apply filter_ext; intros t; destruct (t_dependent t); reflexivity).
  rewrite sum_terms_osum, Ed in Ea. rewrite sum_terms_osum, Ed in Eb. rewrite sum_terms_osum, En in Ei.
  split.
  - intros x rx y ry. cbn [combine_loss]. unfold kd_entries.
    rewrite (combine_entries_app (combine_scaled F x y GKd rx ry (adds Hd)) (combine_entries_app (combine_scaled F x y GReal rx ry (adds Hr)) (combine_scaled F x y GIndependent rx ry (adds Hi)))).
    cbn [bind]. rewrite sums_combine. reflexivity.
  - intros k Hk. cbn [finalize]. cbn [k_alpha k_alpha2 k_replicas k_T k_T2 sums_of]. rewrite !(constant_ok F char0 constant _ Hk). cbn [bind].
    assert (E1 : finalize_group GKd (kd_entries us real k rows) = finalize_group GKd (map (fun u => scaled k GKd u rows) (dep us))).
    { unfold finalize_group, kd_entries. rewrite !filter_app. rewrite (group_other k rows (dep real) (g := GReal) (g' := GKd) eq_refl), (group_other k rows (indep real) (g := GIndependent) (g' := GKd) eq_refl), !app_nil_r. reflexivity. }
    assert (E2 : finalize_group GReal (kd_entries us real k rows) = finalize_group GReal (map (fun u => scaled k GReal u rows) (dep real))).
    { unfold finalize_group, kd_entries. rewrite !filter_app. rewrite (group_other k rows (dep us) (g := GKd) (g' := GReal) eq_refl), (group_other k rows (indep real) (g := GIndependent) (g' := GReal) eq_refl), !app_nil_r. reflexivity. }
    assert (E3 : finalize_group GIndependent (kd_entries us real k rows) = finalize_group GIndependent (map (fun u => scaled k GIndependent u rows) (indep real))).
    { unfold finalize_group, kd_entries. rewrite !filter_app. rewrite (group_other k rows (dep us) (g := GKd) (g' := GIndependent) eq_refl), (group_other k rows (dep real) (g := GReal) (g' := GIndependent) eq_refl). reflexivity. }
    rewrite E1, E2, E3, (finalize_scaled F char0 constant GKd Hk G Hd), (finalize_scaled F char0 constant GReal Hk G Hr), (finalize_scaled F char0 constant GIndependent Hk G Hi). cbn [bind].
    rewrite Ea, Eb. f_equal. unfold square. rewrite <- Ei. unfold or_else. destruct (osum None _); ring.
Qed.
End Whole.
