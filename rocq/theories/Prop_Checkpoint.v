(** C27 and C28: checkpoint files are written atomically and the latest one is found
    (utils/file_utils.py). *)
From Coq Require Import Ascii String Sorted Permutation.
From Verif Require Import Base BaseFacts Checkpoint CheckpointFacts.
Set Implicit Arguments.
Unset Strict Implicit.

(** ** Specification *)
(** What a user calls a checkpoint file: a name with one of the extensions that
    find_latest_ckpt looks for by default. *)
Definition checkpoint_path (p : str) : Prop :=
  exists stem ext, p = stem ++ ext /\ In ext [lit ".pt"; lit ".pth"; lit ".sft"; lit ".safetensors"].
(** The extra states and metadata as a caller gives them: a dictionary has distinct keys. *)
Definition extra_args (T O : Type) (extra : list (str * T)) : list (str * value T O) := map (fun e => (fst e, VDict (snd e))) extra.
Definition meta_args (T O : Type) (meta : list (str * str)) : list (str * value T O) := map (fun e => (fst e, VStr (snd e))) meta.
(** A history of saves; each is cut off after some number of its disk operations (a crash
    or an exception), or runs to its end. *)
Definition interrupted (obj : Type) (h : list (list (op obj) * nat)) (d : disk obj) : disk obj :=
  fold_left (fun d e => run_ops d (firstn (snd e) (fst e))) h d.

Section Save.
Variables T O : Type.
Variable str_of : O -> str.
Notation ck := (checkpoint T O).

(** A path whose last component has an extension: a dot with something other than dots
    before it in that component (".hidden" has none). *)
Definition has_extension (p : str) : Prop :=
  exists dir stem ext, p = dir ++ stem ++ dot :: ext
    /\ (dir = [] \/ exists d, dir = d ++ [slash])
    /\ ~ In slash stem /\ ~ In slash ext /\ ~ In dot ext
    /\ exists c, In c stem /\ c <> dot.
(** Where a checkpoint asked for at [path] goes. *)
Definition saved_at (path target : str) : Prop :=
  (has_extension path /\ target = path) \/ (~ has_extension path /\ target = path ++ lit ".pt").

Lemma has_extension_iff p : has_extension p <-> snd (splitext p) <> [].
Proof.
  assert (Hex : forall a, existsb (fun c => negb (Ascii.eqb c dot)) a = true <-> exists c, In c a /\ c <> dot).
  { intros a. rewrite existsb_exists. split; intros [c [H1 H2]]; exists c; split; auto.
    - intros ->. rewrite Ascii.eqb_refl in H2. discriminate.
    - apply Ascii.eqb_neq in H2. rewrite H2. reflexivity. }
  split.
  - intros (dir & stem & ext & -> & Hdir & Hs & He & Hd & Hc). unfold splitext.
    assert (Hb : ~ In slash (stem ++ dot :: ext)).
    { rewrite in_app_iff. cbn. intros [H|[H|H]]; [contradiction|discriminate|contradiction]. }
    apply Hex in Hc.
    destruct Hdir as [->|[d ->]].
    + cbn [app]. apply rcut_none in Hb. rewrite Hb, rcut_app by exact Hd. rewrite Hc. discriminate.
    + rewrite <- app_assoc. cbn [app]. rewrite rcut_app by exact Hb. rewrite rcut_app by exact Hd.
      rewrite Hc. discriminate.
  - unfold splitext. intros H.
    destruct (rcut slash p) as [[d base]|] eqn:E.
    + apply rcut_some in E. destruct E as [-> Hb].
      destruct (rcut dot base) as [[a b]|] eqn:E2; [|cbn in H; congruence].
      apply rcut_some in E2. destruct E2 as [-> Hd].
      destruct (existsb (fun c => negb (Ascii.eqb c dot)) a) eqn:Ea; [|cbn in H; congruence].
      apply Hex in Ea. rewrite in_app_iff in Hb. cbn in Hb.
      exists (d ++ [slash]), a, b. split; [rewrite <- app_assoc; reflexivity|].
      split; [right; eauto|]. tauto.
    + apply rcut_none in E.
      destruct (rcut dot p) as [[a b]|] eqn:E2; [|cbn in H; congruence].
      apply rcut_some in E2. destruct E2 as [-> Hd].
      destruct (existsb (fun c => negb (Ascii.eqb c dot)) a) eqn:Ea; [|cbn in H; congruence].
      apply Hex in Ea. rewrite in_app_iff in E. cbn in E.
      exists [], a, b. split; [reflexivity|]. split; [auto|]. tauto.
Qed.

Lemma with_extension_cases p : saved_at p (with_extension p).
Proof.
  unfold with_extension, saved_at. pose proof (has_extension_iff p) as H.
  destruct (snd (splitext p)); [right|left]; split; try reflexivity.
  - intros X. apply H in X. congruence.
  - apply H. discriminate.
Qed.

(** C27: however far a save gets, the checkpoint path holds the previous file or the
    complete new one, and no path but it and its temporary companion changes; a save that
    raises before writing changes nothing (there are no operations at all); a save that
    finishes leaves the new checkpoint and no temporary file. *)
Theorem C27_saves_are_atomic :
  forall n path (model : T) extra metadata (ops : list (op ck)),
  save_torch_ckpt n path model extra metadata = Ok ops ->
  exists target sd,
    saved_at path target
    /\ build_checkpoint model extra metadata = Ok sd
    /\ forall d : disk ck,
       (forall k, let d1 := run_ops d (firstn k ops) in
          (d1 target = d target \/ d1 target = Some (Whole sd))
          /\ forall p, p <> target -> p <> target ++ lit ".tmp" -> d1 p = d p)
       /\ run_ops d ops target = Some (Whole sd)
       /\ run_ops d ops (target ++ lit ".tmp") = None.
Proof.
  intros n path model extra metadata ops H. unfold save_torch_ckpt in H. apply guard_Ok in H. destruct H as [_ H].
  inv_bind H. inversion H; subst; clear H. exists (with_extension path), v.
  split; [apply with_extension_cases|]. split; [exact Hm|]. intros d. split.
  - intros k. destruct (atomic_save_prefix n v (with_extension path) d k) as (H1 & H2 & H3). split; [|exact H1].
    destruct (Nat.lt_ge_cases k (List.length (atomic_torch_save n v (with_extension path)))) as [Hk|Hk].
    + left. apply H2. exact Hk.
    + right. apply H3. exact Hk.
  - pose proof (atomic_save_prefix n v (with_extension path) d (List.length (atomic_torch_save n v (with_extension path)))) as (_ & _ & H3).
    rewrite firstn_all in H3. apply H3. apply Nat.le_refl.
Qed.

Lemma tmp_not_checkpoint p : ~ checkpoint_path (p ++ lit ".tmp").
Proof.
  intros (stem & ext & E & Hin). apply (f_equal (@rev ascii)) in E. rewrite !rev_app_distr in E.
  cbn in Hin. destruct Hin as [<-|[<-|[<-|[<-|[]]]]]; cbn in E; discriminate.
Qed.

(** C27: a history of saves - checkpoint files by save_torch_ckpt, training states by the
    trainer's atomic save - in which every save may stop anywhere never leaves an
    incomplete file under a checkpoint name. *)
Theorem C27_no_checkpoint_name_ever_holds_a_partial_file :
  forall (d : disk ck) (h : list (list (op ck) * nat)),
  (forall p, checkpoint_path p -> d p <> Some Torn) ->
  (forall ops k, In (ops, k) h ->
     (exists n path model extra metadata, save_torch_ckpt n path model extra metadata = Ok ops)
     \/ exists n sd path, ops = atomic_torch_save n sd path) ->
  forall p, checkpoint_path p -> interrupted h d p <> Some Torn.
Proof.
  intros d h Hd Hh. revert d Hd. induction h as [|[ops k] h IH]; intros d Hd p Hp; [apply Hd; exact Hp|].
  change (interrupted ((ops, k) :: h) d) with (interrupted h (run_ops d (firstn k ops))). apply IH; [intros; eapply Hh; right; eassumption| |exact Hp]. clear IH p Hp. intros p Hp.
  assert (Ho : exists n sd path, ops = atomic_torch_save n sd path).
  { destruct (Hh ops k (or_introl eq_refl)) as [(n & path & m & e & md & H)|H]; [|exact H].
    unfold save_torch_ckpt in H. apply guard_Ok in H. destruct H as [_ H]. inv_bind H. inversion H; eauto. }
  destruct Ho as (n & sd & path & ->).
  destruct (atomic_save_prefix n sd path d k) as (H1 & H2 & H3). cbn [fst snd].
  destruct (str_eq_dec p path) as [->|Hne].
  - destruct (Nat.lt_ge_cases k (List.length (atomic_torch_save n sd path))) as [Hk|Hk].
    + rewrite (H2 Hk). apply Hd. exact Hp.
    + rewrite (proj1 (H3 Hk)). discriminate.
  - rewrite H1; [apply Hd; exact Hp|exact Hne|]. intros ->. exact (tmp_not_checkpoint Hp).
Qed.

Lemma add_extras_ok extra : forall sd : ck, NoDup (map fst sd ++ map fst extra) ->
  add_extras sd (extra_args O extra) = Ok (sd ++ extra_args O extra).
Proof.
  induction extra as [|[k t] extra IH]; intros sd H; [cbn; rewrite app_nil_r; reflexivity|].
  cbn [extra_args map add_extras fst snd]. fold (extra_args O extra).
  cbn [map fst] in H. rewrite dict_set_new by (apply NoDup_remove_2 in H; intros X; apply H; apply in_or_app; left; exact X).
  rewrite IH; [rewrite <- app_assoc; reflexivity|]. rewrite map_app, <- app_assoc. exact H.
Qed.
Lemma add_metadata_ok meta : forall sd : ck, NoDup (map fst sd ++ map fst meta) ->
  add_metadata sd (meta_args T O meta) = Ok (sd ++ meta_args T O meta).
Proof.
  induction meta as [|[k t] meta IH]; intros sd H; [cbn; rewrite app_nil_r; reflexivity|].
  cbn [meta_args map add_metadata fst snd]. fold (meta_args T O meta).
  cbn [map fst] in H. rewrite dict_set_new by (apply NoDup_remove_2 in H; intros X; apply H; apply in_or_app; left; exact X).
  rewrite IH; [rewrite <- app_assoc; reflexivity|]. rewrite map_app, <- app_assoc. exact H.
Qed.
Lemma extras_of_app (a b : ck) : extras_of (a ++ b) = extras_of a ++ extras_of b.
Proof. induction a as [|[k [t|s|o]] a IH]; cbn; rewrite ?IH; reflexivity. Qed.
Lemma metadata_of_app (a b : ck) : metadata_of str_of (a ++ b) = metadata_of str_of a ++ metadata_of str_of b.
Proof. induction a as [|[k [t|s|o]] a IH]; cbn; rewrite ?IH; reflexivity. Qed.

(** C27: what was saved is what load_torch_ckpt returns, whenever the names of the extra
    states and of the metadata are distinct and none of them is "model". *)
Theorem C27_saved_checkpoints_load_back :
  forall n path (model : T) extra meta,
  NoDup (lit "model" :: map fst extra ++ map fst meta) ->
  In slash path ->
  exists ops target,
    save_torch_ckpt n path model (extra_args O extra) (Some (meta_args T O meta)) = Ok ops
    /\ saved_at path target
    /\ forall d, load_torch_ckpt str_of (run_ops d ops) target = Ok (VDict model, extra, meta).
Proof.
  intros n path model extra meta Hn Hs.
  assert (Hb : build_checkpoint model (extra_args O extra) (Some (meta_args T O meta))
               = Ok ((lit "model", VDict model) :: extra_args O extra ++ meta_args T O meta)).
  { unfold build_checkpoint. rewrite add_extras_ok.
    - cbn [bind]. rewrite add_metadata_ok; [reflexivity|]. cbn [map fst app]. unfold extra_args. rewrite map_map. cbn [fst]. exact Hn.
    - cbn [map fst app]. rewrite app_comm_cons in Hn. clear - Hn.
      set (l := lit "model" :: map fst extra) in *. clearbody l. induction l as [|x l IH]; [constructor|].
      inversion Hn; subst. constructor; [intros X; apply H1; apply in_or_app; left; exact X|auto]. }
  assert (Hsave : save_torch_ckpt n path model (extra_args O extra) (Some (meta_args T O meta))
     = Ok (atomic_torch_save n ((lit "model", VDict model) :: extra_args O extra ++ meta_args T O meta) (with_extension path))).
  { unfold save_torch_ckpt. assert (Hd : str_eqb (dirname path) [] = false).
    { apply str_eqb_neq. unfold dirname. destruct (rcut slash path) as [[a b]|] eqn:E.
      - destruct (rstrip slash a); [|discriminate]. intros X. apply app_eq_nil in X. destruct X; discriminate.
      - apply rcut_none in E. contradiction. }
    rewrite Hd. cbn [negb]. rewrite Hb. reflexivity. }
  exists (atomic_torch_save n ((lit "model", VDict model) :: extra_args O extra ++ meta_args T O meta) (with_extension path)), (with_extension path).
  split; [exact Hsave|]. split; [apply with_extension_cases|]. intros d.
  destruct (C27_saves_are_atomic Hsave) as (target & sd & _ & Hb2 & _). rewrite Hb in Hb2. clear target sd Hb2.
  match goal with |- context [atomic_torch_save n ?x _] => set (sd := x) end.
  pose proof (@atomic_save_prefix (checkpoint T O) n sd (with_extension path) d (List.length (atomic_torch_save n sd (with_extension path)))) as (_ & _ & H3).
  rewrite firstn_all in H3. destruct (H3 (Nat.le_refl _)) as [Ht _]. unfold load_torch_ckpt. unfold checkpoint in *. rewrite Ht. subst sd.
  cbn [dict_pop]. rewrite str_eqb_refl. cbn [bind].
  rewrite extras_of_app, metadata_of_app.
  assert (X1 : forall l : list (str * T), extras_of (extra_args O l) = l) by (induction l as [|[k t] l IH]; cbn; [reflexivity|]; f_equal; exact IH).
  assert (X2 : forall l : list (str * str), extras_of (meta_args T O l) = []) by (induction l as [|[k t] l IH]; cbn; [reflexivity|]; exact IH).
  assert (X3 : forall l : list (str * T), metadata_of str_of (extra_args O l) = []) by (induction l as [|[k t] l IH]; cbn; [reflexivity|]; exact IH).
  assert (X4 : forall l : list (str * str), metadata_of str_of (meta_args T O l) = l) by (induction l as [|[k t] l IH]; cbn; [reflexivity|]; f_equal; exact IH).
  rewrite X1, X2, X3, X4, app_nil_r. reflexivity.
Qed.
End Save.

(** C27 fails for some arguments that are accepted: a metadata entry named "model"
    replaces the weights, and the file loads without an error. *)
Theorem C27_metadata_can_replace_the_weights_refuted :
  exists n path (model : nat) (meta : list (str * str)) (ops : list (op (checkpoint nat nat))),
    save_torch_ckpt n path model [] (Some (meta_args nat nat meta)) = Ok ops
    /\ load_torch_ckpt (fun _ => []) (run_ops (fun _ => None) ops) path = Ok (VStr (lit "v1"), [], []).
Proof.
  exists 0%nat, (lit "run/a.pt"), 7%nat, [(lit "model", lit "v1")]. eexists. split; [vm_compute; reflexivity|].
  vm_compute. reflexivity.
Qed.
(** C27 fails for a path without a directory: the save raises although the directory (the
    current one) exists. *)
Theorem C27_bare_file_names_are_saved_refuted :
  forall n path (model : nat) extra metadata, ~ In slash path ->
  save_torch_ckpt (other := nat) n path model extra metadata = Err OSError.
Proof.
  intros n path model extra metadata H. unfold save_torch_ckpt, dirname. apply rcut_none in H. rewrite H. reflexivity.
Qed.

(** Concrete case: the second of two saves to the same path dies while writing. *)
Example ex_crash :
  let save it := save_torch_ckpt (other := nat) 3 (lit "run/ckpts/state_0000010.pt") it [(lit "opt", VDict 5%nat)] (Some [(lit "iteration", VStr (lit "10"))]) in
  exists o1 o2, save 1%nat = Ok o1 /\ save 2%nat = Ok o2
  /\ load_torch_ckpt (fun _ => []) (interrupted [(o1, 6%nat); (o2, 3%nat)] (fun _ => None)) (lit "run/ckpts/state_0000010.pt")
     = Ok (VDict 1%nat, [(lit "opt", 5%nat)], [(lit "iteration", lit "10")])
  /\ interrupted [(o1, 6%nat); (o2, 3%nat)] (fun _ => None) (lit "run/ckpts/state_0000010.pt.tmp") = Some Torn.
Proof. eexists; eexists. repeat split; vm_compute; reflexivity. Qed.

(** ** C28 *)
(** A directory listing as os.listdir gives it: names without slashes. *)
Definition plain_names (l : list (str * bool)) : Prop := forall f b, In (f, b) l -> ~ In slash f.
(** The files find_latest_ckpt has to choose from. *)
Definition candidate (l : list (str * bool)) (prefix : str) (exts : list str) (f : str) : Prop :=
  In (f, true) l /\ (exists t, f = prefix ++ t) /\ exists e h, In e exts /\ f = h ++ e.

Lemma candidate_filter l prefix exts f :
  In f (map fst (filter (fun e => snd e && startswith prefix (fst e) && existsb (fun x => endswith x (fst e)) exts) l))
  <-> candidate l prefix exts f.
Proof.
  rewrite in_map_iff. split.
  - intros ([f1 b] & <- & H). apply filter_In in H. cbn [fst snd] in *. destruct H as [Hi H].
    apply andb_prop in H. destruct H as [H H3]. apply andb_prop in H. destruct H as [-> H2].
    apply startswith_spec in H2. apply existsb_exists in H3. destruct H3 as (e & He & H3). apply endswith_spec in H3.
    destruct H3 as [h H3]. split; [exact Hi|]. split; [exact H2|]. exists e, h. auto.
  - intros (Hi & H2 & e & h & He & H3). exists (f, true). split; [reflexivity|]. apply filter_In. split; [exact Hi|].
    cbn [fst snd]. rewrite (proj2 (startswith_spec _ _) H2). cbn. apply existsb_exists. exists e.
    split; [exact He|]. apply endswith_spec. eauto.
Qed.

(** C28: the result is one of the matching files, and no matching file has a larger
    iteration number; a file with an iteration number always wins over one without. *)
Theorem C28_latest_is_the_numeric_maximum :
  forall entries dir prefix exts r, plain_names entries ->
  find_latest_ckpt (Some entries) dir prefix exts = Some r ->
  exists f, r = join_path dir f /\ candidate entries prefix exts f
  /\ forall g j, candidate entries prefix exts g -> get_iteration_from_ckpt_filename g = Some j ->
       exists i, get_iteration_from_ckpt_filename f = Some i /\ j <= i.
Proof.
  intros entries dir prefix exts r Hp H. unfold find_latest_ckpt in H.
  set (fl := filter (fun e => snd e && startswith prefix (fst e) && existsb (fun x => endswith x (fst e)) exts) entries) in *.
  set (cl := map (fun e => join_path dir (fst e)) fl) in *.
  assert (Ecl : cl = map (join_path dir) (map fst fl)) by (unfold cl; rewrite map_map; reflexivity).
  assert (Hcl : cl <> []) by (destruct cl; [discriminate|discriminate]).
  assert (Hr : r = last (sort_by (fun a b => key_ltb (sort_key a) (sort_key b)) cl) []) by (destruct cl; [contradiction|congruence]).
  clear H. set (ltb := fun a b => key_ltb (sort_key a) (sort_key b)) in *.
  assert (As : forall x y, ltb x y = true -> ltb y x = false) by (intros x y; apply key_ltb_asym).
  assert (Tr : forall x y z, ltb y x = false -> ltb z y = false -> ltb z x = false) by (intros x y z; apply key_ltb_trans).
  assert (Ir : forall x, ltb x x = false) by (intros x; apply key_ltb_irrefl).
  pose proof (sort_perm ltb cl) as Pm. pose proof (sort_sorted As Tr cl) as Ss.
  assert (Hne : sort_by ltb cl <> []).
  { intros E. rewrite E in Pm. apply Permutation_nil in Pm. contradiction. }
  assert (Hin : In r cl).
  { apply (Permutation_in _ Pm). rewrite Hr. clear - Hne. destruct (sort_by ltb cl) as [|x l]; [contradiction|].
    clear Hne. revert x. induction l as [|y l IH]; intros x; [left; reflexivity|].
    change (last (x :: y :: l) []) with (last (y :: l) (@nil ascii)). right. apply IH. }
  rewrite Ecl in Hin. apply in_map_iff in Hin. destruct Hin as (f & Hf & Hin). exists f. split; [auto|].
  apply candidate_filter in Hin. split; [exact Hin|]. intros g j Hg Hj.
  assert (Hgin : In (join_path dir g) (sort_by ltb cl)).
  { apply (Permutation_in _ (Permutation_sym Pm)). rewrite Ecl. apply in_map. apply candidate_filter. exact Hg. }
  assert (Hle : ltb r (join_path dir g) = false) by (rewrite Hr; exact (sorted_last [] Ss Hne Ir Hgin)).
  rewrite <- Hf in Hle.
  unfold ltb, sort_key in Hle.
  rewrite !iteration_of_join in Hle by (eapply Hp; [apply Hg || apply Hin]). rewrite Hj in Hle.
  destruct (get_iteration_from_ckpt_filename f) as [i|] eqn:Ei.
  - exists i. split; [reflexivity|]. cbn in Hle. destruct (i =? j) eqn:E; [apply Z.eqb_eq in E; lia|].
    apply Z.ltb_ge in Hle. exact Hle.
  - cbn in Hle. discriminate.
Qed.

(** C28: nothing is found exactly when the directory is missing or nothing in it matches. *)
Theorem C28_none_exactly_when_nothing_matches :
  forall l dir prefix exts,
  find_latest_ckpt l dir prefix exts = None <->
  (l = None \/ exists entries, l = Some entries /\ forall f, ~ candidate entries prefix exts f).
Proof.
  intros l dir prefix exts. destruct l as [entries|]; [|cbn; tauto]. unfold find_latest_ckpt.
  set (fl := filter (fun e => snd e && startswith prefix (fst e) && existsb (fun x => endswith x (fst e)) exts) entries).
  assert (Hc : forall f, In f (map fst fl) <-> candidate entries prefix exts f) by (intros; apply candidate_filter).
  destruct fl as [|e fl]; cbn [map].
  - split; [|reflexivity]. intros _. right. exists entries. split; [reflexivity|]. intros f Hf. apply Hc in Hf. destruct Hf.
  - split; [discriminate|]. intros [H|(es & H & Hn)]; [discriminate|]. inversion H; subst. exfalso. apply (Hn (fst e)).
    apply Hc. left. reflexivity.
Qed.

(** C28: the iteration number the trainer puts into a file name is the number read back,
    however many digits it has. *)
Theorem C28_file_names_carry_their_iteration :
  forall dir i, 0 <= i ->
  get_iteration_from_ckpt_filename (join_path dir (state_name i)) = Some i
  /\ forall name, ~ In slash name -> get_iteration_from_ckpt_filename (join_path dir (model_ckpt_name name i)) = Some i.
Proof.
  assert (G : forall dir pre i, 0 <= i -> ~ In slash pre -> pre <> [] ->
     get_iteration_from_ckpt_filename (join_path dir (pre ++ underscore :: padded i ++ lit ".pt")) = Some i).
  { intros dir pre i Hi Hs Hp. rewrite iteration_of_join; [apply iteration_of_name; assumption|].
    rewrite in_app_iff. cbn. rewrite in_app_iff. intros [H|[H|[H|H]]]; [contradiction|discriminate| |].
    - revert H. apply digits_no; [reflexivity|apply padded_ok; exact Hi].
    - cbn in H. destruct H as [H|[H|[H|[]]]]; discriminate. }
  intros dir i Hi. split.
  - apply (G dir (lit "state") i Hi); [|discriminate]. cbn. intros H.
    repeat (destruct H as [H|H]; [discriminate|]). exact H.
  - intros name Hn. unfold model_ckpt_name. replace (lit "ckpt_" ++ name ++ underscore :: padded i ++ lit ".pt")
      with ((lit "ckpt_" ++ name) ++ underscore :: padded i ++ lit ".pt") by (rewrite <- app_assoc; reflexivity).
    apply G; [exact Hi| |discriminate]. rewrite in_app_iff. intros [H|H]; [|contradiction]. cbn in H.
    repeat (destruct H as [H|H]; [discriminate|]). exact H.
Qed.

Lemma state_name_plain i : 0 <= i -> ~ In slash (state_name i).
Proof.
  intros Hi. unfold state_name. rewrite !in_app_iff. intros [H|[H|H]].
  - cbn in H. repeat (destruct H as [H|H]; [discriminate|]). exact H.
  - revert H. apply digits_no; [reflexivity|apply padded_ok; exact Hi].
  - cbn in H. repeat (destruct H as [H|H]; [discriminate|]). exact H.
Qed.

(** C28: resuming picks the newest training state.  The directory may hold anything else,
    in any listing order, as long as the checkpoint files called "state_..." are the
    trainer's own. *)
Theorem C28_resume_picks_the_newest_state :
  forall entries dir its,
  plain_names entries -> (forall i, In i its -> 0 <= i) -> its <> [] ->
  (forall f, candidate entries (lit "state_") default_exts f <-> exists i, In i its /\ f = state_name i) ->
  exists m, In m its /\ (forall i, In i its -> i <= m)
  /\ find_latest_ckpt (Some entries) dir (lit "state_") default_exts = Some (join_path dir (state_name m)).
Proof.
  intros entries dir its Hp Hpos Hne Hc.
  destruct (find_latest_ckpt (Some entries) dir (lit "state_") default_exts) as [r|] eqn:E.
  - destruct (C28_latest_is_the_numeric_maximum Hp E) as (f & -> & Hf & Hmax).
    apply Hc in Hf. destruct Hf as (m & Hm & ->). exists m. split; [exact Hm|]. split; [|reflexivity].
    intros i Hi. assert (Hci : candidate entries (lit "state_") default_exts (state_name i)) by (apply Hc; eauto).
    destruct (C28_file_names_carry_their_iteration [] (Hpos i Hi)) as [I1 _].
    destruct (C28_file_names_carry_their_iteration [] (Hpos m Hm)) as [I2 _].
    rewrite iteration_of_join in I1, I2 by (apply state_name_plain; auto).
    destruct (Hmax _ _ Hci I1) as (j & Hj & Hle). rewrite I2 in Hj. inversion Hj; subst. exact Hle.
  - apply C28_none_exactly_when_nothing_matches in E. destruct E as [E|(es & E & Hn)]; [discriminate|].
    inversion E; subst. destruct its as [|i its]; [contradiction|]. exfalso. apply (Hn (state_name i)). apply Hc.
    exists i. split; [left; reflexivity|reflexivity].
Qed.

(** C28 fails for export's choice of weights: the prefix "ckpt_" + model name also matches
    the files of every model whose name continues it, and at equal iteration those win
    (export.py:357, trainer/base.py:1444). *)
Theorem C28_weights_of_the_named_model_refuted :
  exists entries name other i,
    plain_names entries /\ name <> other
    /\ candidate entries (lit "ckpt_" ++ name) default_exts (model_ckpt_name name i)
    /\ find_latest_ckpt (Some entries) (lit "ckpts") (lit "ckpt_" ++ name) default_exts
       = Some (join_path (lit "ckpts") (model_ckpt_name other i)).
Proof.
  exists [(model_ckpt_name (lit "net") 5000, true); (model_ckpt_name (lit "netema") 5000, true)], (lit "net"), (lit "netema"), 5000.
  split; [|split; [discriminate|split]].
  - intros f b [H|[H|[]]]; inversion H; subst; vm_compute; intros X; repeat (destruct X as [X|X]; [discriminate|]); exact X.
  - split; [left; reflexivity|]. split; [exists (underscore :: padded 5000 ++ lit ".pt"); vm_compute; reflexivity|].
    exists (lit ".pt"), (lit "ckpt_net_0005000"). split; [left; reflexivity|vm_compute; reflexivity].
  - vm_compute. reflexivity.
Qed.

(** Eight digits sort after seven, a temporary file is ignored. *)
Example ex_latest :
  find_latest_ckpt (Some [(state_name 10000000, true); (state_name 9999999, true); (lit "state_20000000.pt.tmp", true); (lit "state_x.pt", true)])
    (lit "run/ckpts") (lit "state_") default_exts = Some (lit "run/ckpts/state_10000000.pt").
Proof. vm_compute. reflexivity. Qed.
