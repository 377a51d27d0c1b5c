(** C62: katago_numpy gives the positions of its files. *)
From Verif Require Import Base BaseFacts Decoder DecoderFacts LineEncodingOut Katago KatagoSpec.
Set Implicit Arguments. Unset Strict Implicit.

(** ** Bits and boards *)
Lemma bits_of_len b : List.length (bits_of b) = 8%nat.
Proof. reflexivity. Qed.
Lemma bits_len l : List.length (flat_map bits_of l) = (8 * List.length l)%nat.
Proof. induction l as [|b l IH]; [reflexivity|]. cbn [flat_map]. rewrite app_length, IH, bits_of_len. cbn [List.length]. lia. Qed.
Lemma bits_nth : forall l k, (k < 8 * List.length l)%nat -> nth k (flat_map bits_of l) 0 = bit l k.
Proof.
  induction l as [|b l IH]; intros k H; [cbn in H; lia|]. cbn [flat_map]. destruct (Nat.lt_ge_cases k 8) as [L|L].
  - rewrite app_nth1 by (rewrite bits_of_len; exact L). unfold bit. rewrite Nat.div_small, Nat.mod_small by exact L. do 8 (destruct k as [|k]; [reflexivity|]). lia.
  - rewrite app_nth2; rewrite bits_of_len; [|exact L]. rewrite IH by (cbn [List.length] in H; lia). unfold bit. replace k with (k - 8 + 1 * 8)%nat at 3 4 by lia.
    rewrite Nat.div_add, Nat.mod_add by lia. replace ((k - 8) / 8 + 1)%nat with (S ((k - 8) / 8)) by lia. reflexivity.
Qed.
Lemma unpack_nth c l k : (k < c)%nat -> (c <= 8 * List.length l)%nat -> nth k (unpackbits c l) 0 = bit l k.
Proof.
  intros H L. unfold unpackbits. rewrite bits_len. replace (c - 8 * List.length l)%nat with 0%nat by lia. cbn [repeat]. rewrite app_nil_r. rewrite <- bits_nth by lia.
  rewrite <- (firstn_skipn c (flat_map bits_of l)) at 2. rewrite app_nth1; [reflexivity|]. rewrite firstn_length, bits_len. lia.
Qed.
Lemma unpack_len c l : List.length (unpackbits c l) = c.
Proof. unfold unpackbits. rewrite app_length, firstn_length, repeat_length. lia. Qed.
Lemma firstn_seq A (l : list A) d n : (n <= List.length l)%nat -> firstn n l = map (fun x => nth x l d) (seq 0 n).
Proof.
  revert n. induction l as [|a l IH]; intros [|n] H; try reflexivity; [cbn in H; lia|]. cbn [firstn seq map nth]. f_equal. rewrite <- seq_shift, map_map. apply IH. cbn in H. lia.
Qed.
Lemma square_grid A (l : list A) d n : List.length l = (n * n)%nat -> square n l = grid n (fun y x => nth (y * n + x) l d).
Proof.
  intros H. unfold square, grid. apply map_ext_in. intros y Hy. apply in_seq in Hy. rewrite (firstn_seq d).
  - apply map_ext. intros x. rewrite <- (firstn_skipn (y * n) l) at 2. assert (F : List.length (firstn (y * n) l) = (y * n)%nat) by (rewrite firstn_length; nia).
    rewrite app_nth2 by lia. rewrite F. f_equal. lia.
  - rewrite skipn_length. nia.
Qed.
Lemma bytes_for_ok n : (n * n <= 8 * bytes_for n)%nat /\ (8 * bytes_for n <= n * n + 7)%nat.
Proof. unfold bytes_for. pose proof (Nat.div_mod (n * n + 7) 8 ltac:(lia)). pose proof (Nat.mod_upper_bound (n * n + 7) 8 ltac:(lia)). lia. Qed.
Lemma board_side n : (4 <= n)%nat -> Z.to_nat (Z.sqrt (Z.of_nat (bytes_for n) * 8)) = n.
Proof.
  intros H. destruct (bytes_for_ok n) as (A & B). rewrite (Z.sqrt_unique _ (Z.of_nat n)); [lia|]. nia.
Qed.
Lemma mapM_get_len A (l : list A) i d : (i < List.length l)%nat -> py_get l i = Ok (nth i l d).
Proof. intros H. unfold py_get. rewrite (nth_error_nth' l d H). reflexivity. Qed.
Lemma bind_Err_ A C (e : exn) (k : A -> res C) : (x <- Err e ;; k x) = Err e.
Proof. reflexivity. Qed.

Section Claim.
Variable V : Type.
Variables (is : Z -> V -> bool) (positive negative : V -> bool) (one minus_one : V).
Variable normalise : list V -> list V.
Hypothesis normalise_len : forall l, List.length (normalise l) = List.length l.
Variable opt : options V.
Notation load_file := (load_file is positive negative one minus_one normalise opt).
Notation construct := (construct is positive negative one minus_one normalise opt).
Notation file_of := (@file_of V).
Notation wanted := (wanted is positive negative one opt).
Notation dataset := (dataset positive one minus_one normalise opt).
Notation format_ok := (format_ok opt).

Lemma select_rows p fm rows : select (flatnonzero (map p rows)) (file_of fm rows) = Ok (file_of fm (filter p rows)).
Proof.
  pose proof (take_flat_filter p rows) as T. unfold select, KatagoSpec.file_of. cbn [packed globals targets policies n_bytes g_width t_width n_cells].
  rewrite !(take_map _ T). reflexivity.
Qed.
Definition side_ok (fm : format) (s : sample V) : bool :=
  match filter_stm opt with
  | None => true
  | Some v => if (g fm =? 1)%nat then is v (nth 0 (s_global s) one) else if v =? 1 then positive (komi one s) else negative (komi one s)
  end.
Lemma filter_const rows : filter (fun _ : sample V => true) rows = rows.
Proof. induction rows as [|r l IH]; [reflexivity|]. cbn. congruence. Qed.
Lemma filter_filter A (p q : A -> bool) l : filter q (filter p l) = filter (fun a => p a && q a) l.
Proof. induction l as [|a l IH]; [reflexivity|]. cbn. destruct (p a); cbn; [destruct (q a); congruence|exact IH]. Qed.
Lemma Forall_filter A (P : A -> Prop) p l : Forall P l -> Forall P (filter p l).
Proof. intros H. apply Forall_forall. intros a Ha. apply filter_In in Ha. destruct Ha as (Ha & _). revert a Ha. apply Forall_forall. exact H. Qed.
Lemma mapM_map_map A C D (f : C -> res D) (h : A -> C) (k : A -> D) l : (forall a, List.In a l -> f (h a) = Ok (k a)) -> mapM f (map h l) = Ok (map k l).
Proof. intros H. induction l as [|a l IH]; [reflexivity|]. cbn. rewrite (H a) by (left; reflexivity). cbn. rewrite IH by (intros b Hb; apply H; right; exact Hb). reflexivity. Qed.
Lemma width_one fm : (g_width (file_of fm []) =? 1) = (g fm =? 1)%nat.
Proof. cbn. destruct (Nat.eqb_spec (g fm) 1) as [-> |N]; [reflexivity|]. apply Z.eqb_neq. lia. Qed.
Lemma by_side_rows fm rows : format_ok fm -> Forall (sample_ok fm) rows -> by_side is positive negative opt (file_of fm rows) = Ok (file_of fm (filter (side_ok fm) rows)).
Proof.
  intros (_ & Hg & _) H. rewrite Forall_forall in H. unfold by_side, side_ok. destruct (filter_stm opt) as [v|]; [|rewrite filter_const; reflexivity].
  change (g_width (file_of fm rows)) with (g_width (file_of fm [])). rewrite width_one. destruct (Nat.eqb_spec (g fm) 1) as [E|E]; cbn [globals KatagoSpec.file_of].
  - rewrite (mapM_map_map (k := fun s => is v (nth 0 (s_global s) one))); [apply select_rows|]. intros s Hs. destruct (H s Hs) as (_ & _ & Lg & _). rewrite (mapM_get_len one) by lia. reflexivity.
  - rewrite (mapM_map_map (k := fun s => if v =? 1 then positive (komi one s) else negative (komi one s))); [apply select_rows|]. intros s Hs. destruct (H s Hs) as (_ & _ & Lg & _). rewrite (mapM_get_len one) by lia. reflexivity.
Qed.
Lemma by_condition_rows keep fm rows : condition_is opt keep -> by_condition opt (file_of fm rows) = Ok (file_of fm (filter keep rows)).
Proof.
  intros H. unfold by_condition, condition_is in *. destruct (condition opt) as [c|]; [rewrite H; apply select_rows|]. f_equal. f_equal. induction rows as [|r l IH]; [reflexivity|]. cbn. rewrite H. congruence.
Qed.
Lemma plane_unpacked fm (s : sample V) c : format_ok fm -> sample_ok fm s -> (c < 3)%nat ->
  (ch <- py_get (s_planes s) c ;; Ok (square (side fm) (unpackbits (side fm * side fm) ch))) = Ok (grid (side fm) (cell (side fm) s c)).
Proof.
  intros (Hn & _) (Lp & Fp & _) Hc. rewrite (mapM_get_len []) by lia. cbn [bind]. f_equal. fold (plane s c). rewrite (square_grid 0) by apply unpack_len. unfold grid. apply map_ext_in. intros y Hy. apply map_ext_in. intros x Hx.
  apply in_seq in Hy. apply in_seq in Hx. apply unpack_nth; [nia|]. destruct (bytes_for_ok (side fm)) as (A & _). assert (L : List.length (plane s c) = bytes_for (side fm)); [|lia].
  rewrite Forall_forall in Fp. apply Fp. unfold plane. apply nth_In. lia.
Qed.
Lemma bsize_ok fm rows : format_ok fm -> bsize (file_of fm rows) = side fm.
Proof. intros (H & _). apply board_side. exact H. Qed.
Lemma boards_unpacked fm rows dims : format_ok fm -> Forall (sample_ok fm) rows -> Forall (fun c => c < 3)%nat dims ->
  unpack_board_feature dims (file_of fm rows) = Ok (map (fun s => map (fun c => grid (side fm) (cell (side fm) s c)) dims) rows).
Proof.
  intros Hf H Hd. rewrite Forall_forall in H, Hd. unfold unpack_board_feature. rewrite bsize_ok by exact Hf. cbn [packed KatagoSpec.file_of]. apply mapM_map_map. intros s Hs.
  apply LineEncodingOut.mapM_map. intros c Hc. apply plane_unpacked; [exact Hf|apply H; exact Hs|apply Hd; exact Hc].
Qed.
Lemma grid_get A n (f : nat -> nat -> A) y : (y < n)%nat -> py_get (grid n f) y = Ok (map (f y) (seq 0 n)).
Proof. intros H. unfold py_get, grid. rewrite nth_error_map. rewrite (nth_error_nth' _ 0%nat) by (rewrite seq_length; exact H). rewrite seq_nth by exact H. reflexivity. Qed.
Lemma size_unpacked fm (s : sample V) : format_ok fm -> mask_size [grid (side fm) (cell (side fm) s 0)] = Ok (size (side fm) s).
Proof.
  intros (Hn & _). unfold mask_size. cbn [py_get nth_error bind]. rewrite grid_get by lia. cbn [bind]. unfold grid. rewrite (mapM_map_map (k := fun y => cell (side fm) s 0 y 0)); [reflexivity|].
  intros y Hy. unfold py_get. rewrite nth_error_map. rewrite (nth_error_nth' _ 0%nat) by (rewrite seq_length; lia). rewrite seq_nth by lia. reflexivity.
Qed.
Lemma unpacked keep fm rows : format_ok fm -> condition_is opt keep -> Forall (sample_ok fm) rows ->
  unpack_data is positive negative one minus_one normalise opt (file_of fm rows) = Ok (dataset (map (pair fm) (filter (fun s => side_ok fm s && keep s) rows))).
Proof.
  intros Hf Hk H. unfold unpack_data. rewrite by_side_rows by assumption. cbn [bind]. rewrite (by_condition_rows fm (filter (side_ok fm) rows) Hk). cbn [bind]. rewrite filter_filter.
  assert (H' : Forall (sample_ok fm) (filter (fun s => side_ok fm s && keep s) rows)) by (apply Forall_filter; exact H). clear H. revert H'. generalize (filter (fun s => side_ok fm s && keep s) rows). clear rows. intros rows H.
  assert (H' := H). rewrite Forall_forall in H'. assert (Hf' := Hf). destruct Hf' as (Hn & Hg & Ht).
  assert (E1 : unpack_global_feature positive one minus_one (file_of fm rows) = Ok (map (stm positive one minus_one fm) rows)).
  { unfold unpack_global_feature. change (g_width (file_of fm rows)) with (g_width (file_of fm [])). rewrite width_one. unfold stm. destruct (Nat.eqb_spec (g fm) 1) as [E|E]; cbn [globals KatagoSpec.file_of];
      apply mapM_map_map; intros s Hs; destruct (H' s Hs) as (_ & _ & Lg & _); rewrite (mapM_get_len one) by lia; reflexivity. }
  rewrite E1. cbn [bind]. rewrite (boards_unpacked Hf H) by (repeat constructor). cbn [bind].
  assert (E2 : unpack_global_target opt (file_of fm rows) = Ok (map (value one opt) rows)).
  { unfold unpack_global_target. cbn [targets KatagoSpec.file_of]. apply mapM_map_map. intros s Hs. destruct (H' s Hs) as (_ & _ & _ & Lt & _). unfold value. cbn [mapM map]. rewrite !(mapM_get_len one) by lia. cbn [bind].
    rewrite Nat.add_0_r. reflexivity. }
  rewrite E2. cbn [bind].
  assert (E3 : unpack_policy_target normalise opt (file_of fm rows) = Ok (map (policy one normalise opt (side fm)) rows)).
  { unfold unpack_policy_target. cbn [n_cells policies KatagoSpec.file_of]. replace (Z.of_nat (side fm) * Z.of_nat (side fm) + 1 - 1) with (Z.of_nat (side fm) * Z.of_nat (side fm)) by lia.
    rewrite Z.sqrt_square by lia. rewrite Z.eqb_refl. rewrite Nat2Z.id. apply mapM_map_map. intros s Hs. destruct (H' s Hs) as (_ & _ & _ & _ & Lp & Fp). rewrite (mapM_get_len []) by lia. cbn [bind]. unfold policy.
    assert (L0 : List.length (nth 0 (s_policy s) []) = (side fm * side fm + 1)%nat) by (rewrite Forall_forall in Fp; apply Fp; apply nth_In; lia).
    destruct (has_pass opt); [reflexivity|]. rewrite (square_grid one); [reflexivity|]. rewrite normalise_len, firstn_length, L0. lia. }
  rewrite E3. cbn [bind]. rewrite (boards_unpacked Hf H) by (repeat constructor). cbn [bind]. cbn [map].
  rewrite (mapM_map_map (k := size (side fm))); [|intros s _; apply size_unpacked; exact Hf]. cbn [bind]. unfold KatagoSpec.dataset. rewrite !map_map. reflexivity.
Qed.
Lemma loaded keep fm rows : format_ok fm -> condition_is opt keep -> Forall (sample_ok fm) rows ->
  load_file (file_of fm rows) = Ok (dataset (map (pair fm) (filter (wanted keep fm) rows))).
Proof.
  intros Hf Hk H. unfold Katago.load_file. rewrite (unpacked Hf Hk H). cbn [bind]. set (rs := filter _ rows). unfold KatagoSpec.dataset at 1. cbn [c_size]. rewrite !map_map.
  rewrite <- (map_map (size (side fm)) (boardsizes opt)).
  assert (T : take rs (flatnonzero (map (boardsizes opt) (map (size (side fm)) rs))) = Ok (filter (wanted keep fm) rows)).
  { rewrite map_map. rewrite (take_flat_filter (fun s => boardsizes opt (size (side fm) s)) rs). f_equal. unfold rs. rewrite filter_filter. apply filter_ext. intros s. reflexivity. }
  pose proof (take_map (pair fm) T) as T'. unfold select_cols, KatagoSpec.dataset. cbn [c_size c_board c_stm c_value c_policy].
  rewrite !(take_map _ T'). reflexivity.
Qed.

(** ** C62 *)
(** Files of any number of samples, of one board format: the data set consists of exactly the wanted samples, in the order of the
    files, and each field of a sample is what the format says; without any, it refuses to be built. *)
Theorem C62_the_dataset_is_the_wanted_positions : forall keep n (files : list (format * list (sample V))),
  condition_is opt keep -> files <> [] ->
  (forall fm rows, List.In (fm, rows) files -> side fm = n /\ format_ok fm /\ Forall (sample_ok fm) rows) ->
  let rows := flat_map (fun '(fm, rows) => map (pair fm) (filter (wanted keep fm) rows)) files in
  construct (map (fun '(fm, rows) => file_of fm rows) files) = match rows with [] => Err ValueError | _ => Ok (dataset rows) end.
Proof.
  intros keep n files Hk Hne H rows. unfold Katago.construct.
  rewrite (mapM_map_map (k := fun '(fm, rs) => dataset (map (pair fm) (filter (wanted keep fm) rs)))); [|intros (fm, rs) I; destruct (H fm rs I) as (_ & A & B); apply loaded; assumption].
  cbn [bind]. replace (match map (fun '(fm, rs) => file_of fm rs) files with [] => true | _ => false end) with false by (destruct files as [|[? ?]]; [congruence|reflexivity]). cbn [negb].
  assert (Sx : same_axes (map (fun '(fm, rs) => file_of fm rs) files) = true).
  { unfold same_axes. destruct files as [|(fm, rs) r]; [reflexivity|]. cbn [map]. apply forallb_forall. intros q Hq. apply in_map_iff in Hq. destruct Hq as ((fm', rs') & <- & I').
    destruct (H fm rs (or_introl eq_refl)) as (A1 & A2 & _). destruct (H fm' rs' (or_intror I')) as (B1 & B2 & _). rewrite !bsize_ok by assumption. cbn [n_cells KatagoSpec.file_of]. rewrite A1, B1, Nat.eqb_refl, Z.eqb_refl. reflexivity. }
  rewrite Sx.
  assert (Fl : forall A (f : cols V -> list A) (h : format * sample V -> A), (forall rs, f (dataset rs) = map h rs) -> flat_map f (map (fun '(fm, rs) => dataset (map (pair fm) (filter (wanted keep fm) rs))) files) = map h rows).
  { intros A f h E. unfold rows. clear H Hne Sx rows. induction files as [|(fm, rs) r IH]; [reflexivity|]. cbn [map flat_map]. rewrite IH, E, map_app. reflexivity. }
  cbn zeta. rewrite (Fl _ (@c_size V) (fun '(fm, s) => size (side fm) s)), (Fl _ (@c_board V) (fun '(fm, s) => board (side fm) s)), (Fl _ (@c_stm V) (fun '(fm, s) => stm positive one minus_one fm s)),
    (Fl _ (@c_value V) (fun '(fm, s) => value one opt s)), (Fl _ (@c_policy V) (fun '(fm, s) => policy one normalise opt (side fm) s)) by reflexivity.
  cbn [c_size c_board c_stm c_value c_policy]. rewrite !map_length, !Nat.eqb_refl. destruct rows; reflexivity.
Qed.
(** Files of boards of different sides are refused. *)
Theorem C62_files_of_different_sides_are_refused : forall keep fm rows (files : list (format * list (sample V))),
  condition_is opt keep -> List.In (fm, rows) files -> (exists fm' rows', List.In (fm', rows') files /\ side fm' <> side fm) ->
  (forall fm rows, List.In (fm, rows) files -> format_ok fm /\ Forall (sample_ok fm) rows) ->
  construct (map (fun '(fm, rows) => file_of fm rows) files) = Err ValueError.
Proof.
  intros keep fm rows files Hk I0 (fm' & rows' & I1 & D) H. unfold Katago.construct.
  rewrite (mapM_map_map (k := fun '(fm, rs) => dataset (map (pair fm) (filter (wanted keep fm) rs)))); [|intros (fm2, rs) I; destruct (H fm2 rs I) as (A & B); apply loaded; assumption].
  cbn [bind]. replace (match map (fun '(fm, rs) => file_of fm rs) files with [] => true | _ => false end) with false by (destruct files as [|[? ?]]; [destruct I0|reflexivity]). cbn [negb].
  replace (same_axes (map (fun '(fm, rs) => file_of fm rs) files)) with false; [reflexivity|]. symmetry. destruct (same_axes (map (fun '(fm, rs) => file_of fm rs) files)) eqn:E; [exfalso|reflexivity].
  destruct files as [|(f0, r0) r]; [destruct I0|]. unfold same_axes in E. cbn [map] in E. rewrite forallb_forall in E.
  assert (Y : forall q qs, List.In (q, qs) ((f0, r0) :: r) -> side q = side f0).
  { intros q qs Hq. destruct (H q qs Hq) as (A & _). destruct (H f0 r0 (or_introl eq_refl)) as (A0 & _). destruct Hq as [Hq|Hq]; [injection Hq as -> _; reflexivity|]. specialize (E (file_of q qs)).
    assert (X : List.In (file_of q qs) (map (fun '(fm, rs) => file_of fm rs) r)) by (apply in_map_iff; exists (q, qs); split; [reflexivity|exact Hq]). specialize (E X). apply Bool.andb_true_iff in E. destruct E as (E & _). apply Nat.eqb_eq in E.
    rewrite !bsize_ok in E by assumption. exact E. }
  apply D. rewrite (Y _ _ I0), (Y _ _ I1). reflexivity.
Qed.
End Claim.

(** ** A concrete case *)
(** Numbers as integers; a 4 x 4 board takes two bytes. *)
Definition ex_sample (planes : list (list Z)) (komi : Z) : sample Z :=
  {| s_planes := planes; s_global := [0; 0; 0; 0; 0; komi]; s_target := [1; 2; 3]; s_policy := [map Z.of_nat (seq 0 17)] |}.
Definition ex_a := ex_sample [[255; 255]; [128; 1]; [64; 0]] 7.
Definition ex_b := ex_sample [[238; 224]; [0; 2]; [0; 4]] (-7).
Definition ex_c := ex_sample [[255; 255]; [0; 0]; [1; 0]] 0.
Definition ex_format : format := {| side := 4; g := 6; t := 3 |}.
Definition ex_opt (s : option Z) : options Z := {| filter_stm := s; has_pass := false; td_level := 0; boardsizes := fun '(h, w) => (h =? 4) && (w =? 4); condition := None |}.
Definition ex_build s := construct (fun v x => v =? x) (fun x => 0 <? x) (fun x => x <? 0) 1 (-1) (fun l : list Z => l) (ex_opt s).

Example C62_hypotheses_met :
  format_ok (ex_opt None) ex_format /\ Forall (sample_ok ex_format) [ex_a; ex_b; ex_c]
  /\ match ex_build None [file_of ex_format [ex_a; ex_b]; file_of ex_format [ex_c]] with
     | Ok c => c_stm c = [[1]; [-1]] /\ c_size c = [(4, 4); (4, 4)]
               /\ nth 0 (c_board c) [] = [[[1;0;0;0];[0;0;0;0];[0;0;0;0];[0;0;0;1]]; [[0;1;0;0];[0;0;0;0];[0;0;0;0];[0;0;0;0]]]
               /\ nth 0 (c_policy c) (Flat []) = Grid [[0;1;2;3];[4;5;6;7];[8;9;10;11];[12;13;14;15]]
     | Err _ => False
     end.
Proof.
  split; [|split].
  - unfold format_ok. cbn. lia.
  - repeat constructor; cbn; lia.
  - vm_compute. repeat split; reflexivity.
Qed.

(** F36.  Without a filter on the side to move, a position of komi 0 is loaded, as one with black to move; with the filter for either
    side it is not there. *)
Theorem C62_every_position_belongs_to_a_side_refuted :
  (exists c, ex_build None [file_of ex_format [ex_a; ex_c]] = Ok c /\ c_stm c = [[1]; [-1]])
  /\ (exists c, ex_build (Some 1) [file_of ex_format [ex_a; ex_c]] = Ok c /\ c_stm c = [[1]])
  /\ ex_build (Some (-1)) [file_of ex_format [ex_a; ex_c]] = Err ValueError.
Proof. split; [|split]; [eexists; split; vm_compute; reflexivity..|vm_compute; reflexivity]. Qed.

(** F38.  Boards stored in 3 x 3 bits are not read as such: two bytes are taken for a board of side 4. *)
Definition ex_small : sample Z := {| s_planes := [[255; 128]; [128; 0]; [64; 0]]; s_global := [1]; s_target := [1; 2; 3]; s_policy := [map Z.of_nat (seq 0 10)] |}.
Definition ex_opt3 : options Z := {| filter_stm := None; has_pass := false; td_level := 0; boardsizes := fun _ => true; condition := None |}.
Theorem C62_boards_of_any_side_refuted :
  let fm := {| side := 3; g := 1; t := 3 |} in
  sample_ok fm ex_small
  /\ exists c, construct (fun v x => v =? x) (fun x => 0 <? x) (fun x => x <? 0) 1 (-1) (fun l : list Z => l) ex_opt3 [file_of fm [ex_small]] = Ok c
               /\ size 3 ex_small = (3, 3) /\ c_size c = [(3, 4)] /\ map (fun b => List.length (nth 0 b [])) (c_board c) = [4%nat].
Proof. split; [repeat constructor; cbn; lia|]. eexists. split; [vm_compute; reflexivity|]. repeat split; vm_compute; reflexivity. Qed.
