(** C43: a decoded batch is its rows decoded one by one, whichever path decodes it. *)
From Verif Require Import Base BaseFacts Rng RngFacts Symmetry Checkpoint Decoder DecoderFacts DecoderRng DecoderSpec DecoderVec DecoderTurn DecoderBatch DecoderGroups DecoderPacked.
Set Implicit Arguments.
Unset Strict Implicit.

Section C43.
  Variables (B V P : Type) (pz : P) (vz : V) (bz : B).
  Variable header : bytes.
  Variable hash64 : bytes -> Z.
  Variable junk_index : nat -> Z.
  Variable junk_board : nat -> stack B.
  Variable junk_stm : nat -> list Z.
  Variable junk_value : nat -> list V.
  Variable junk_policy : nat -> policy P.
  Variable junk_size : nat -> Z * Z.
  Variable junk_plane : nat -> plane P.
  Variable load : Z -> res (npz B V P).
  Variable cfg : config.
  Notation row := (row B V P).
  Notation cols := (cols B V P).
  Notation one := (decode_one pz header hash64 junk_index load cfg bz).
  Notation dlax := (decode_lax pz vz bz header hash64 junk_index load cfg).
  Notation batch := (decode_batch pz vz header hash64 junk_index junk_board junk_stm junk_value junk_policy junk_size junk_plane load cfg bz).
  Notation batches := (decode_batches pz vz header hash64 junk_index junk_board junk_stm junk_value junk_policy junk_size junk_plane load cfg bz).
  Notation packed_batch := (decode_packed_batch pz vz header hash64 junk_index junk_board junk_stm junk_value junk_policy junk_size junk_plane load cfg bz).

  Lemma one_rows refs rows : d_fixed_board_size cfg = None -> Forall (placed load) refs ->
    mapM one refs = Ok rows <-> mapM dlax refs = Ok rows /\ Forall (fun r => valid_row r = true) rows.
  Proof.
    intros Hn HF. revert rows. induction HF as [|r refs Hr HF IH]; intros rows; cbn [mapM].
    - split; [intros H; injection H as <-; auto|]. intros [H _]. exact H.
    - split.
      + intros H. inv_bind H. inv_bind H. injection H as <-. apply decode_one_lax with (vz := vz) in Hm as [H1 H2]; [|assumption..].
        destruct (proj1 (IH _) Hm0) as [H3 H4]. rewrite H1. cbn [bind]. rewrite H3. split; [reflexivity|]. now constructor.
      + intros [H HV]. inv_bind H. inv_bind H. injection H as <-. inversion_clear HV as [|? ? V1 V2].
        assert (E : one r = Ok v) by (apply decode_one_lax with (vz := vz); auto). rewrite E. cbn [bind].
        assert (E2 : mapM one refs = Ok v0) by (apply IH; auto). rewrite E2. reflexivity.
  Qed.

  Lemma lax_sized refs rows : Forall (placed load) refs -> mapM dlax refs = Ok rows -> Forall (@sized B V P) rows.
  Proof.
    intros HF H. rewrite Forall_forall in *. intros x Hx. destruct (mapM_ok_in H Hx) as (r & Hr & E). now destruct (decode_lax_one E (HF r Hr)).
  Qed.

  Lemma stack_uniform (rows : list row) : stackable rows -> uniform_boards rows.
  Proof. intros H a b Ha Hb. destruct (H a b Ha Hb) as (E1 & _ & _ & E2). auto. Qed.

  Lemma valid_stack refs rows : refs <> [] -> Forall (placed load) refs -> mapM dlax refs = Ok rows -> stackable rows ->
    validate_batch (stacked rows) = true <-> Forall (fun r => valid_row r = true) rows.
  Proof.
    intros Hne HF H Hst. apply validate_rows; [|eapply lax_sized; eauto|now apply stack_uniform].
    intros ->. apply mapM_len in H. destruct refs; [congruence|discriminate].
  Qed.

  (** decode_batch on references to existing rows returns valid columns exactly when every
      row decodes on its own and the rows stack, and then the columns are those rows. *)
  Theorem C43_batch_is_its_rows refs d :
    d_fixed_board_size cfg = None -> refs <> [] -> Forall (placed load) refs ->
    (batch refs = Ok (Some d) /\ validate_batch d = true <->
     exists rows, mapM one refs = Ok rows /\ stackable rows /\ d = stacked rows).
  Proof.
    intros Hn Hne HF. rewrite (batch_lax pz vz bz header hash64 junk_index junk_board junk_stm junk_value junk_policy junk_size junk_plane d Hn Hne HF). split.
    - intros [(rows & H & Hst & ->) Hv]. exists rows. split; [|auto]. apply one_rows; auto. split; [exact H|]. eapply valid_stack; eauto.
    - intros (rows & H & Hst & ->). apply one_rows in H as [H Hv]; auto. split; [exists rows; auto|]. eapply valid_stack; eauto.
  Qed.

  (** with a fixed side or a symmetry the batch path checks the fields itself *)
  Lemma transformed_valid refs rows : transforms cfg = true -> Forall (placed load) refs -> mapM dlax refs = Ok rows ->
    Forall (fun r => valid_row r = true) rows.
  Proof.
    intros Ht HF H. rewrite Forall_forall in *. intros x Hx. destruct (mapM_ok_in H Hx) as (r & Hr & E).
    destruct (placed_load (HF r Hr)) as (f & Hl & Hp). unfold decode_lax in E. inv_bind E. inv_bind E.
    destruct (fetch_Ok pz vz bz header hash64 load cfg Hp) as (pre & E2 & Hs & _). unfold fetch_ref in Hm. rewrite Hl in Hm. cbn [bind] in Hm. rewrite E2 in Hm. injection Hm as <-.
    pose proof (row_dims_settle Hm0 Hs) as Hs2. destruct (lax_layout Hs2 E) as ((A1 & _ & _ & A4) & A5 & _ & A6).
    rewrite <- (valid_row_shape Hs2 A5 A1 A4). auto.
  Qed.

  Theorem C43_transformed_batch_is_its_rows refs d :
    d_fixed_side cfg = true \/ d_symmetry cfg <> None ->
    d_fixed_board_size cfg = None -> refs <> [] -> Forall (placed load) refs ->
    (batch refs = Ok (Some d) <-> exists rows, mapM one refs = Ok rows /\ stackable rows /\ d = stacked rows).
  Proof.
    intros Ht Hn Hne HF. rewrite <- (C43_batch_is_its_rows d Hn Hne HF). split; [|tauto]. intros H. split; [exact H|].
    apply (batch_lax pz vz bz header hash64 junk_index junk_board junk_stm junk_value junk_policy junk_size junk_plane d Hn Hne HF) in H as (rows & H & Hst & ->).
    eapply valid_stack; eauto. apply (transformed_valid (refs := refs)); auto. unfold transforms, has_symmetry. destruct (d_fixed_side cfg); [reflexivity|].
    destruct (d_symmetry cfg); [reflexivity|]. destruct Ht as [Ht|Ht]; congruence.
  Qed.

  (** decode_packed_batch: the same rows, for files that store one policy layout *)
  Theorem C43_packed_batch_is_its_rows q refs d :
    d_fixed_board_size cfg = None -> q_rows q <> [] -> List.length (q_files q) = List.length (q_rows q) ->
    packed_refs q = Ok refs -> Forall (placed load) refs ->
    same_stored_policies (zero_policy pz (d_has_pass_move cfg)) load refs ->
    (packed_batch q = Ok (Some d) /\ validate_batch d = true <->
     exists rows, mapM one refs = Ok rows /\ stackable rows /\ d = stacked rows).
  Proof.
    intros Hn Hne HL Hr HF Hsp.
    rewrite (packed_rows_lax pz vz bz header hash64 junk_index junk_board junk_stm junk_value junk_policy junk_size junk_plane HL Hr HF Hne d Hn).
    assert (Hrn : refs <> []) by (intros ->; apply mapM_len in Hr; rewrite combine_length in Hr; destruct (q_rows q); [congruence|cbn in *; lia]).
    split.
    - intros [(pres & rows & H1 & H2 & H3 & ->) Hv]. assert (Hst : stackable rows) by (unfold stackable; eapply raw_stack_lax; eauto).
      exists rows. split; [|auto]. apply one_rows; auto. split; [exact H3|]. eapply valid_stack; eauto.
    - intros (rows & H & Hst & ->). apply one_rows in H as [H Hv]; auto. split; [|eapply valid_stack; eauto].
      destruct (fetch_total pz vz bz header hash64 cfg Hr HF) as (pres & Hpres & _). exists pres, rows.
      split; [exact Hpres|]. split; [|auto]. unfold stackable. eapply stored_layouts; eauto.
  Qed.

  (** without that condition: what a packed request returns is still what the rows are *)
  Theorem C43_packed_batch_sound q refs d :
    d_fixed_board_size cfg = None -> q_rows q <> [] -> List.length (q_files q) = List.length (q_rows q) ->
    packed_refs q = Ok refs -> Forall (placed load) refs ->
    packed_batch q = Ok (Some d) -> batch refs = Ok (Some d).
  Proof.
    intros Hn Hne HL Hr HF H.
    apply (packed_rows_lax pz vz bz header hash64 junk_index junk_board junk_stm junk_value junk_policy junk_size junk_plane HL Hr HF Hne d Hn) in H.
    assert (Hrn : refs <> []) by (intros ->; apply mapM_len in Hr; rewrite combine_length in Hr; destruct (q_rows q); [congruence|cbn in *; lia]).
    destruct H as (pres & rows & H1 & H2 & H3 & ->). apply batch_lax; auto. exists rows. split; [exact H3|]. split; [|reflexivity]. unfold stackable. eapply raw_stack_lax; eauto.
  Qed.

  (** decode_batches returns exactly what decode_batch returns for each batch *)
  Theorem C43_fused_batches bs ds :
    d_fixed_board_size cfg = None -> bs <> [] -> (forall b, In b bs -> b <> [] /\ Forall (placed load) b) ->
    batches bs = Ok (Some ds) -> Forall2 (fun b d => batch b = Ok (Some d)) bs ds.
  Proof.
    intros Hn Hne Hb H. destruct (@batches_lax B V P pz vz bz header hash64 junk_index junk_board junk_stm junk_value junk_policy junk_size junk_plane load cfg bs ds Hn Hne) as [F _].
    { intros b Hin. now apply Hb. } { intros b Hin. now apply Hb. }
    destruct (F H) as (rss & Hm & -> & Hst). clear F H Hne. revert rss Hm Hst. induction bs as [|b bs IH]; intros rss Hm Hst; cbn [mapM] in Hm.
    - injection Hm as <-. constructor.
    - inv_bind Hm. inv_bind Hm. injection Hm as <-. cbn [map]. constructor.
      + destruct (Hb b (or_introl eq_refl)) as [B1 B2]. apply batch_lax; auto. exists v. split; [exact Hm0|]. split; [|reflexivity]. apply Hst. now left.
      + apply IH; [intros; apply Hb; now right|exact Hm1|]. intros rs Hrs. apply Hst. now right.
  Qed.

  (** and it answers whenever all the rows decode and stack *)
  Theorem C43_fused_batches_complete bs rss :
    d_fixed_board_size cfg = None -> bs <> [] -> (forall b, In b bs -> b <> [] /\ Forall (placed load) b) ->
    mapM (mapM one) bs = Ok rss -> stackable (List.concat rss) -> batches bs = Ok (Some (map (@stacked B V P) rss)).
  Proof.
    intros Hn Hne Hb H Hst. apply batches_lax with (rss := rss); auto; try (intros b Hin; now apply Hb).
    clear Hne Hst. revert rss H. induction bs as [|b bs IH]; intros rss H; cbn [mapM] in *; [exact H|].
    inv_bind H. inv_bind H. injection H as <-. apply one_rows in Hm as [Hm _]; [|exact Hn|apply Hb; now left].
    rewrite Hm. cbn [bind]. rewrite (IH (fun b Hin => Hb b (or_intror Hin)) _ Hm0). reflexivity.
  Qed.

  (** With a fixed board size, where rows have to be padded one by one, every batch path declines,
      so that no batch of unpadded rows is ever returned. *)
  Theorem C43_fixed_size_declines refs q bs size : d_fixed_board_size cfg = Some size ->
    batch refs = Ok None /\ packed_batch q = Ok None /\ batches bs = Ok None.
  Proof. intros H. unfold batch, packed_batch, batches, decode_batch, decode_packed_batch, decode_batches. rewrite H. auto. Qed.

  (** ** the per-row symmetry draws *)
  (** a row's draw does not depend on the other rows of its batch *)
  Theorem C43_draw_is_per_row n seed domain epoch keys occurrence l : keys <> [] ->
    (sample_keys_v2 header hash64 junk_index n seed domain epoch keys occurrence = Ok l <->
     Forall2 (fun k v => sample_keys_v2 header hash64 junk_index n seed domain epoch [k] occurrence = Ok [v]) keys l).
  Proof.
    intros Hne. rewrite keys_v2_rows by exact Hne.
    assert (H1 : forall k v, sample_keys_v2 header hash64 junk_index n seed domain epoch [k] occurrence = Ok [v] <-> bound_ok n = true /\ row_draw header hash64 n seed domain epoch occurrence k = Ok v).
    { intros k v. rewrite keys_v2_rows by discriminate. cbn [mapM]. split; intros [Hb H]; (split; [exact Hb|]).
      - inv_bind H. now injection H as <-.
      - now rewrite H. }
    split.
    - intros [Hb H]. clear Hne. revert l H. induction keys as [|k keys IH]; intros l H; cbn [mapM] in H; [injection H as <-; constructor|].
      inv_bind H. inv_bind H. injection H as <-. constructor; [apply H1; auto|auto].
    - intros H. split; [destruct H as [|k v ks vs H _]; [congruence|now apply H1 in H]|]. clear Hne.
      induction H as [|k v ks vs H _ IH]; [reflexivity|]. cbn [mapM]. apply H1 in H as [_ H]. rewrite H. cbn [bind]. rewrite IH. reflexivity.
  Qed.

  Theorem C43_draw_in_range n seed domain epoch keys occurrence l v :
    sample_keys_v2 header hash64 junk_index n seed domain epoch keys occurrence = Ok l -> In v l -> 0 <= v < n.
  Proof.
    intros H Hin. destruct keys as [|k ks].
    - unfold sample_keys_v2 in H. apply guard_Ok in H as [_ H]. destruct (negb _); [|injection H as <-; destruct Hin].
      unfold processed_sample_keys in H. apply guard_Ok in H as [_ H]. inv_bind H. inv_bind H. inv_bind H. cbn in H. injection H as <-. destruct Hin.
    - apply keys_v2_rows in H as [Hb H]; [|discriminate]. destruct (mapM_ok_in H Hin) as (k2 & _ & E). eapply row_draw_range; eauto.
  Qed.

  (** when the number of choices is not a power of two the draw is uniform_below's, the
      hash stream of core.py:415-459, on the whole key of the row *)
  Theorem C43_draw_is_uniform_below n seed domain epoch k occurrence v :
    is_pow2_bound n = false -> address_ok k = true ->
    (sample_keys_v2 header hash64 junk_index n seed domain epoch [k] occurrence = Ok [v] <->
     exists c, uniform_below header hash64 n seed (KStr domain) (KTuple [KInt epoch; key_of k; KInt occurrence]) 0 = Ok (v, c)).
  Proof.
    intros Hp Ha. rewrite keys_v2_rows by discriminate. unfold row_draw. rewrite Hp. unfold reference_draw. cbn [mapM]. rewrite Ha. fold (hashed_key epoch occurrence k).
    split.
    - intros [_ H]. inv_bind H. injection H as ->. destruct (uniform_below _ _ _ _ _ _ _) as [[w c]|]; [|discriminate]. cbn in Hm. injection Hm as ->. eauto.
    - intros (c & H). rewrite H. split; [|reflexivity]. unfold uniform_below in H. destruct (bound_ok n); [reflexivity|discriminate].
  Qed.

  (** a packed request draws what its expanded keys draw *)
  Theorem C43_packed_draw n seed domain epoch occurrence digests files rows keys l :
    List.length rows = List.length files -> rows <> [] -> is_pow2_bound n = true ->
    mapM (fun '(f, r) => packed_key digests f r) (combine files rows) = Ok keys ->
    (packed_rows_v2 header hash64 junk_index n seed domain epoch digests files rows occurrence = Ok l <->
     sample_keys_v2 header hash64 junk_index n seed domain epoch keys occurrence = Ok l).
  Proof. apply packed_rows_keys. Qed.
End C43.

(** No uninitialised memory is ever part of a decoded batch. *)
Section Junk.
  Variables (B V P : Type) (pz : P) (vz : V) (bz : B).
  Variable header : bytes.
  Variable hash64 : bytes -> Z.
  Variable load : Z -> res (npz B V P).
  Variable cfg : config.

  Lemma lax_junk ji1 ji2 r x : decode_lax pz vz bz header hash64 ji1 load cfg r = Ok x -> decode_lax pz vz bz header hash64 ji2 load cfg r = Ok x.
  Proof.
    unfold decode_lax. intros H. inv_bind H. inv_bind H. rewrite Hm. cbn [bind]. rewrite Hm0. cbn [bind]. unfold lax_row in *. destruct (transforms cfg); [|exact H].
    inv_bind H. assert (E : row_symmetry_index header hash64 ji2 cfg (r_size v0) (rf_key r) = Ok v1); [|rewrite E; exact H].
    destruct (d_symmetry cfg) as [kind|] eqn:Hk.
    - apply (row_symmetry_index_Ok header hash64 ji2 _ _ _ Hk). now apply (row_symmetry_index_Ok header hash64 ji1 _ _ _ Hk).
    - unfold row_symmetry_index in *. rewrite Hk in *. exact Hm1.
  Qed.

  Theorem C43_no_uninitialised_memory refs d ji1 ji2 jb1 jb2 js1 js2 jv1 jv2 jp1 jp2 jz1 jz2 jl1 jl2 :
    d_fixed_board_size cfg = None -> refs <> [] -> Forall (placed load) refs ->
    decode_batch pz vz header hash64 ji1 jb1 js1 jv1 jp1 jz1 jl1 load cfg bz refs = Ok (Some d) ->
    decode_batch pz vz header hash64 ji2 jb2 js2 jv2 jp2 jz2 jl2 load cfg bz refs = Ok (Some d).
  Proof.
    intros Hn Hne HF H. apply batch_lax in H as (rows & H & Hst & ->); [|assumption..]. apply batch_lax; [assumption..|]. exists rows. split; [|auto].
    clear -H. revert rows H. induction refs as [|r refs IH]; intros rows H; cbn [mapM] in *; [exact H|].
    inv_bind H. inv_bind H. injection H as <-. rewrite (lax_junk ji2 Hm). cbn [bind]. rewrite (IH _ Hm0). reflexivity.
  Qed.
End Junk.

(** ** a concrete dataset *)
Definition ex_board (n : Z) : stack Z := {| k_h := 2; k_w := 2; k_ch := [fun y x => n + 2 * y + x; fun y x => n + 10 + 2 * y + x] |}.
Definition ex_plane (n : Z) : policy Z := PPlane {| p_h := 2; p_w := 2; p_at := fun y x => n + 2 * y + x |}.
Definition ex_flat (n : Z) : policy Z := PFlat {| v_len := 5; v_at := fun i => n + i |}.
Definition ex_file_a : npz Z Z Z :=
  {| f_bf := [ex_board 0; ex_board 100]; f_gf := Some [[-1]; [1]]; f_vt := [[1; 2; 3]; [4; 5; 6]]; f_pt := Some [ex_plane 0; ex_plane 50] |}.
Definition ex_file_b : npz Z Z Z :=
  {| f_bf := [ex_board 200]; f_gf := None; f_vt := [[7; 8; 9]]; f_pt := None |}.
Definition ex_file_c : npz Z Z Z :=
  {| f_bf := [ex_board 300]; f_gf := None; f_vt := [[7; 8; 9]]; f_pt := Some [ex_flat 40] |}.
Definition ex_load (path : Z) : res (npz Z Z Z) :=
  if path =? 1 then Ok ex_file_a else if path =? 2 then Ok ex_file_b else if path =? 3 then Ok ex_file_c else Err OSError.
Definition ex_ref (path i : Z) : ref :=
  {| rf_path := path; rf_address := [i]; rf_size := (2, 2);
     rf_key := {| sk_ns := bytes_root; sk_digest := [path]; sk_kind := bytes_npz_row; sk_address := [i] |} |}.
Definition ex_cfg (fixed : bool) (sym : option sym_kind) : config :=
  {| d_fixed_side := fixed; d_fixed_board_size := None; d_has_pass_move := false; d_symmetry := sym; d_seed := 7; d_epoch := 1 |}.
Definition ex_hash (l : bytes) : Z := fold_left (fun a b => (a * 31 + b) mod two64) l 17.
Definition ex_batch cfg refs :=
  decode_batch 0 0 [] ex_hash (fun _ => -1) (fun _ => ex_board (-9)) (fun _ => []) (fun _ => []) (fun _ => ex_plane (-9))
    (fun _ => (0, 0)) (fun _ => {| p_h := 0; p_w := 0; p_at := fun _ _ => 0 |}) ex_load cfg 0 refs.
Definition ex_packed cfg q :=
  decode_packed_batch 0 0 [] ex_hash (fun _ => -1) (fun _ => ex_board (-9)) (fun _ => []) (fun _ => []) (fun _ => ex_plane (-9))
    (fun _ => (0, 0)) (fun _ => {| p_h := 0; p_w := 0; p_at := fun _ _ => 0 |}) ex_load cfg 0 q.
Definition ex_one cfg r := decode_one 0 [] ex_hash (fun _ => -1) ex_load cfg 0 r.

Lemma ex_rect : rectangular ex_file_a /\ rectangular ex_file_b /\ rectangular ex_file_c.
Proof.
  assert (A2 : forall A C (f : A -> C) x y, f x = f y -> all_same f [x; y]).
  { intros A C f x y E a b Ha Hb. cbn in Ha, Hb. destruct Ha as [<-|[<-|[]]], Hb as [<-|[<-|[]]]; congruence. }
  assert (A1 : forall A C (f : A -> C) x, all_same f [x]).
  { intros A C f x a b Ha Hb. cbn in Ha, Hb. destruct Ha as [<-|[]], Hb as [<-|[]]; congruence. }
  split; [|split]; (split; [first [now apply A2|apply A1]|]); (split; [first [now apply A2|apply A1]|]); (split; [reflexivity|]); split;
    intros l H; try discriminate; injection H as <-; (split; [first [now apply A2|apply A1]|reflexivity]).
Qed.
Lemma ex_placed_a i : 0 <= i < 2 -> placed ex_load (ex_ref 1 i).
Proof. intros H. exists ex_file_a, i, (ex_board 0). cbn. pose proof ex_rect as (R & _). split; [reflexivity|]. split; [exact R|]. split; [reflexivity|]. split; [exact H|]. auto. Qed.
Lemma ex_placed_b : placed ex_load (ex_ref 2 0).
Proof. exists ex_file_b, 0, (ex_board 200). pose proof ex_rect as (_ & R & _). split; [reflexivity|]. split; [exact R|]. split; [reflexivity|]. split; [unfold zlen; cbn [ex_file_b ex_file_c f_bf List.length]; lia|]. cbn. auto. Qed.
Lemma ex_placed_c : placed ex_load (ex_ref 3 0).
Proof. exists ex_file_c, 0, (ex_board 300). pose proof ex_rect as (_ & _ & R). split; [reflexivity|]. split; [exact R|]. split; [reflexivity|]. split; [unfold zlen; cbn [ex_file_b ex_file_c f_bf List.length]; lia|]. cbn. auto. Qed.

(** what the batch of three rows of two files looks like *)
Definition probe (d : res (option (cols Z Z Z))) : option (list (Z * Z) * list (list Z) * list (list Z) * list (list Z)) :=
  match d with
  | Ok (Some d) =>
      Some (c_size d, map (fun b => map (fun f => f 0 1) (k_ch b)) (c_board d), c_value d,
            map (fun p => match p with PPlane q => [p_at q 0 1; p_at q 1 0] | PFlat v => [v_at v 1] end) (c_policy d))
  | _ => None
  end.
Example C43_example :
  Forall (placed ex_load) [ex_ref 1 1; ex_ref 2 0; ex_ref 1 0] /\
  probe (ex_batch (ex_cfg true (Some KDefault)) [ex_ref 1 1; ex_ref 2 0; ex_ref 1 0]) =
  Some ([(2, 2); (2, 2); (2, 2)], [[111; 101]; [201; 211]; [2; 12]],
        [[5; 4; 6]; [7; 8; 9]; [1; 2; 3]], [[51; 52]; [0; 0]; [2; 1]]) /\
  probe (ex_packed (ex_cfg true (Some KDefault))
           {| q_paths := [1; 2]; q_digests := [[1]; [2]]; q_files := [0; 1; 0]%nat; q_rows := [1; 0; 0]; q_size := (2, 2) |}) =
  probe (ex_batch (ex_cfg true (Some KDefault)) [ex_ref 1 1; ex_ref 2 0; ex_ref 1 0]).
Proof.
  split; [|split; vm_compute; reflexivity].
  constructor; [apply ex_placed_a; lia|]. constructor; [apply ex_placed_b|]. constructor; [apply ex_placed_a; lia|constructor].
Qed.

Example C43_example_packed :
  let q := {| q_paths := [1; 2]; q_digests := [[1]; [2]]; q_files := [0; 1; 0]%nat; q_rows := [1; 0; 0]; q_size := (2, 2) |} in
  packed_refs q = Ok [ex_ref 1 1; ex_ref 2 0; ex_ref 1 0] /\
  same_stored_policies (zero_policy 0 false) ex_load [ex_ref 1 1; ex_ref 2 0; ex_ref 1 0].
Proof.
  split; [reflexivity|]. intros r1 r2 f1 f2 H1 H2 L1 L2.
  assert (X : forall r f, In r [ex_ref 1 1; ex_ref 2 0; ex_ref 1 0] -> ex_load (rf_path r) = Ok f -> policy_shape (stored_policy (zero_policy 0 false) f (rf_size r)) = (true, 2, 2)).
  { intros r f H L. cbn in H. destruct H as [<-|[<-|[<-|[]]]]; cbn in L; injection L as <-; reflexivity. }
  rewrite (X r1 f1 H1 L1), (X r2 f2 H2 L2). reflexivity.
Qed.

(** F22: a packed request may be refused although the same rows decode one by one and as
    an ordinary batch: the layouts of the files are compared before a stored pass entry
    is dropped, so a file without stored policies and a file with flat ones never mix. *)
Theorem C43_packed_answers_like_batch_refuted :
  ~ (forall cfg q refs d, d_fixed_board_size cfg = None -> packed_refs q = Ok refs -> Forall (placed ex_load) refs ->
       List.length (q_files q) = List.length (q_rows q) ->
       ex_batch cfg refs = Ok (Some d) -> ex_packed cfg q = Ok (Some d)).
Proof.
  intros H.
  destruct (ex_batch (ex_cfg false None) [ex_ref 2 0; ex_ref 3 0]) as [[d|]|] eqn:E; [|vm_compute in E; discriminate..].
  specialize (H (ex_cfg false None) {| q_paths := [2; 3]; q_digests := [[2]; [3]]; q_files := [0; 1]%nat; q_rows := [0; 0]; q_size := (2, 2) |}
                [ex_ref 2 0; ex_ref 3 0] d eq_refl eq_refl).
  assert (Hp : Forall (placed ex_load) [ex_ref 2 0; ex_ref 3 0]) by (constructor; [apply ex_placed_b|]; constructor; [apply ex_placed_c|constructor]).
  specialize (H Hp eq_refl E). vm_compute in H. discriminate.
Qed.

(** F23: rows past the end of a file.  The row path raises; a batch over several files
    without transforms returns a copy of the file's last row in their place. *)
Theorem C43_rows_past_the_end_raise_refuted :
  ~ (forall cfg refs r d, In r refs -> ex_one cfg r = Err RuntimeError -> d_fixed_board_size cfg = None ->
       ex_batch cfg refs = Ok (Some d) -> False).
Proof.
  intros H.
  destruct (ex_batch (ex_cfg false None) [ex_ref 2 0; ex_ref 1 1; ex_ref 1 2]) as [[d|]|] eqn:E; [|vm_compute in E; discriminate..].
  apply (H (ex_cfg false None) [ex_ref 2 0; ex_ref 1 1; ex_ref 1 2] (ex_ref 1 2) d); [cbn; auto|vm_compute; reflexivity|reflexivity|exact E].
Qed.
