(** C49: the metadata of exported models.  C50: an export and the file it replaces. *)
From Coq Require Import Sorted.
From Verif Require Import Base BaseFacts Json JsonFacts MetricsFacts Rng Codec Export ExportSpec ExportFacts ExportMasks ExportFiles ExportTotal.
Set Implicit Arguments. Unset Strict Implicit.

Section Weights.
Variables (frame : list (list Z) -> list (list Z)) (unframe : list Z -> option (list Z)).
(** lz4's frame format gives back what was written into it. *)
Hypothesis lz4 : forall ws, unframe (List.concat (frame ws)) = Some (List.concat ws).
Variables (registry : list (ustr * class)) (stamp output model_type : ustr) (a : args) (t : output_type) (no_header : bool).
Hypothesis usual : usual_classes registry.
Let export := export_serialization frame registry stamp output t model_type a no_header.
(** Opening a finished file. *)
Definition opened (b : list Z) : option (list Z) := match t with Lz4 => unframe b | _ => Some b end.

Lemma export_shape ops r : export = (ops, r) ->
  (ops = [] /\ exists e, r = Err e)
  \/ exists s ws e, prepare registry model_type a = Ok s /\ t <> OtherType /\ stream s no_header stamp = (ws, e)
     /\ let writing := Open (dot_tmp output) :: map (Append (dot_tmp output)) (stored frame t ws) in
        match e with Some e => ops = writing /\ r = Err e | None => ops = writing ++ [Replace (dot_tmp output) output] /\ r = Ok tt end.
Proof.
  unfold export, export_serialization. intros H. destruct (prepare registry model_type a) as [s|e] eqn:E; [|left; injection H as <- <-; eauto].
  destruct t; [right|right|left; injection H as <- <-; eauto]; destruct (stream s no_header stamp) as [ws [e|]] eqn:Q; injection H as <- <-; exists s, ws; eexists;
    (split; [reflexivity|]); (split; [discriminate|]); (split; [exact Q|]); cbn; auto.
Qed.
Lemma opened_stored ws : t <> OtherType -> opened (List.concat (stored frame t ws)) = Some (List.concat ws).
Proof. unfold opened, stored. destruct t; intros H; [reflexivity|apply lz4|congruence]. Qed.
Lemma final_file s0 ws : obj_get (applied s0 ((Open (dot_tmp output) :: map (Append (dot_tmp output)) ws) ++ [Replace (dot_tmp output) output])) output = Some (List.concat ws).
Proof.
  rewrite applied_snoc. cbn [apply]. destruct (written (dot_tmp output) ws s0) as (W & _). rewrite W. apply set_same.
Qed.

(** An export that returns has put at the output path a file that states exactly what was asked for:
    the rules and board sizes the arguments name (which are then legal), the architecture and the
    description; after this header come the weights, byte for byte.  (Export types without a header, and
    serializers that have none, write the weights alone.) *)
Theorem C49_weight_file_states_what_was_asked : forall ops s0, export = (ops, Ok tt) ->
  exists c tr file content, obj_get registry model_type = Some c /\ construct c (options a) = Ok tr
  /\ obj_get (applied s0 ops) output = Some file /\ opened file = Some content /\ snd (body tr) = None
  /\ let weights := List.concat (fst (body tr)) in
     if needs_header tr && negb no_header then
       exists rules sizes hash text d rule_mask size_mask,
         names_rules a rules /\ rules <> [] /\ incl rules legal_rules
         /\ names_sizes a sizes /\ (forall n, sizes n -> 1 <= n <= 32)
         /\ arch_hash tr = Ok hash /\ description tr = Ok text /\ utf8_decode d = Ok (text ++ stamp)
         /\ read_file content = Some (WeightFile 2899889258 (hash mod 2 ^ 32) rule_mask size_mask d weights)
         /\ advertises_rules rule_mask rules /\ advertises_sizes size_mask sizes
     else content = weights.
Proof.
  intros ops s0 H. destruct (export_shape H) as [(_ & e & D)|(s & ws & e & P & T & St & K)]; [discriminate|]. cbv zeta in K.
  destruct e as [e|]; [destruct K as (_ & D); discriminate|]. destruct K as (-> & _).
  destruct (prepare_ok usual P) as (c & rs & ns & C1 & C2 & C3 & C4 & C5 & C6 & C7 & (Q & C8 & C9) & C10 & _ & _).
  exists c, (s_traits s), (List.concat (stored frame t ws)), (List.concat ws).
  split; [exact C1|]. split; [exact C2|]. split; [apply final_file|]. split; [apply opened_stored; exact T|].
  unfold stream in St. destruct (needs_header (s_traits s) && negb no_header) eqn:NH.
  - destruct (header s stamp) as [hs [e|]] eqn:Hd; [discriminate|]. injection St as <- St. split; [exact St|]. cbv zeta.
    destruct (header_ok Hd) as (hash & m & text & d & H1 & H2 & H3 & H4 & H5 & H6).
    destruct (@sizes_mask ns Q C10 C9) as (m' & M1 & M2 & M3). rewrite C4, M1 in H2. assert (m' = m) by congruence. subst m'.
    exists rs, Q, hash, text, d, (rules_to_mask rs), m. repeat (split; [assumption|]). split.
    { intros n Pn. apply C9 in Pn. rewrite Forall_forall in C10. apply C10. exact Pn. }
    repeat (split; [assumption|]). split; [apply utf8_roundtrip; exact H4|]. split; [|split; [apply rules_mask_bits|exact M3]].
    rewrite List.concat_app, H6, C3. rewrite (Z.mod_small m) by exact M2. reflexivity.
  - rewrite St. split; reflexivity.
Qed.

(** Arguments that name no legal rules, or illegal board sizes, or the same thing in two ways, are
    refused before any file is touched. *)
Theorem C49_bad_arguments_touch_nothing :
  ~ (exists rules, names_rules a rules /\ rules <> [] /\ incl rules legal_rules)
  \/ ~ (exists sizes, names_sizes a sizes /\ forall n, sizes n -> 1 <= n <= 32)
  \/ two_ways a ->
  exists e, export = ([], Err e).
Proof.
  intros B. destruct export as [ops r] eqn:H. destruct (export_shape H) as [(-> & e & ->)|(s & ws & e & P & T & St & K)]; [eauto|]. exfalso.
  destruct (prepare_ok usual P) as (c & rs & ns & C1 & C2 & C3 & C4 & C5 & C6 & C7 & (Q & C8 & C9) & C10 & _ & C11).
  destruct B as [B|[B|B]]; [apply B; eauto| |contradiction]. apply B. exists Q. split; [exact C8|]. intros n N. apply C9 in N.
  rewrite Forall_forall in C10. apply C10. exact N.
Qed.

(** Arguments that are in order are accepted: the export succeeds whenever the serializer does. *)
Theorem C49_good_arguments_are_accepted : forall rules sizes c tr hash text d,
  names_rules a rules -> rules <> [] -> incl rules legal_rules ->
  names_sizes a sizes -> (forall n, sizes n -> 1 <= n <= 32) -> ~ two_ways a ->
  (given a (ulit "min_board_size") <-> given a (ulit "max_board_size")) -> obj_get a (ulit "model_type") = None ->
  t <> OtherType -> obj_get registry model_type = Some c -> (forall e, In e (options a) -> In (fst e) (accepts c)) -> construct c (options a) = Ok tr ->
  is_binary tr = true -> arch_hash tr = Ok hash -> description tr = Ok text -> utf8_encode (text ++ stamp) = Ok d -> zlen d < 2 ^ 32 ->
  snd (body tr) = None -> exists ops, export = (ops, Ok tt).
Proof.
  intros rules sizes c tr hash text d H1 H2 H3 H4 H5 H6 H7 H8 H9 H10 H11 H12 B1 B2 B3 B4 B5 B6.
  destruct (prepare_total H1 H2 H3 H4 H5 H6 H7 H8 H10 H11 H12) as (ns & P & N1 & N2).
  unfold export, export_serialization. rewrite P. destruct t; [| |congruence];
    (destruct (@sizes_mask ns sizes N2 N1) as (m & M1 & _);
     assert (Hd : exists ws, header (Serializer rules ns tr) stamp = (ws, None));
     [unfold header; cbn [s_traits s_sizes s_rules]; rewrite B2, M1, B3; cbn [bind]; rewrite B4, B1; cbn [bind negb];
      unfold to_bytes4; pose proof (zlen_nonneg d); replace ((0 <=? zlen d) && (zlen d <? 2 ^ 32)) with true by lia; eauto|];
     destruct Hd as (ws & Hd); unfold stream; cbn [s_traits];
     destruct (needs_header tr && negb no_header); [rewrite Hd|]; rewrite ?B6; [eauto|];
     destruct (body tr) as [bs e]; cbn in B6; subst e; eauto).
Qed.

(** ** C50: replacing a previous export *)
(** Whatever happens — an error of the arguments, of the serializer half-way through the weights, a crash
    or a full disk after any number of file operations — every file except the temporary one is as it was
    before, until the last operation of a successful export has put the complete file in place. *)
Theorem C50_previous_export_survives : forall ops r s0 n, export = (ops, r) ->
  (forall p, p <> dot_tmp output -> obj_get (applied s0 (firstn n ops)) p = obj_get s0 p)
  \/ (r = Ok tt /\ firstn n ops = ops
      /\ forall p, p <> dot_tmp output -> p <> output -> obj_get (applied s0 ops) p = obj_get s0 p).
Proof.
  intros ops r s0 n H. destruct (export_shape H) as [(-> & _)|(s & ws & e & P & T & St & K)]; [left; rewrite firstn_nil; reflexivity|]. cbv zeta in K.
  set (writing := Open (dot_tmp output) :: map (Append (dot_tmp output)) (stored frame t ws)) in K.
  assert (F : Forall (fun o => match o with Open q | Append q _ => q = dot_tmp output | _ => False end) writing).
  { unfold writing. constructor; [reflexivity|]. apply Forall_forall. intros o O. apply in_map_iff in O. destruct O as (w & <- & _). reflexivity. }
  assert (F' : forall m, Forall (fun o => match o with Open q | Append q _ => q = dot_tmp output | _ => False end) (firstn m writing)).
  { intros m. rewrite <- (firstn_skipn m writing) in F. apply Forall_app in F. apply F. }
  destruct e as [e|]; destruct K as (-> & ->).
  - left. intros p Q. apply only_tmp with (dot_tmp output); [apply F'|exact Q].
  - destruct (Nat.le_gt_cases n (List.length writing)) as [L|L].
    + left. intros p Q. rewrite firstn_app. replace (n - List.length writing)%nat with 0%nat by lia. rewrite firstn_O, app_nil_r. apply only_tmp with (dot_tmp output); [apply F'|exact Q].
    + right. split; [reflexivity|]. split; [apply firstn_all2; rewrite app_length; cbn [List.length]; lia|]. intros p Q1 Q2. rewrite applied_snoc.
      cbn [apply]. destruct (obj_get (applied s0 writing) (dot_tmp output)).
      * rewrite set_other by congruence. rewrite removed_other by congruence. apply (only_tmp F). exact Q1.
      * apply (only_tmp F). exact Q1.
Qed.
(** A leftover temporary file of a killed export has no influence on the next one, and a successful export leaves none. *)
Theorem C50_leftovers_do_not_matter : forall ops s1 s2, export = (ops, Ok tt) ->
  obj_get (applied s1 ops) output = obj_get (applied s2 ops) output /\ obj_get (applied s1 ops) output <> None
  /\ obj_get (applied s1 ops) (dot_tmp output) = None.
Proof.
  intros ops s1 s2 H. destruct (export_shape H) as [(_ & e & D)|(s & ws & e & P & T & St & K)]; [discriminate|]. cbv zeta in K.
  destruct e as [e|]; [destruct K as (_ & D); discriminate|]. destruct K as (-> & _). rewrite !final_file. split; [reflexivity|]. split; [discriminate|].
  rewrite applied_snoc. cbn [apply]. destruct (written (dot_tmp output) (stored frame t ws) s1) as (W & _). rewrite W.
  rewrite set_other by (intros E; apply (tmp_differs (output := output)); congruence). apply removed_same.
Qed.
End Weights.

(** ** ONNX: the model version number *)
(** The number fits a signed 64-bit field, and reading it gives back the version, exactly the rules and
    exactly the board sizes that were packed, in order and without repetitions. *)
Theorem C49_onnx_version_round_trip : forall io rules sizes v,
  (forall n, In n sizes -> 1 <= n <= 32) -> incl rules legal_rules -> make_onnx_model_version io rules sizes = Ok v ->
  0 < v < 2 ^ 63
  /\ exists rules' sizes', parse_onnx_model_version v = (io, rules', sizes')
     /\ (forall r, In r rules' <-> In r rules) /\ NoDup rules' /\ StronglySorted Z.lt sizes' /\ forall n, In n sizes' <-> In n sizes.
Proof.
  intros io rules sizes v B I H. destruct (version_sum H) as (m & M & IO & V).
  destruct (@sizes_mask sizes (fun n => In n sizes)) as (m' & M1 & M2 & M3); [apply Forall_forall; exact B|tauto|].
  assert (m' = m) by congruence. subst m'. specialize (V M2). pose proof (rules_mask_range rules) as R.
  split; [change (2 ^ 63) with 9223372036854775808; change (2 ^ 32) with 4294967296 in *; change (2 ^ 16) with 65536 in *; change (2 ^ 15) with 32768 in *; lia|].
  assert (A1 : Z.land v 4294967295 = m).
  { change 4294967295 with (Z.ones 32). rewrite Z.land_ones, V by lia. rewrite Z.add_comm, Z.mod_add by lia. apply Z.mod_small. exact M2. }
  assert (A2 : Z.land (Z.shiftr v 32) 65535 = rules_to_mask rules).
  { change 65535 with (Z.ones 16). rewrite Z.land_ones, Z.shiftr_div_pow2, V by lia. rewrite Z.div_add_l by lia. rewrite (Z.div_small m) by exact M2.
    rewrite Z.add_0_r, Z.add_comm, Z.mod_add by lia. apply Z.mod_small. change (2 ^ 16) with 65536. lia. }
  assert (A3 : Z.land (Z.shiftr v 48) 65535 = io).
  { change 65535 with (Z.ones 16). rewrite Z.land_ones, Z.shiftr_div_pow2, V by lia. change (2 ^ 48) with (2 ^ 32 * 2 ^ 16).
    rewrite <- Z.div_div by lia. rewrite Z.div_add_l by lia. rewrite (Z.div_small m) by exact M2. rewrite Z.add_0_r, Z.div_add_l by lia.
    rewrite (Z.div_small (rules_to_mask rules)) by (change (2 ^ 16) with 65536; lia). rewrite Z.add_0_r. apply Z.mod_small. change (2 ^ 16) with 65536. change (2 ^ 15) with 32768 in IO. lia. }
  unfold parse_onnx_model_version. rewrite A1, A2, A3.
  exists (rules_of_mask (rules_to_mask rules)), (filter (fun n => Z.testbit m (n - 1)) (int_range 1 33)).
  split; [rewrite listed_sizes; reflexivity|]. rewrite listed_rules. repeat split.
  - intros Q. apply filter_In in Q. apply mem_in. apply Q.
  - intros Q. apply filter_In. split; [apply I; exact Q|apply mem_in; exact Q].
  - apply NoDup_filter. unfold legal_rules. repeat constructor; cbn; intuition discriminate.
  - apply filter_sorted. apply int_range_sorted.
  - intros Q. apply filter_In in Q. destruct Q as (Q1 & Q2). apply in_int_range in Q1. apply (proj2 M3) in Q2; [|lia]. replace (n - 1 + 1) with n in Q2 by lia. exact Q2.
  - intros Q. apply filter_In. pose proof (B n Q). split; [apply in_int_range; lia|]. apply (proj2 M3); [lia|]. replace (n - 1 + 1) with n by lia. exact Q.
Qed.

(** The ONNX export refuses bad arguments before it touches a file; what it returns and stamps says what
    the arguments name. *)
Theorem C49_onnx_states_what_was_asked : forall sample trace slim save io output a ops r,
  export_onnx sample trace slim save io output a = (ops, r) ->
  (~ (exists rules, names_rules a rules /\ rules <> [] /\ incl rules legal_rules)
   \/ ~ (exists sizes, names_sizes a sizes /\ forall n, sizes n -> 1 <= n <= 32) -> ops = [] /\ exists e, r = Err e)
  /\ forall v s0, r = Ok v -> obj_get (applied s0 ops) output = Some (List.concat (save v))
     /\ exists rules sizes rules' sizes', names_rules a rules /\ names_sizes a sizes
        /\ parse_onnx_model_version v = (io, rules', sizes')
        /\ (forall r, In r rules' <-> In r rules) /\ forall n, In n sizes' <-> sizes n.
Proof.
  intros sample trace slim save io output a ops r H. unfold export_onnx in H.
  destruct (get_rules_from_args a) as [[rules r1]|e] eqn:G1; cbn [bind] in H; [|injection H as <- <-; split; [eauto|discriminate]].
  destruct (get_boardsizes_from_args r1) as [[ns r2]|e] eqn:G2; cbn [bind] in H; [|injection H as <- <-; split; [eauto|discriminate]].
  destruct (get_rules_ok G1) as (R1 & R2 & R3 & k & R4 & R5 & R6). destruct (get_sizes_ok G2) as ((P & S1 & S2) & S3 & _).
  assert (S1' : names_sizes a P).
  { apply names_sizes_same with r1; [|exact S1]. intros k' I. rewrite R6, get_without, (rule_size_differ R4 I). reflexivity. }
  rewrite Forall_forall in S3.
  split.
  { intros [B|B]; exfalso; apply B; [eauto|]. exists P. split; [exact S1'|]. intros n N. apply S3. apply S2. exact N. }
  intros v s0 ->. destruct sample; [discriminate|]. destruct (snd trace); [discriminate|].
  destruct (make_onnx_model_version io rules ns) as [v'|] eqn:V; [|discriminate]. injection H as <- ->. split.
  - rewrite app_comm_cons, app_assoc, applied_app. apply written.
  - destruct (C49_onnx_version_round_trip S3 R3 V) as (_ & rules' & sizes' & Q1 & Q2 & _ & _ & Q3).
    exists rules, P, rules', sizes'. repeat split; auto; try (intros X; apply Q2; exact X).
    + intros X. apply S2. apply Q3. exact X.
    + intros X. apply Q3. apply S2. exact X.
Qed.

(** The ONNX export (like the torch-jit one) writes straight to the output: unlike the weight export,
    one that fails or is killed while the model is being traced destroys the previous good export.  And
    a size range given the wrong way round is accepted and advertises no board size at all. *)
Theorem C50_onnx_failure_destroys_previous : forall output good, exists trace a ops e,
  export_onnx None trace None (fun _ => [good]) 1 output a = (ops, Err e)
  /\ obj_get (applied [(output, good)] ops) output = Some [].
Proof.
  intros output good. exists ([], Some RuntimeError), [(k_rule, JStr freestyle)]. eexists. eexists. split; [vm_compute; reflexivity|].
  cbn [applied fold_left map apply obj_set]. rewrite ustr_eqb_refl. cbn [obj_get]. rewrite ustr_eqb_refl. reflexivity.
Qed.
Theorem C49_reversed_size_range_advertises_nothing : exists a v,
  (forall n, ~ (19 <= n <= 15)) /\ names_sizes a (fun n => 19 <= n <= 15)
  /\ snd (export_onnx None ([], None) None (fun _ => []) 1 (ulit "m.onnx") a) = Ok v
  /\ parse_onnx_model_version v = (1, [ulit "renju"], []).
Proof.
  exists [(k_rule, JStr renju); (k_min, JInt 19); (k_max, JInt 15)]. eexists. split; [intros n; lia|]. split.
  - apply by_range with (JInt 19) (JInt 15); [reflexivity|reflexivity|constructor|constructor].
  - split; [vm_compute; reflexivity|vm_compute; reflexivity].
Qed.

(** ** The statements are not empty *)
Definition demo_class := Class [ulit "text_output"] (fun _ => Ok (Traits true true (Ok (-5)) (Ok (ulit "model=m; ")) ([[1; 2]; [3]], None))).
Definition demo_registry := [(ulit "mix9", demo_class)].
Definition demo_args := [(k_rules, JList [JStr renju; JStr freestyle]); (ulit "text_output", JBool false); (k_size, JInt 15)].
Lemma demo_usual : usual_classes demo_registry.
Proof. intros n c k [H|[]] K. injection H as <- <-. intros [<-|[]]. cbn in K. intuition discriminate. Qed.
Example demo_export : exists ops, export_serialization (fun x => x) demo_registry (ulit "at noon.") (ulit "w.bin") Raw (ulit "mix9") demo_args false = (ops, Ok tt)
  /\ (file <- match obj_get (applied [] ops) (ulit "w.bin") with Some b => Ok b | None => Err KeyError end ;; Ok (read_file file))
     = Ok (Some (WeightFile 2899889258 4294967291 5 16384 (ulit "model=m; at noon.") [1; 2; 3])).
Proof. eexists. split; vm_compute; reflexivity. Qed.
Example demo_two_ways : two_ways [(k_rule, JStr renju); (k_rules, JList [JStr freestyle])]
  /\ export_serialization (fun x => x) demo_registry [] (ulit "w.bin") Raw (ulit "mix9") [(k_rule, JStr renju); (k_rules, JList [JStr freestyle])] false = ([], Err TypeError).
Proof.
  split; [|vm_compute; reflexivity]. left. exists k_rule, k_rules. repeat split; [discriminate|cbn; auto|cbn; auto| |]; discriminate.
Qed.
Example demo_version : (v <- make_onnx_model_version 1 [renju; freestyle] [15; 20; 15] ;; Ok (parse_onnx_model_version v)) = Ok (1, [freestyle; renju], [15; 20]).
Proof. vm_compute. reflexivity. Qed.
