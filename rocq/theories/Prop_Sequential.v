(** C14 file sharding, C15 exact-once interleaving, C16 cursors, C36 record
    identities of the sequential source. *)
From Verif Require Import Base BaseFacts Rng RngFacts Source Composite CompositeSim NpzSpec NpzFacts.
From Verif Require Import Sequential SequentialShard SequentialSpec SequentialFacts SequentialGlue SequentialKeys.

(** C14: with rank sharding, the file lists of the ranks together contain every
    file exactly once and no rank is left without a file. *)
Theorem C14_every_file_goes_to_exactly_one_rank :
  forall header hash64 (s : seq_source) (world : nat) epoch cycle (orders : nat -> list nat),
    seq_built s -> Forall (fun f => 0 <= q_size f) (q_files s) ->
    (0 < world)%nat ->
    (forall r, (r < world)%nat -> exists sr cur,
       seq_configure s (Z.of_nat world) (Z.of_nat r) true = Ok sr
       /\ seq_start header hash64 sr epoch cycle (Z.of_nat r) = Ok cur
       /\ sc_order cur = orders r) ->
    Permutation (flat_map orders (seq 0 world)) (seq 0 (List.length (q_files s)))
    /\ forall r, (r < world)%nat -> orders r <> [].
Proof.
  intros header hash64 s world epoch cycle orders Hb Hsz Hw Hord.
  exact (shard_orders_partition Hb Hsz Hw Hord).
Qed.
Print Assumptions C14_every_file_goes_to_exactly_one_rank.

(** C14: the byte loads of any two ranks differ by at most the largest file. *)
Theorem C14_loads_differ_by_at_most_one_file :
  forall header hash64 (s : seq_source) (world : nat) epoch cycle (orders : nat -> list nat) M,
    seq_built s -> Forall (fun f => 0 <= q_size f <= M) (q_files s) ->
    (0 < world)%nat ->
    (forall r, (r < world)%nat -> exists sr cur,
       seq_configure s (Z.of_nat world) (Z.of_nat r) true = Ok sr
       /\ seq_start header hash64 sr epoch cycle (Z.of_nat r) = Ok cur
       /\ sc_order cur = orders r) ->
    forall r1 r2, (r1 < world)%nat -> (r2 < world)%nat ->
      zsum (map (size_of (q_files s)) (orders r1)) <= zsum (map (size_of (q_files s)) (orders r2)) + M.
Proof.
  intros header hash64 s world epoch cycle orders M Hb Hsz Hw Hord.
  exact (shard_orders_balanced Hb Hsz Hw Hord).
Qed.
Print Assumptions C14_loads_differ_by_at_most_one_file.

(** C15: reading one cycle record by record delivers one fixed list; restricted
    to any file it is exactly that file's admitted records in file order, it
    contains nothing else, and after it the source reports end of cycle. *)
Theorem C15_cycle_delivers_every_record_once_in_file_order :
  forall header hash64 (s : seq_source) es epoch cycle rank cur,
    seq_built s -> Forall (fun f => 0 <= q_size f) (q_files s) ->
    seq_contents s es -> seq_sampling_ok s es epoch cycle ->
    seq_start header hash64 s epoch cycle rank = Ok cur ->
    exists a l,
      augmentation_epoch header hash64 s epoch cycle = Ok a
      /\ (forall g, In g (sc_order cur) -> from_file g l = file_records header hash64 s cycle a es g)
      /\ Permutation l (flat_map (file_records header hash64 s cycle a es) (sc_order cur))
      /\ (forall k, exists c, serve_source (sequential_source header hash64 s) cur (repeat NextOne k)
                              = Ok (firstn k l, c)
            /\ ((List.length l <= k)%nat ->
                exists c', s_next (sequential_source header hash64 s) c = Ok (None, c'))).
Proof.
  intros header hash64 s es epoch cycle rank cur Hb Hsz Hc HS Hst.
  exact (seq_cycle_spec Hb Hsz Hc HS Hst).
Qed.
Print Assumptions C15_cycle_delivers_every_record_once_in_file_order.

(** C15: unsharded, the files of a cycle are all files, each once. *)
Theorem C15_unsharded_cycle_reads_every_file :
  forall header hash64 (s : seq_source) epoch cycle rank cur,
    q_sharded s = false -> seq_start header hash64 s epoch cycle rank = Ok cur ->
    Permutation (sc_order cur) (seq 0 (List.length (q_files s))).
Proof.
  intros header hash64 s epoch cycle rank cur Hs H. exact (unsharded_order Hs H).
Qed.
Print Assumptions C15_unsharded_cycle_reads_every_file.

(** C15: sharded, the ranks together deliver the records of all files exactly once. *)
Theorem C15_ranks_partition_the_records :
  forall header hash64 (s : seq_source) es (world : nat) epoch cycle (outs : nat -> list (envelope seq_payload)),
    seq_built s -> Forall (fun f => 0 <= q_size f) (q_files s) ->
    seq_contents s es -> seq_sampling_ok s es epoch cycle -> (0 < world)%nat ->
    (forall r, (r < world)%nat -> exists sr cur k c c',
       seq_configure s (Z.of_nat world) (Z.of_nat r) true = Ok sr
       /\ seq_start header hash64 sr epoch cycle (Z.of_nat r) = Ok cur
       /\ serve_source (sequential_source header hash64 sr) cur (repeat NextOne k) = Ok (outs r, c)
       /\ s_next (sequential_source header hash64 sr) c = Ok (None, c')) ->
    exists a, augmentation_epoch header hash64 s epoch cycle = Ok a
      /\ Permutation (flat_map outs (seq 0 world))
           (flat_map (file_records header hash64 s cycle a es) (seq 0 (List.length (q_files s)))).
Proof.
  intros header hash64 s es world epoch cycle outs Hb Hsz Hc HS Hw Hout.
  exact (ranks_partition_records Hb Hsz Hc HS Hw Hout).
Qed.
Print Assumptions C15_ranks_partition_the_records.

(** C15: at full sampling rate no subrecord is left out. *)
Theorem C15_full_rate_admits_every_subrecord :
  forall header hash64 (s : seq_source) cycle a f entry sub,
    seq_built s -> q_num s = q_den s -> sub_admitted header hash64 s cycle a f entry sub = true.
Proof.
  intros header hash64 s cycle a f entry sub Hb Hn. apply seq_built_good in Hb.
  pose proof (gs_rate Hb). unfold sub_admitted, sample_is_admitted.
  replace ((0 <=? q_num s) && (q_num s <=? q_den s)) with true by lia.
  replace (q_num s <=? 0) with false by lia. replace (q_den s <=? q_num s) with true by lia. reflexivity.
Qed.
Print Assumptions C15_full_rate_admits_every_subrecord.

(** C15: the sequential source meets the source contract used by the planner and the
    composite source. *)
Theorem C15_sequential_is_a_source :
  forall header hash64 (s : seq_source) es epoch cycle rank cur,
    seq_built s -> Forall (fun f => 0 <= q_size f) (q_files s) ->
    seq_contents s es -> seq_sampling_ok s es epoch cycle ->
    seq_start header hash64 s epoch cycle rank = Ok cur ->
    exists l R, serves (sequential_source header hash64 s) R /\ R cur l
      /\ forall a, augmentation_epoch header hash64 s epoch cycle = Ok a ->
         Permutation l (flat_map (file_records header hash64 s cycle a es) (sc_order cur)).
Proof.
  intros header hash64 s es epoch cycle rank cur Hb Hsz Hc HS Hst.
  exact (seq_is_source Hb Hsz Hc HS Hst).
Qed.
Print Assumptions C15_sequential_is_a_source.

(** C16: the state saved after any number of reads restores to the same cursor,
    so reading goes on exactly as without the interruption. *)
Theorem C16_cursor_restores_exactly :
  forall header hash64 (s : seq_source) es epoch cycle rank cur k out c,
    seq_built s -> Forall (fun f => 0 <= q_size f) (q_files s) ->
    seq_contents s es -> seq_sampling_ok s es epoch cycle ->
    seq_resumable s = true ->
    seq_start header hash64 s epoch cycle rank = Ok cur ->
    serve_source (sequential_source header hash64 s) cur (repeat NextOne k) = Ok (out, c) ->
    exists st, seq_save s c = Ok st /\ seq_restore header hash64 s st = Ok c.
Proof.
  intros header hash64 s es epoch cycle rank cur k out c Hb Hsz Hc HS Hres Hst Hserve.
  exact (seq_resume Hb Hsz Hc HS Hres Hst Hserve).
Qed.
Print Assumptions C16_cursor_restores_exactly.

(** C16: a compressed (not seekable) source refuses to save or restore instead of
    resuming at a wrong place. *)
Theorem C16_compressed_sources_refuse :
  forall header hash64 (s : seq_source) f, In f (q_files s) -> q_compressed f = true ->
    (forall c, seq_save s c = Err RuntimeError)
    /\ forall st, seq_restore header hash64 s st = Err RuntimeError.
Proof.
  intros header hash64 s f Hin Hc.
  assert (E : seq_resumable s = false).
  { unfold seq_resumable. apply negb_false_iff. apply existsb_exists. exists f. auto. }
  split; intros; [unfold seq_save|unfold seq_restore]; rewrite E; reflexivity.
Qed.
Print Assumptions C16_compressed_sources_refuse.

(** C16: an accepted state has the file order of its cycle, at most the configured
    number of readers, all on different files that the schedule has opened, and
    every pending entry is one that re-reading would produce. *)
Theorem C16_accepted_cursor_is_consistent :
  forall header hash64 (s : seq_source) st c,
    seq_restore header hash64 s st = Ok c ->
    seq_file_order header hash64 s (sc_epoch c) (sc_cycle c) (sc_rank c) = Ok (sc_order c)
    /\ (sc_next c <= List.length (sc_order c))%nat
    /\ (sc_active c = [] -> sc_next c = List.length (sc_order c))
    /\ (List.length (sc_active c) <= q_active s)%nat
    /\ NoDup (map r_file (sc_active c))
    /\ (forall r, In r (sc_active c) ->
          (r_file r < List.length (q_files s))%nat
          /\ In (r_file r) (firstn (sc_next c) (sc_order c))
          /\ forall p, r_pending r = Some p ->
               f_decode (q_format s) (p_raw p) = Ok tt /\ p_entry p = r_entry r - 1
               /\ p_shape p = entry_code s (p_raw p) /\ p_count p = entry_count s (p_raw p)
               /\ 0 < p_next p < p_count p).
Proof.
  intros header hash64 s st c H. exact (seq_restore_sound H).
Qed.
Print Assumptions C16_accepted_cursor_is_consistent.

(** C36: a record key determines the file key, the cycle, the entry and the subrecord. *)
Theorem C36_record_keys_identify_records :
  forall (s : seq_source) f f' cycle cycle' k k' sub sub',
    seq_key s f cycle k sub = seq_key s f' cycle' k' sub' ->
    q_key f = q_key f' /\ cycle = cycle' /\ k = k' /\ (f_count (q_format s) <> None -> sub = sub').
Proof. intros. eapply seq_key_inj; eauto. Qed.
Print Assumptions C36_record_keys_identify_records.

(** C36: every record of every file passes the identity check of materialisation,
    which hands out the raw bytes of that very entry. *)
Theorem C36_records_materialize_to_their_entry :
  forall header hash64 (s : seq_source) cycle a es g f e,
    nth_error (q_files s) g = Some f -> In e (file_records header hash64 s cycle a es g) ->
    exists k raw sub,
      nth_error (es g) k = Some raw
      /\ seq_identify s e = Ok (raw, a, match f_count (q_format s) with None => None | Some _ => Some sub end)
      /\ 0 <= sub < entry_count s raw
      /\ e_key e = seq_key s f cycle (Z.of_nat k) sub
      /\ e_shape e = entry_code s raw.
Proof.
  intros header hash64 s cycle a es g f e Hf Hin. unfold file_records in Hin. rewrite Hf in Hin.
  apply entries_records_in in Hin as (k & raw & sub & H1 & H2 & ->).
  exists k, raw, sub. rewrite Z.add_0_l. conj; auto; try lia. apply seq_identify_envelope. exact Hf.
Qed.
Print Assumptions C36_records_materialize_to_their_entry.

(** C36: the bytes fed to a digest for a key are prefix-free, so two sequences of
    keys with the same byte stream are the same sequence of keys. *)
Theorem C36_key_digest_bytes_are_prefix_free :
  forall (s : seq_source) k1 k2 b1 b2 r1 r2,
    seq_key_digest s k1 = Ok b1 -> seq_key_digest s k2 = Ok b2 -> b1 ++ r1 = b2 ++ r2 ->
    k1 = k2 /\ r1 = r2.
Proof. intros. eapply seq_key_digest_inj; eauto. Qed.
Print Assumptions C36_key_digest_bytes_are_prefix_free.

Theorem C36_key_digest_accepts_every_record :
  forall (s : seq_source) f cycle k sub,
    zlen (q_key f) = 32 -> zlen (f_id (q_format s)) < 2 ^ 32 ->
    0 <= cycle < 2 ^ 64 -> 0 <= k < 2 ^ 64 -> 0 <= sub < 2 ^ 64 ->
    exists b, seq_key_digest s (seq_key s f cycle k sub) = Ok b.
Proof. intros. apply seq_key_digest_total; auto. Qed.
Print Assumptions C36_key_digest_accepts_every_record.

(** Non-vacuity: length-prefixed entries [n; b1; ..; bn], n subrecords each, an
    entry of length 0 skipped; three files of different sizes, two open at a time. *)
Definition exs_format : seq_format :=
  {| f_id := [116];
     f_read := fun rest => match rest with
                           | [] => Err EOFError
                           | n :: t => guard n <=? zlen t else EOFError ;; Ok (S (Z.to_nat n))
                           end;
     f_decode := fun raw => guard negb (match raw with [] => true | _ => false end) else ValueError ;; Ok tt;
     f_shape := fun raw => match raw with 0 :: _ => Ok None | 1 :: _ => Ok (Some [9; 9]) | _ => Ok (Some [15; 15]) end;
     f_count := Some (fun raw => match raw with n :: _ => Ok n | [] => Err ValueError end) |}.
Definition exs_file (k : Z) (content : bytes) : seq_file :=
  {| q_key := repeat k 32; q_size := zlen content; q_compressed := false; q_content := content |}.
Definition exs_files : list seq_file :=
  [exs_file 1 [2; 7; 8; 0; 1; 9]; exs_file 2 []; exs_file 3 [1; 5; 3; 1; 2; 3]].
Definition exs_hash (b : bytes) : Z := (fold_left (fun a x => a * 31 + x) b 7) mod two64.
Definition exs_entries (i : nat) : list bytes :=
  match i with
  | 0%nat => [[2; 7; 8]; [0]; [1; 9]]
  | 2%nat => [[1; 5]; [3; 1; 2; 3]]
  | _ => []
  end.
Definition exs_show (l : list (envelope seq_payload)) : list (Z * Z * bytes * option Z) :=
  map (fun e => (e_source_id e, e_shape e, y_raw (e_payload e), y_sub (e_payload e))) l.

Definition exs_source (num : Z) : seq_source :=
  {| q_files := exs_files; q_format := exs_format; q_seed := 5; q_shuffle := true; q_num := num; q_den := 2;
     q_active := 2; q_quantum := 1; q_shapes := [[9; 9]; [15; 15]]; q_identity := [42];
     q_world := 1; q_rank := 0; q_sharded := false |}.

Lemma exs_make num : 0 <= num <= 2 ->
  make_sequential exs_files exs_format 5 true num 2 2 1 [[15; 15]; [9; 9]] [42] = Ok (exs_source num).
Proof. intros H. unfold make_sequential. replace ((0 <? 2) && (0 <=? num) && (num <=? 2)) with true by lia. reflexivity. Qed.

Lemma exs_contents num : seq_contents (exs_source num) exs_entries.
Proof.
  intros [|[|[|i]]] f Hf; cbn in Hf; try (destruct i; discriminate); injection Hf as <-; cbn [exs_entries].
  - split.
    + apply (@entries_cons exs_format [2; 7; 8; 0; 1; 9] 3); try reflexivity; try discriminate.
      apply (@entries_cons exs_format [0; 1; 9] 1); try reflexivity; try discriminate.
      apply (@entries_cons exs_format [1; 9] 2); try reflexivity; try discriminate. constructor.
    + repeat (apply Forall_cons || apply Forall_nil); (split; [reflexivity|]); cbn; auto;
        (split; [auto|eexists; split; [reflexivity|lia]]).
  - split; constructor.
  - split.
    + apply (@entries_cons exs_format [1; 5; 3; 1; 2; 3] 2); try reflexivity; try discriminate.
      apply (@entries_cons exs_format [3; 1; 2; 3] 4); try reflexivity; try discriminate. constructor.
    + repeat (apply Forall_cons || apply Forall_nil); (split; [reflexivity|]); cbn; auto;
        (split; [auto|eexists; split; [reflexivity|lia]]).
Qed.

Lemma exs_sampling num : seq_sampling_ok (exs_source num) exs_entries 3 1.
Proof.
  unfold seq_sampling_ok, int64. cbn [exs_source q_seed q_num q_den q_format exs_format f_id].
  conj; try lia. right. split; [vm_compute; reflexivity|].
  intros i f Hf. assert (Hi : (i < 3)%nat) by (change (i < List.length (q_files (exs_source num)))%nat; apply nth_error_Some; rewrite Hf; discriminate).
  assert (Hk : zlen (q_key f) = 32) by (apply nth_error_In in Hf; destruct Hf as [<-|[<-|[<-|[]]]]; reflexivity).
  rewrite Hk. split; [lia|].
  assert (Hall : forall raw, In raw (exs_entries i) -> entry_count (exs_source num) raw <= 3).
  { destruct i as [|[|[|i]]]; cbn; intros raw Hin; [|destruct Hin| |lia].
    - destruct Hin as [<-|[<-|[<-|[]]]]; cbn; lia.
    - destruct Hin as [<-|[<-|[]]]; cbn; lia. }
  split; [destruct i as [|[|[|i]]]; vm_compute; reflexivity|]. intros raw Hin. specialize (Hall raw Hin). lia.
Qed.

Example C15_example :
  seq_built (exs_source 1) /\ seq_contents (exs_source 1) exs_entries
  /\ seq_sampling_ok (exs_source 1) exs_entries 3 1
  /\ exists cur out c out1 cur1 c1,
      seq_start [] exs_hash (exs_source 2) 3 1 0 = Ok cur
      /\ sc_order cur = [1%nat; 0%nat; 2%nat]
      /\ serve_source (sequential_source [] exs_hash (exs_source 2)) cur (repeat NextOne 9) = Ok (out, c)
      /\ exs_show out = [(2, 0, [1; 5], Some 0); (0, 1, [2; 7; 8], Some 0); (2, 1, [3; 1; 2; 3], Some 0);
                         (0, 1, [2; 7; 8], Some 1); (2, 1, [3; 1; 2; 3], Some 1); (2, 1, [3; 1; 2; 3], Some 2);
                         (0, 0, [1; 9], Some 0)]
      /\ seq_start [] exs_hash (exs_source 1) 3 1 0 = Ok cur1
      /\ serve_source (sequential_source [] exs_hash (exs_source 1)) cur1 (repeat NextOne 3) = Ok (out1, c1)
      /\ (0 < List.length out1 < 7)%nat.
Proof.
  split; [eapply seq_built_made; apply exs_make; lia|]. split; [apply exs_contents|]. split; [apply exs_sampling|].
  eexists _, _, _, _, _, _.
  split; [vm_compute; reflexivity|]. split; [vm_compute; reflexivity|]. split; [vm_compute; reflexivity|].
  split; [vm_compute; reflexivity|]. split; [vm_compute; reflexivity|]. split; [vm_compute; reflexivity|].
  cbn; lia.
Qed.

(** Two ranks; and a cursor saved in the middle of an entry. *)
Example C14_C16_example :
  exists s0 s1 c0 c1,
    seq_configure (exs_source 2) 2 0 true = Ok s0 /\ seq_configure (exs_source 2) 2 1 true = Ok s1
    /\ seq_start [] exs_hash s0 3 1 0 = Ok c0 /\ seq_start [] exs_hash s1 3 1 1 = Ok c1
    /\ sc_order c0 = [0%nat; 1%nat] /\ sc_order c1 = [2%nat]
    /\ seq_resumable s1 = true
    /\ exists out c st, serve_source (sequential_source [] exs_hash s1) c1 (repeat NextOne 2) = Ok (out, c)
       /\ seq_save s1 c = Ok st /\ List.length (cs_active st) = 1%nat
       /\ (exists r p, cs_active st = [r] /\ rs_pending r = Some p /\ ps_next p = 1).
Proof.
  eexists _, _, _, _.
  split; [vm_compute; reflexivity|]. split; [vm_compute; reflexivity|]. split; [vm_compute; reflexivity|].
  split; [vm_compute; reflexivity|]. split; [vm_compute; reflexivity|]. split; [vm_compute; reflexivity|].
  split; [vm_compute; reflexivity|].
  eexists _, _, _.
  split; [vm_compute; reflexivity|]. split; [vm_compute; reflexivity|]. split; [vm_compute; reflexivity|].
  eexists _, _. split; [reflexivity|]. split; reflexivity.
Qed.
