(** Model of dataset/npz_source.py: DenseNpzSource and IndexedNpzSource
    (construction, distributed configuration, cursors, reading, record-id
    resolution, cursor save/restore).

    The two classes share one model: a dense file is an indexed file with
    identity row indices and one shape, exactly the shape of the code, whose
    IndexedNpzSource.next_envelopes differs from DenseNpzSource.next_envelopes
    only in looking up the physical row and the shape code (lines 336-388 and
    1070-1120).  Not modelled: decoding (the materialize methods), manifest_state,
    decoder.set_epoch.  numpy index/code arrays are lists of integers (the
    uint32/uint64/uint8/uint16 compaction keeps the values by construction). *)
From Verif Require Import Base Rng Source Composite.
Set Implicit Arguments.

(** npz_source.py:36-45 DenseNpzFileDescriptor, 788-798 IndexedNpzFileDescriptor. *)
Record file_desc := {
  d_path : bytes;
  d_ordinal : Z;
  d_sha : bytes;
  d_count : Z;                      (* logical_row_count *)
  d_begin : Z;                      (* global_row_begin *)
  d_rows : option (list Z);         (* row_indices; None = identity *)
  d_shape : Z + list Z              (* uniform_shape_code / row_shape_codes *)
}.

Inductive npz_kind := Dense | Indexed.

Record npz := {
  n_kind : npz_kind;
  n_files : list file_desc;
  n_shapes : list shape;            (* shape of each code *)
  n_seed : Z;
  n_shuffle : bool;
  n_num : Z; n_den : Z;             (* sample_rate = n_num / n_den *)
  n_total : Z;
  n_world : Z; n_rank : Z; n_sharded : bool
}.

(** npz_source.py:71-78 DenseNpzCursor. *)
Record npz_cursor := {
  nc_epoch : Z;
  nc_cycle : Z;
  nc_rank : Z;
  nc_order : list nat;
  nc_file : nat;
  nc_row : Z
}.

(** A dense catalog entry (npz_source.py:178-183). *)
Record dense_catalog := {
  dc_path : bytes; dc_ordinal : Z; dc_sha : bytes; dc_count : Z; dc_shape : shape
}.

Definition shape_code (shapes : list shape) (s : shape) : res Z :=
  match index_of s shapes with Some i => Ok (Z.of_nat i) | None => Err KeyError end.

(** npz_source.py:177-205: the catalog loop. *)
Fixpoint dense_descriptors (shapes : list shape) (begin : Z) (seen : list Z)
    (cats : list dense_catalog) : res (list file_desc * Z) :=
  match cats with
  | [] => Ok ([], begin)
  | c :: rest =>
      guard (0 <=? dc_ordinal c) && negb (existsb (Z.eqb (dc_ordinal c)) seen) else ValueError ;;
      guard zlen (dc_sha c) =? 32 else ValueError ;;
      guard 0 <=? dc_count c else ValueError ;;
      code <- shape_code shapes (dc_shape c) ;;
      '(ds, total) <- dense_descriptors shapes (begin + dc_count c) (dc_ordinal c :: seen) rest ;;
      Ok ({| d_path := dc_path c; d_ordinal := dc_ordinal c; d_sha := dc_sha c;
             d_count := dc_count c; d_begin := begin; d_rows := None; d_shape := inl code |}
          :: ds, total)
  end.

(** npz_source.py:153-239 DenseNpzSource.__init__. *)
Definition make_dense (cats : list dense_catalog) (seed : Z) (shuffle : bool) (num den : Z)
  : res npz :=
  guard negb (match cats with [] => true | _ => false end) else ValueError ;;
  guard (0 <? den) && (0 <=? num) && (num <=? den) else ValueError ;;
  let shapes := sorted_shapes (map dc_shape cats) in
  '(ds, total) <- dense_descriptors shapes 0 [] cats ;;
  guard total <? two64 else ValueError ;;
  Ok {| n_kind := Dense; n_files := ds; n_shapes := shapes; n_seed := seed;
        n_shuffle := shuffle; n_num := num; n_den := den; n_total := total;
        n_world := 1; n_rank := 0; n_sharded := false |}.

(** An indexed catalog entry (npz_source.py:838-904): [ic_rows] is row_indices
    (None: all physical rows), [ic_shapes] is uniform_board_size or board_sizes. *)
Record indexed_catalog := {
  ic_path : bytes; ic_ordinal : Z; ic_sha : bytes;
  ic_physical : Z; ic_logical : option Z;
  ic_rows : option (list Z);
  ic_shapes : shape + list shape
}.

Definition catalog_shapes (c : indexed_catalog) : list shape :=
  match ic_shapes c with inl s => [s] | inr l => l end.

(** np.any(indices[1:] <= indices[:-1]) is false. *)
Fixpoint strictly_increasing (l : list Z) : bool :=
  match l with
  | a :: ((b :: _) as t) => (a <? b) && strictly_increasing t
  | _ => true
  end.

(** npz_source.py:838-854: logical row count of a catalog. *)
Definition catalog_count (c : indexed_catalog) : res Z :=
  let given := match ic_logical c with Some n => n | None => -1 end in
  guard (0 <=? ic_physical c) && (ic_physical c <? two64) else ValueError ;;
  match ic_rows c with
  | None =>
      let n := if given <? 0 then ic_physical c else given in
      guard n =? ic_physical c else ValueError ;; Ok n
  | Some l =>
      let n := if given <? 0 then zlen l else given in
      guard n =? zlen l else ValueError ;; Ok n
  end.

(** npz_source.py:859-882: validation and the identity test; Some = stored indices. *)
Definition compact_indices (c : indexed_catalog) (count : Z) : res (option (list Z)) :=
  match ic_rows c with
  | None => Ok None
  | Some l =>
      guard forallb (fun v => 0 <=? v) l && strictly_increasing l else ValueError ;;
      guard last l 0 <? ic_physical c else ValueError ;;
      if (count =? ic_physical c) && (hd 0 l =? 0) && (last l 0 =? count - 1)
      then Ok None else Ok (Some l)
  end.

(** npz_source.py:883-907: shape codes of a catalog. *)
Definition catalog_codes (shapes : list shape) (c : indexed_catalog) (count : Z)
  : res (Z + list Z) :=
  match ic_shapes c with
  | inl s => code <- shape_code shapes s ;; Ok (inl code)
  | inr l =>
      guard zlen l =? count else ValueError ;;
      codes <- mapM (shape_code shapes) l ;;
      if forallb (Z.eqb (hd 0 codes)) codes then Ok (inl (hd 0 codes)) else Ok (inr codes)
  end.

(** npz_source.py:837-930: the catalog loop; empty catalogs are skipped first. *)
Fixpoint indexed_descriptors (shapes : list shape) (begin : Z) (seen : list Z)
    (cats : list indexed_catalog) : res (list file_desc * Z) :=
  match cats with
  | [] => Ok ([], begin)
  | c :: rest =>
      count <- catalog_count c ;;
      guard begin + count <? two64 else ValueError ;;
      if count =? 0 then indexed_descriptors shapes begin seen rest
      else
        rows <- compact_indices c count ;;
        codes <- catalog_codes shapes c count ;;
        guard (0 <=? ic_ordinal c) && negb (existsb (Z.eqb (ic_ordinal c)) seen) else ValueError ;;
        guard zlen (ic_sha c) =? 32 else ValueError ;;
        '(ds, total) <- indexed_descriptors shapes (begin + count) (ic_ordinal c :: seen) rest ;;
        Ok ({| d_path := ic_path c; d_ordinal := ic_ordinal c; d_sha := ic_sha c;
               d_count := count; d_begin := begin; d_rows := rows; d_shape := codes |}
            :: ds, total)
  end.

(** npz_source.py:812-955 IndexedNpzSource.__init__. *)
Definition make_indexed (cats : list indexed_catalog) (seed : Z) (shuffle : bool) (num den : Z)
  : res npz :=
  guard negb (match cats with [] => true | _ => false end) else ValueError ;;
  guard (0 <? den) && (0 <=? num) && (num <=? den) else ValueError ;;
  let shapes := sorted_shapes (List.concat (map catalog_shapes cats)) in
  guard negb (match shapes with [] => true | _ => false end) else ValueError ;;
  guard forallb (fun s => (zlen s =? 2) && forallb (fun v => 0 <? v) s) shapes else ValueError ;;
  guard zlen shapes <=? 2 ^ 16 else ValueError ;;
  '(ds, total) <- indexed_descriptors shapes 0 [] cats ;;
  guard negb (match ds with [] => true | _ => false end) else ValueError ;;
  Ok {| n_kind := Indexed; n_files := ds; n_shapes := shapes; n_seed := seed;
        n_shuffle := shuffle; n_num := num; n_den := den; n_total := total;
        n_world := 1; n_rank := 0; n_sharded := false |}.

(** npz_source.py:241-252 configure_distributed. *)
Definition configure_distributed (n : npz) (world rank : Z) (sharded : bool) : res npz :=
  guard (0 <? world) && (0 <=? rank) && (rank <? world) else ValueError ;;
  Ok {| n_kind := n_kind n; n_files := n_files n; n_shapes := n_shapes n; n_seed := n_seed n;
        n_shuffle := n_shuffle n; n_num := n_num n; n_den := n_den n; n_total := n_total n;
        n_world := world; n_rank := rank; n_sharded := sharded |}.

(** npz_source.py:310-317 / 1043-1051 _record_key, called with the physical row. *)
Definition record_key (sha : bytes) (row cycle : Z) : key :=
  KTuple [str "root"; KBytes sha; str "npz-row";
          if cycle =? 0 then KTuple [KInt row] else KTuple [KInt cycle; KInt row]].

(** npz_source.py:956-962 _physical_row (dense: the row itself). *)
Definition physical_row (d : file_desc) (row : Z) : res Z :=
  match d_rows d with None => Ok row | Some l => py_get l (Z.to_nat row) end.

(** npz_source.py:964-970 _shape_code. *)
Definition row_shape (d : file_desc) (row : Z) : res Z :=
  match d_shape d with inl c => Ok c | inr l => py_get l (Z.to_nat row) end.

Definition file_order_domain (k : npz_kind) : key :=
  match k with Dense => str "file_order" | Indexed => str "indexed_npz_file_order" end.

Section Reading.
  Variable header : bytes.
  Variable hash64 : bytes -> Z.
  Variable sha256 : bytes -> bytes.

  (** npz_source.py:233-235 _file_identity. *)
  Definition file_identity (n : npz) : bytes := sha256 (List.concat (map d_sha (n_files n))).

  (** npz_source.py:281-308 / 1016-1041 start_cycle. *)
  Definition start_cycle (n : npz) (epoch cycle rank : Z) : res npz_cursor :=
    guard (0 <=? epoch) && (0 <=? cycle) else ValueError ;;
    guard (rank =? n_rank n) && (0 <=? rank) && (rank <? n_world n) else ValueError ;;
    order <-
      (if n_shuffle n then
         deterministic_permutation header hash64 (List.length (n_files n)) (n_seed n)
           (file_order_domain (n_kind n))
           (if cycle =? 0 then KTuple [KInt epoch; KBytes (file_identity n)]
            else KTuple [KInt epoch; KInt cycle; KBytes (file_identity n)])
       else Ok (range (List.length (n_files n)))) ;;
    Ok {| nc_epoch := epoch; nc_cycle := cycle;
          nc_rank := if n_sharded n then rank else 0;
          nc_order := order; nc_file := 0; nc_row := 0 |}.

  (** The admission test of lines 357-362 / 1088-1097.  The dense class skips
      the call for sample_rate = 1.0, where sample_is_admitted returns True at once. *)
  Definition admitted (n : npz) (epoch cycle : Z) (d : file_desc) (row : Z) : res bool :=
    phys <- physical_row d row ;;
    sample_is_admitted header hash64 (n_num n) (n_den n) (n_seed n) epoch
      (record_key (d_sha d) phys cycle).

  (** _DenseEnvelope (lines 48-68) / RecordEnvelope (lines 1098-1105); the payload
      is the global record id, resident_bytes is 0. *)
  Definition row_envelope (cycle : Z) (d : file_desc) (row : Z) : res (envelope Z) :=
    phys <- physical_row d row ;;
    code <- row_shape d row ;;
    Ok {| e_source_id := d_ordinal d; e_key := record_key (d_sha d) phys cycle;
          e_shape := code; e_payload := d_begin d + row; e_bytes := 0 |}.

  (** self.descriptors[cursor.file_order[file_position]] *)
  Definition file_at (n : npz) (order : list nat) (fp : nat) : res file_desc :=
    i <- py_get order fp ;; py_get (n_files n) i.

  (** npz_source.py:343-369 / 1075-1106: the reading loop.  [fuel] bounds the
      iterations; OutOfFuel is proved unreachable. *)
  Fixpoint read_loop (fuel : nat) (n : npz) (cur : npz_cursor) (limit : nat)
      (fp : nat) (row : Z) (out : list (envelope Z)) : res (list (envelope Z) * nat * Z) :=
    if (List.length out <? limit)%nat && (fp <? List.length (nc_order cur))%nat then
      match fuel with
      | O => Err OutOfFuel
      | S fuel' =>
          d <- file_at n (nc_order cur) fp ;;
          let row1 := if n_sharded n && (row <? d_count d)
                      then row + (nc_rank cur - (d_begin d + row)) mod n_world n else row in
          if d_count d <=? row1 then read_loop fuel' n cur limit (S fp) 0 out
          else
            let row2 := row1 + (if n_sharded n then n_world n else 1) in
            ok <- admitted n (nc_epoch cur) (nc_cycle cur) d row1 ;;
            if negb ok then read_loop fuel' n cur limit fp row2 out
            else
              e <- row_envelope (nc_cycle cur) d row1 ;;
              read_loop fuel' n cur limit fp row2 (out ++ [e])
      end
    else Ok (out, fp, row).

  (** npz_source.py:370-376 / 1107-1113: skip finished files, normalise the end. *)
  Fixpoint skip_loop (fuel : nat) (n : npz) (cur : npz_cursor) (fp : nat) (row : Z)
    : res (nat * Z) :=
    if (fp <? List.length (nc_order cur))%nat then
      match fuel with
      | O => Err OutOfFuel
      | S fuel' =>
          d <- file_at n (nc_order cur) fp ;;
          if d_count d <=? row then skip_loop fuel' n cur (S fp) 0 else Ok (fp, row)
      end
    else Ok (fp, row).
  Definition normalise (n : npz) (cur : npz_cursor) (fp : nat) (row : Z) : res npz_cursor :=
    '(fp', row') <- skip_loop (S (List.length (nc_order cur))) n cur fp row ;;
    Ok {| nc_epoch := nc_epoch cur; nc_cycle := nc_cycle cur; nc_rank := nc_rank cur;
          nc_order := nc_order cur; nc_file := fp';
          nc_row := if (fp' =? List.length (nc_order cur))%nat then 0 else row' |}.

  (** At least the number of loop iterations: one per row and one per file. *)
  Definition read_fuel (n : npz) (cur : npz_cursor) : nat :=
    fold_right (fun i acc => match nth_error (n_files n) i with
                             | Some d => (S (Z.to_nat (d_count d)) + acc)%nat
                             | None => S acc
                             end) 1%nat (nc_order cur).

  (** npz_source.py:333-384 / 1070-1121 next_envelopes. *)
  Definition next_envelopes (n : npz) (cur : npz_cursor) (limit : nat)
    : res (list (envelope Z) * npz_cursor) :=
    guard (0 <? limit)%nat else ValueError ;;
    '(out, fp, row) <- read_loop (read_fuel n cur) n cur limit (nc_file cur) (nc_row cur) [] ;;
    cur' <- normalise n cur fp row ;;
    Ok (out, cur').

  (** npz_source.py:326-331 / 1066-1068 next_envelope. *)
  Definition next_envelope (n : npz) (cur : npz_cursor)
    : res (option (envelope Z) * npz_cursor) :=
    '(out, cur') <- next_envelopes n cur 1 ;;
    Ok (hd_error out, cur').

  Definition npz_source (n : npz) : source npz_cursor Z :=
    {| s_next := next_envelope n; s_many := Some (next_envelopes n) |}.

  (** ids begin+a .. begin+b-1 *)
  Definition id_range (from : Z) (count : nat) : list Z :=
    map (fun k => from + Z.of_nat k) (seq 0 count).

  (** npz_source.py:411-424 / 1148-1161: the inner "while row_position < stop" loop. *)
  Fixpoint admit_rows (n : npz) (cur : npz_cursor) (d : file_desc) (row : Z) (take : nat)
    : res (list Z) :=
    match take with
    | O => Ok []
    | S t =>
        ok <- admitted n (nc_epoch cur) (nc_cycle cur) d row ;;
        rest <- admit_rows n cur d (row + 1) t ;;
        Ok (if ok then d_begin d + row :: rest else rest)
    end.

  (** npz_source.py:398-428 / 1135-1165: the loop of next_packed_records. *)
  Fixpoint packed_loop (fuel : nat) (n : npz) (cur : npz_cursor) (limit : nat)
      (fp : nat) (row : Z) (out : list Z) : res (list Z * nat * Z) :=
    if (List.length out <? limit)%nat && (fp <? List.length (nc_order cur))%nat then
      match fuel with
      | O => Err OutOfFuel
      | S fuel' =>
          d <- file_at n (nc_order cur) fp ;;
          if d_count d <=? row then packed_loop fuel' n cur limit (S fp) 0 out
          else
            let take := Nat.min (limit - List.length out) (Z.to_nat (d_count d - row)) in
            ids <- (if n_num n =? n_den n then Ok (id_range (d_begin d + row) take)
                    else admit_rows n cur d row take) ;;
            packed_loop fuel' n cur limit fp (row + Z.of_nat take) (out ++ ids)
      end
    else Ok (out, fp, row).

  (** npz_source.py:386-449 / 1123-1186 next_packed_records: the record ids of the block. *)
  Definition next_packed_records (n : npz) (cur : npz_cursor) (limit : nat)
    : res (list Z * npz_cursor) :=
    guard (0 <? limit)%nat else ValueError ;;
    '(out, fp, row) <- packed_loop (read_fuel n cur) n cur limit (nc_file cur) (nc_row cur) [] ;;
    cur' <- normalise n cur fp row ;;
    Ok (out, cur').

  (** ** Record-id resolution *)

  (** CPython's bisect.bisect_right (np.searchsorted(side="right") for one value). *)
  Fixpoint bisect_loop (fuel : nat) (l : list Z) (x : Z) (lo hi : nat) : res nat :=
    if (lo <? hi)%nat then
      match fuel with
      | O => Err OutOfFuel
      | S fuel' =>
          let mid := ((lo + hi) / 2)%nat in
          v <- py_get l mid ;;
          if x <? v then bisect_loop fuel' l x lo mid else bisect_loop fuel' l x (S mid) hi
      end
    else Ok lo.
  Definition bisect_right (l : list Z) (x : Z) : res nat :=
    bisect_loop (S (List.length l)) l x 0 (List.length l).

  (** npz_source.py:458-467 / 1205-1214 _resolve. *)
  Definition resolve (n : npz) (id : Z) : res (file_desc * Z) :=
    i <- bisect_right (map d_begin (n_files n)) id ;;
    match i with
    | O => Err ValueError
    | S j =>
        d <- py_get (n_files n) j ;;
        let row := id - d_begin d in
        guard (0 <=? row) && (row <? d_count d) else ValueError ;;
        Ok (d, row)
    end.

  (** npz_source.py:451-456 / 1188-1203 envelopes_from_record_ids. *)
  Definition envelopes_from_record_ids (n : npz) (ids : list Z) : res (list (envelope Z)) :=
    mapM (fun id => '(d, row) <- resolve n id ;; row_envelope 0 d row) ids.

  (** npz_source.py:319-322 _record_cycle: 0 if len(record_key[3]) == 1 else its first element. *)
  Definition record_cycle (k : key) : res Z :=
    match k with
    | KTuple (_ :: _ :: _ :: KTuple [_] :: _) => Ok 0
    | KTuple (_ :: _ :: _ :: KTuple (KInt c :: _) :: _) => Ok c
    | _ => Err TypeError
    end.

  (** npz_source.py:504-527 / 1228-1258: the decode reference (path, physical row,
      board shape, sample key) of an envelope, after the identity check. *)
  Definition decode_ref (n : npz) (e : envelope Z) : res (bytes * Z * shape * key) :=
    '(d, row) <- resolve n (e_payload e) ;;
    phys <- physical_row d row ;;
    code <- row_shape d row ;;
    cyc <- record_cycle (e_key e) ;;
    guard (e_source_id e =? d_ordinal d) && (e_shape e =? code)
          && key_eqb (e_key e) (record_key (d_sha d) phys cyc) else RuntimeError ;;
    sh <- py_get (n_shapes n) (Z.to_nat code) ;;
    Ok (d_path d, phys, sh, e_key e).

  (** npz_source.py:529-560 _packed_decode_batch: (file index, row) of every id. *)
  Definition packed_decode (n : npz) (ids : list Z) : res (list (nat * Z)) :=
    mapM (fun id =>
      i <- bisect_right (map d_begin (n_files n)) id ;;
      match i with
      | O => Err RuntimeError
      | S j =>
          d <- py_get (n_files n) j ;;
          guard id - d_begin d <? d_count d else RuntimeError ;;
          Ok (j, id - d_begin d)
      end) ids.

  (** npz_source.py:102-132 _PackedDenseSampleKeys: key of one decoded record. *)
  Definition packed_key (n : npz) (p : nat * Z) : res key :=
    d <- py_get (n_files n) (fst p) ;; Ok (record_key (d_sha d) (snd p) 0).

  (** ** Cursor save and restore *)
  Record npz_state := {
    ns_schema : string;
    ns_epoch : Z;
    ns_cycle : option Z;
    ns_rank : option Z;
    ns_order : list Z;
    ns_file : Z;
    ns_row : Z
  }.

  Definition npz_schema (k : npz_kind) : string :=
    match k with Dense => "dense-npz-source-v2" | Indexed => "indexed-npz-source-v2" end.

  (** npz_source.py:739-748 / 1281-1284 save_cursor. *)
  Definition save_cursor (n : npz) (cur : npz_cursor) : npz_state :=
    {| ns_schema := npz_schema (n_kind n); ns_epoch := nc_epoch cur;
       ns_cycle := Some (nc_cycle cur); ns_rank := Some (nc_rank cur);
       ns_order := map Z.of_nat (nc_order cur);
       ns_file := Z.of_nat (nc_file cur); ns_row := nc_row cur |}.

  (** npz_source.py:750-785 / 1286-1291 restore_cursor. *)
  Definition restore_cursor (n : npz) (s : npz_state) : res npz_cursor :=
    guard String.eqb (ns_schema s) (npz_schema (n_kind n)) else ValueError ;;
    let cycle := match ns_cycle s with Some c => c | None => 0 end in
    let rank := match ns_rank s with Some r => r | None => n_rank n end in
    guard rank =? (if n_sharded n then n_rank n else 0) else ValueError ;;
    expected <- start_cycle n (ns_epoch s) cycle (n_rank n) ;;
    guard zlist_eqb (ns_order s) (map Z.of_nat (nc_order expected)) else ValueError ;;
    guard (0 <=? ns_file s) && (ns_file s <=? zlen (ns_order s)) else ValueError ;;
    _ <- (if ns_file s =? zlen (ns_order s) then
       guard ns_row s =? 0 else ValueError ;; Ok tt
     else
       d <- file_at n (nc_order expected) (Z.to_nat (ns_file s)) ;;
       guard (0 <=? ns_row s) && (ns_row s <=? d_count d) else ValueError ;; Ok tt) ;;
    Ok {| nc_epoch := ns_epoch s; nc_cycle := cycle; nc_rank := rank;
          nc_order := nc_order expected; nc_file := Z.to_nat (ns_file s); nc_row := ns_row s |}.
End Reading.
