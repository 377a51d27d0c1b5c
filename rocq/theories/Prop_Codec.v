(** C25, C26: the binary entry formats.  The decoders are modelled in Codec.v; the
    encoders below are the format's specification (the repository contains none):
    fields are placed next to each other, lowest first, by arithmetic. *)
From Verif Require Import Base BaseFacts Rng RngFacts Symmetry Composite Sequential SequentialSpec Codec.
Set Implicit Arguments.
Unset Strict Implicit.

(** ** Bit fields *)
Lemma bits_arith w lo n : 0 <= lo -> 0 <= n -> bits w lo n = (w / 2 ^ lo) mod 2 ^ n.
Proof. intros Hl Hn. unfold bits. rewrite Z.land_ones by exact Hn. rewrite Z.shiftr_div_pow2 by exact Hl. reflexivity. Qed.

Lemma le_value_app a b : le_value (a ++ b) = le_value a + 256 ^ zlen a * le_value b.
Proof.
  induction a as [|x a IH]; [change (256 ^ zlen (@nil Z)) with 1; cbn [app le_value]; lia|].
  cbn [app le_value]. rewrite IH, zlen_cons.
  assert (0 <= zlen a) by apply zlen_nonneg. rewrite Z.pow_add_r by lia. lia.
Qed.

Lemma le_value_le_bytes n : forall v, 0 <= v < 256 ^ Z.of_nat n -> le_value (le_bytes n v) = v.
Proof.
  induction n as [|n IH]; intros v Hv; cbn [le_bytes le_value].
  - change (256 ^ Z.of_nat 0) with 1 in Hv. lia.
  - rewrite IH.
    + pose proof (Z.div_mod v 256). lia.
    + rewrite Nat2Z.inj_succ, Z.pow_succ_r in Hv by lia. split; [apply Z.div_pos; lia|].
      apply Z.div_lt_upper_bound; lia.
Qed.

Lemma take_exact_app a b : take_exact (List.length a) (a ++ b) = Ok (a, b).
Proof.
  unfold take_exact. rewrite app_length. assert (X : (List.length a <=? List.length a + List.length b)%nat = true) by (apply Nat.leb_le; lia).
  rewrite X. f_equal. f_equal.
  - rewrite firstn_app, Nat.sub_diag, firstn_all. cbn. apply app_nil_r.
  - rewrite skipn_app, Nat.sub_diag, skipn_all. reflexivity.
Qed.

Lemma take_exact_inv n s a b : take_exact n s = Ok (a, b) -> s = a ++ b /\ List.length a = n.
Proof.
  unfold take_exact. intros H. apply guard_Ok in H. destruct H as [Hl H]. apply Nat.leb_le in Hl.
  inversion H; subst. split; [symmetry; apply firstn_skipn|]. rewrite firstn_length. lia.
Qed.

Lemma take_exact_short n s : (List.length s < n)%nat -> take_exact n s = Err EOFError.
Proof. intros H. unfold take_exact. assert (X : (n <=? List.length s)%nat = false) by (apply Nat.leb_gt; lia). rewrite X. reflexivity. Qed.

Lemma u16s_app ms rest : Forall (fun m => 0 <= m < 2 ^ 16) ms ->
  u16s (List.length ms) (flat_map (le_bytes 2) ms ++ rest) = ms.
Proof.
  induction 1 as [|m ms Hm Hms IH]; [reflexivity|]. cbn [List.length u16s flat_map].
  rewrite <- app_assoc.
  assert (E1 : firstn 2 (le_bytes 2 m ++ flat_map (le_bytes 2) ms ++ rest) = le_bytes 2 m) by reflexivity.
  assert (E2 : skipn 2 (le_bytes 2 m ++ flat_map (le_bytes 2) ms ++ rest) = flat_map (le_bytes 2) ms ++ rest) by reflexivity.
  rewrite E1, E2, IH. f_equal. apply le_value_le_bytes. change (256 ^ Z.of_nat 2) with (2 ^ 16). exact Hm.
Qed.

Lemma flat_map_le_length k ms : List.length (flat_map (le_bytes k) ms) = (k * List.length ms)%nat.
Proof. induction ms as [|m ms IH]; cbn [flat_map]; [cbn; lia|]. rewrite app_length, IH, le_bytes_length. cbn [List.length]. lia. Qed.

(** A move number: x and y, five bits each. *)
Definition move_at (m : Z) : move := {| mv_x := m / 32 mod 32; mv_y := m mod 32 |}.
Lemma move_of_at m : move_of m = move_at m.
Proof.
  unfold move_of, move_at. change 31 with (Z.ones 5). rewrite !Z.land_ones by lia.
  rewrite Z.shiftr_div_pow2 by lia. reflexivity.
Qed.
Lemma map_move_of ms : map move_of ms = map move_at ms.
Proof. apply map_ext. exact move_of_at. Qed.

(** ** The simple format *)
Record simple_fields := {
  x_result : Z; x_ply : Z; x_boardsize : Z; x_rule : Z; x_move : Z; x_position : list Z
}.
Definition simple_encode (x : simple_fields) : bytes :=
  le_bytes 2 (x_result x + 4 * x_ply x + 2048 * x_boardsize x)
  ++ le_bytes 2 (x_rule x + 8 * x_move x)
  ++ flat_map (le_bytes 2) (x_position x).

(** The numbers that the file format uses for the results and for the rules. *)
Definition result_code (r : result) : Z := match r with LOSS => 0 | DRAW => 1 | WIN => 2 end.
Definition rule_code (u : rule) : Z := match u with FREESTYLE => 0 | STANDARD => 1 | RENJU => 4 end.
Lemma result_of_code r : result_of (result_code r) = Ok r.
Proof. destruct r; reflexivity. Qed.
Lemma rule_of_code u : rule_of (rule_code u) = Ok u.
Proof. destruct u; reflexivity. Qed.

(** Field values that fit, and are a result and a rule. *)
Record simple_ok (x : simple_fields) (r : result) (u : rule) : Prop := {
  so_result : 0 <= x_result x < 4 /\ x_result x = result_code r;
  so_ply : x_ply x = zlen (x_position x) /\ x_ply x < 512;
  so_boardsize : 0 <= x_boardsize x < 32;
  so_rule : 0 <= x_rule x < 8 /\ x_rule x = rule_code u;
  so_move : 0 <= x_move x < 2 ^ 13;
  so_position : Forall (fun m => 0 <= m < 2 ^ 16) (x_position x)
}.
Definition simple_meaning (x : simple_fields) (r : result) (u : rule) : simple_entry :=
  {| se_result := r; se_ply := x_ply x; se_boardsize := x_boardsize x; se_rule := u;
     se_move := move_at (x_move x); se_position := map move_at (x_position x) |}.

Lemma simple_head_encode x r u rest : simple_ok x r u ->
  simple_head_of (simple_encode x ++ rest)
  = {| sh_result := x_result x; sh_ply := x_ply x; sh_boardsize := x_boardsize x; sh_rule := x_rule x; sh_move := x_move x |}.
Proof.
  intros H. destruct H as [[H1 _] [H2 H3] H4 [H5 _] H6 _]. pose proof (zlen_nonneg (x_position x)) as Hz. rewrite <- H2 in Hz.
  set (w0 := x_result x + 4 * x_ply x + 2048 * x_boardsize x). set (w1 := x_rule x + 8 * x_move x).
  assert (E0 : firstn 2 (simple_encode x ++ rest) = le_bytes 2 w0) by reflexivity.
  assert (E1 : firstn 2 (skipn 2 (simple_encode x ++ rest)) = le_bytes 2 w1) by reflexivity.
  unfold simple_head_of. rewrite E0, E1. cbv zeta. rewrite !le_value_le_bytes by (change (256 ^ Z.of_nat 2) with 65536; subst w0 w1; lia).
  rewrite !bits_arith by lia.
  change (2 ^ 0) with 1. change (2 ^ 2) with 4. change (2 ^ 9) with 512. change (2 ^ 11) with 2048. change (2 ^ 5) with 32.
  change (2 ^ 3) with 8. change (2 ^ 13) with 8192.
  subst w0 w1.
  f_equal; Z.div_mod_to_equations; lia.
Qed.

Lemma simple_encode_length x : List.length (simple_encode x) = (4 + 2 * List.length (x_position x))%nat.
Proof. unfold simple_encode. rewrite !app_length, !le_bytes_length, flat_map_le_length. lia. Qed.

(** Which entries are delivered, and with what board: those of a wanted rule and a wanted
    square board. *)
Lemma accepted_spec rules sizes fixed bs u sh :
  accepted rules sizes fixed bs u = Some sh <->
  In u rules /\ In (bs, bs) sizes /\ sh = match fixed with Some (h, w) => [h; w] | None => [bs; bs] end.
Proof.
  unfold accepted.
  assert (E1 : existsb (rule_eqb u) rules = true <-> In u rules).
  { rewrite existsb_exists. split.
    - intros [v [H1 H2]]. destruct u, v; cbn in H2; try discriminate; exact H1.
    - intros H. exists u. split; [exact H|destruct u; reflexivity]. }
  assert (E2 : existsb (fun p => (fst p =? bs) && (snd p =? bs)) sizes = true <-> In (bs, bs) sizes).
  { rewrite existsb_exists. split.
    - intros [[a b] [H1 H2]]. cbn in H2. apply andb_true_iff in H2. destruct H2 as [H2 H3].
      apply Z.eqb_eq in H2, H3. subst. exact H1.
    - intros H. exists (bs, bs). split; [exact H|]. cbn. rewrite Z.eqb_refl. reflexivity. }
  rewrite <- E1, <- E2.
  destruct (existsb (rule_eqb u) rules), (existsb (fun p => (fst p =? bs) && (snd p =? bs)) sizes); cbn;
    split; intros H; try discriminate; try (destruct H as (H1 & H2 & H3); discriminate).
  - injection H as <-. auto.
  - destruct H as (_ & _ & ->). reflexivity.
Qed.

(** C25: decoding an entry recovers every field, and leaves the rest of the stream. *)
Theorem C25_decoding_recovers_every_field :
  forall x r u rest, simple_ok x r u ->
  simple_read_entry (simple_encode x ++ rest) = Ok (simple_meaning x r u, rest)
  /\ simple_decode (simple_encode x) = Ok (simple_meaning x r u)
  /\ simple_shape (simple_encode x) = Ok (x_boardsize x, u).
Proof.
  assert (Main : forall x r u rest, simple_ok x r u ->
    simple_read_entry (simple_encode x ++ rest) = Ok (simple_meaning x r u, rest)).
  { intros x r u rest H. unfold simple_read_entry.
    set (h := le_bytes 2 (x_result x + 4 * x_ply x + 2048 * x_boardsize x) ++ le_bytes 2 (x_rule x + 8 * x_move x)).
    assert (E : simple_encode x ++ rest = h ++ flat_map (le_bytes 2) (x_position x) ++ rest).
    { unfold simple_encode. subst h. rewrite <- !app_assoc. reflexivity. }
    rewrite E. change simple_head_size with (List.length h). rewrite take_exact_app. cbn [bind].
    assert (Eh : simple_head_of h = simple_head_of (simple_encode x ++ rest)).
    { rewrite E. subst h. reflexivity. }
    rewrite Eh, (simple_head_encode rest H). cbn [sh_result sh_ply sh_boardsize sh_rule sh_move].
    destruct H as [[_ ->] [H2 _] _ [_ ->] _ H6]. rewrite result_of_code, rule_of_code. cbn [bind].
    rewrite H2. unfold zlen. rewrite Nat2Z.id.
    rewrite <- (flat_map_le_length 2 (x_position x)) at 1. rewrite take_exact_app. cbn [bind].
    unfold simple_meaning. rewrite move_of_at, map_move_of.
    pose proof (u16s_app [] H6) as U. rewrite app_nil_r in U. rewrite U, H2. reflexivity. }
  intros x r u rest H. split; [apply Main; exact H|]. split.
  - unfold simple_decode. pose proof (Main x r u [] H) as E. rewrite app_nil_r in E. rewrite E. reflexivity.
  - unfold simple_shape. assert (X : (simple_head_size <=? List.length (simple_encode x))%nat = true).
    { rewrite simple_encode_length. reflexivity. }
    rewrite X. cbv zeta. pose proof (simple_head_encode [] H) as E. rewrite app_nil_r in E. rewrite E.
    cbn [sh_rule sh_boardsize]. destruct H as [_ _ _ [_ ->] _ _]. rewrite rule_of_code. reflexivity.
Qed.

(** C25: an entry takes part in training exactly when its rule and its board size are wanted;
    it is then planned with its own board size, or the fixed one. *)
Theorem C25_wanted_entries_are_delivered :
  forall id rules sizes fixed x r u sh, simple_ok x r u ->
  (f_shape (simple_format id rules sizes fixed) (simple_encode x) = Ok (Some sh) <->
   In u rules /\ In (x_boardsize x, x_boardsize x) sizes
   /\ sh = match fixed with Some (h, w) => [h; w] | None => [x_boardsize x; x_boardsize x] end).
Proof.
  intros id rules sizes fixed x r u sh H. cbn [f_shape simple_format].
  destruct (C25_decoding_recovers_every_field [] H) as (_ & _ & ->). cbn [bind].
  rewrite <- accepted_spec. split; [intros E; injection E; auto|intros ->; reflexivity].
Qed.

(** For every byte stream, reading an entry at once and reading it raw and decoding
    the raw bytes are the same: same entry, same bytes consumed, same refusals. *)
Lemma take_exact_tail n k s a b : take_exact n s = Ok (a, b) ->
  take_exact k b = match take_exact (n + k) s with
                   | Ok (x, y) => Ok (skipn n x, y)
                   | Err e => Err e
                   end.
Proof.
  intros H. destruct (take_exact_inv H) as [-> <-]. unfold take_exact. rewrite app_length.
  destruct (Nat.leb_spec k (List.length b)) as [Hk|Hk].
  - assert (X : (List.length a + k <=? List.length a + List.length b)%nat = true) by (apply Nat.leb_le; lia).
    rewrite X. rewrite firstn_app_2, skipn_app, skipn_all, Nat.sub_diag. cbn.
    rewrite skipn_app. rewrite (skipn_all2 a) by lia. replace (List.length a + k - List.length a)%nat with k by lia. reflexivity.
  - assert (X : (List.length a + k <=? List.length a + List.length b)%nat = false) by (apply Nat.leb_gt; lia).
    rewrite X. reflexivity.
Qed.

Theorem C25_raw_and_direct_reading_agree :
  forall s e rest,
  simple_read_entry s = Ok (e, rest) <->
  exists raw, simple_read_raw s = Ok (raw, rest) /\ simple_decode raw = Ok e.
Proof.
  intros s e rest. unfold simple_read_entry, simple_read_raw, simple_decode. split.
  - intros H. inv_bind H. destruct v as [head s1]. inv_bind H. inv_bind H. inv_bind H. destruct v1 as [pos s2].
    inversion H; subst; clear H. rewrite Hm. cbn [bind]. rewrite Hm2. cbn [bind].
    eexists. split; [reflexivity|]. unfold simple_read_entry.
    destruct (take_exact_inv Hm) as [_ L1]. destruct (take_exact_inv Hm2) as [_ L2].
    rewrite <- L1 at 1. rewrite take_exact_app. cbn [bind]. rewrite Hm0, Hm1. cbn [bind].
    pose proof (take_exact_app pos []) as T. rewrite app_nil_r, L2 in T. rewrite T. cbn. reflexivity.
  - intros (raw & H1 & H2). inv_bind H1. destruct v as [head s1]. inv_bind H1. destruct v as [pay s2].
    inversion H1; subst; clear H1. inv_bind H2. destruct v as [e1 r1]. apply guard_Ok in H2. destruct H2 as [Hr H2].
    destruct r1; [|discriminate]. inversion H2; subst e1; clear H2. rewrite Hm. cbn [bind].
    unfold simple_read_entry in Hm1. destruct (take_exact_inv Hm) as [_ L1]. destruct (take_exact_inv Hm0) as [_ L2].
    rewrite <- L1 in Hm1 at 1. rewrite take_exact_app in Hm1. cbn [bind] in Hm1. inv_bind Hm1. inv_bind Hm1.
    rewrite Hm2, Hm3. cbn [bind]. rewrite Hm0. cbn [bind].
    pose proof (take_exact_app pay []) as T. rewrite app_nil_r, L2 in T. rewrite T in Hm1. cbn in Hm1. inversion Hm1. reflexivity.
Qed.

(** Raw reading takes a prefix; cut anywhere inside that prefix, the stream raises
    EOFError instead of yielding a shorter entry. *)
Theorem C25_truncated_entries_raise_eof :
  forall s raw rest, simple_read_raw s = Ok (raw, rest) ->
  s = raw ++ rest /\ forall k, (k < List.length raw)%nat ->
    simple_read_raw (firstn k s) = Err EOFError.
Proof.
  intros s raw rest H. unfold simple_read_raw in *. inv_bind H. destruct v as [head s1]. inv_bind H. destruct v as [pay s2].
  inversion H; subst; clear H. destruct (take_exact_inv Hm) as [-> L1]. destruct (take_exact_inv Hm0) as [-> L2].
  split; [apply app_assoc|]. intros k Hk. rewrite app_length in Hk.
  destruct (Nat.lt_ge_cases k simple_head_size) as [Hlt|Hge].
  - rewrite take_exact_short; [reflexivity|]. rewrite firstn_length. lia.
  - assert (E : firstn k (head ++ pay ++ rest) = head ++ firstn (k - List.length head) (pay ++ rest)).
    { rewrite firstn_app. rewrite (firstn_all2 head) by lia. reflexivity. }
    rewrite E. rewrite <- L1 at 1. rewrite take_exact_app. cbn [bind].
    rewrite take_exact_short; [reflexivity|]. rewrite firstn_length, app_length. lia.
Qed.

(** A file of encoded entries is split into exactly these entries, in order, by the
    sequential source; its entries are good when their rules and board sizes are. *)
Theorem C25_files_are_split_into_their_entries :
  forall id rules sizes fixed xs,
  (forall x, In x xs -> exists r u, simple_ok x r u) ->
  entries (simple_format id rules sizes fixed) (List.concat (map simple_encode xs)) (map simple_encode xs).
Proof.
  intros id rules sizes fixed xs. induction xs as [|x xs IH]; intros H; [constructor|].
  cbn [map List.concat]. destruct (H x (or_introl eq_refl)) as (r & u & Hx).
  set (tail := List.concat (map simple_encode xs)) in *.
  assert (Hr : simple_read_raw (simple_encode x ++ tail) = Ok (simple_encode x, tail)).
  { assert (Hd : simple_read_entry (simple_encode x ++ tail) = Ok (simple_meaning x r u, tail)).
    { apply (C25_decoding_recovers_every_field tail Hx). }
    destruct (proj1 (C25_raw_and_direct_reading_agree _ _ _) Hd) as (raw & E & _). rewrite E.
    destruct (C25_truncated_entries_raise_eof E) as [E2 _]. apply app_inv_tail in E2. subst raw. reflexivity. }
  assert (Hf : firstn (List.length (simple_encode x)) (simple_encode x ++ tail) = simple_encode x).
  { rewrite firstn_app, Nat.sub_diag, firstn_all, firstn_O. apply app_nil_r. }
  rewrite <- Hf at 2. constructor.
  - unfold simple_encode. discriminate.
  - cbn [f_read simple_format]. rewrite Hr. reflexivity.
  - rewrite Hf. unfold simple_encode. discriminate.
  - assert (Hs : skipn (List.length (simple_encode x)) (simple_encode x ++ tail) = tail).
    { rewrite skipn_app, Nat.sub_diag, skipn_all. reflexivity. }
    rewrite Hs. apply IH. intros y Hy. apply H. right. exact Hy.
Qed.

Example ex_simple :
  let x := {| x_result := 2; x_ply := 3; x_boardsize := 15; x_rule := 4; x_move := 7 * 32 + 8;
              x_position := [7 * 32 + 7; 6 * 32 + 6; 5] |} in
  simple_ok x WIN RENJU
  /\ simple_encode x = [14; 120; 68; 7; 231; 0; 198; 0; 5; 0]
  /\ simple_decode (simple_encode x)
     = Ok {| se_result := WIN; se_ply := 3; se_boardsize := 15; se_rule := RENJU; se_move := {| mv_x := 7; mv_y := 8 |};
             se_position := [{| mv_x := 7; mv_y := 7 |}; {| mv_x := 6; mv_y := 6 |}; {| mv_x := 0; mv_y := 5 |}] |}.
Proof.
  split; [|split; vm_compute; reflexivity].
  constructor; cbn; try (split; [lia|reflexivity]); try lia; try (split; [reflexivity|lia]).
  repeat (constructor; [lia|]). constructor.
Qed.

(** ** The packed format *)
Record move_fields := {
  y_first : bool; y_last : bool; y_noeval : bool; y_pass : bool; y_reserved : Z; y_move : Z; y_eval : Z
}.
Definition bit (b : bool) : Z := if b then 1 else 0.
Definition move_encode (y : move_fields) : bytes :=
  le_bytes 2 (bit (y_first y) + 2 * bit (y_last y) + 4 * bit (y_noeval y) + 8 * bit (y_pass y)
              + 16 * y_reserved y + 64 * y_move y)
  ++ le_bytes 2 (y_eval y mod 2 ^ 16).
Record packed_fields := {
  z_boardsize : Z; z_rule : Z; z_result : Z; z_total : Z; z_tag : Z; z_init : list Z; z_groups : list (list move_fields)
}.
Definition z_moves (z : packed_fields) : list move_fields := List.concat (z_groups z).
Definition packed_encode (z : packed_fields) : bytes :=
  le_bytes 4 (z_boardsize z + 2 ^ 5 * z_rule z + 2 ^ 8 * z_result z + 2 ^ 12 * z_total z + 2 ^ 22 * zlen (z_init z))
  ++ le_bytes 4 (z_tag z + 2 ^ 14 * zlen (z_moves z))
  ++ flat_map (le_bytes 2) (z_init z)
  ++ flat_map move_encode (z_moves z).

Definition move_fits (y : move_fields) : Prop :=
  0 <= y_reserved y < 4 /\ 0 <= y_move y < 2 ^ 10 /\ - 2 ^ 15 <= y_eval y < 2 ^ 15.
(** One position with its candidate moves: the first is marked as first, and only the
    last one as last. *)
Definition group_ok (g : list move_fields) : Prop :=
  exists init m, g = init ++ [m] /\ Forall (fun y => y_last y = false) init /\ y_last m = true
    /\ match g with y :: _ => y_first y = true | [] => False end.

Record packed_ok (z : packed_fields) (r : result) (u : rule) : Prop := {
  po_boardsize : 0 <= z_boardsize z < 2 ^ 5;
  po_rule : 0 <= z_rule z < 2 ^ 3 /\ z_rule z = rule_code u;
  po_result : 0 <= z_result z < 2 ^ 4 /\ z_result z = result_code r;
  po_total : 0 <= z_total z < 2 ^ 10;
  po_tag : 0 <= z_tag z < 2 ^ 14;
  po_init : zlen (z_init z) < 2 ^ 10 /\ Forall (fun m => 0 <= m < 2 ^ 16) (z_init z);
  po_moves : zlen (z_moves z) < 2 ^ 18 /\ Forall move_fits (z_moves z);
  po_groups : Forall group_ok (z_groups z)
}.

(** What a move entry means: the move (or pass) and its evaluation, if any. *)
Definition candidate (y : move_fields) : move * option Z :=
  (if y_pass y then move_pass else move_at (y_move y), if y_noeval y then None else Some (y_eval y)).
Definition packed_meaning (z : packed_fields) (r : result) (u : rule) : packed_entry :=
  {| pe_boardsize := z_boardsize z; pe_rule := u; pe_result := r; pe_total := z_total z; pe_tag := z_tag z;
     pe_init := map move_at (z_init z);
     pe_moves := map (fun g => {| md_moves := map candidate g; md_ended := true |}) (z_groups z) |}.

Lemma move_encode_length y : List.length (move_encode y) = 4%nat.
Proof. unfold move_encode. rewrite app_length, !le_bytes_length. reflexivity. Qed.

Lemma packed_move_encode y : move_fits y ->
  packed_move_of (move_encode y)
  = {| pm_first := y_first y; pm_last := y_last y; pm_noeval := y_noeval y; pm_pass := y_pass y;
       pm_move := y_move y; pm_eval := y_eval y |}.
Proof.
  intros (H1 & H2 & H3). unfold packed_move_of.
  set (w0 := bit (y_first y) + 2 * bit (y_last y) + 4 * bit (y_noeval y) + 8 * bit (y_pass y)
              + 16 * y_reserved y + 64 * y_move y).
  assert (Hb : forall b, 0 <= bit b < 2) by (intros []; cbn; lia).
  pose proof (Hb (y_first y)). pose proof (Hb (y_last y)). pose proof (Hb (y_noeval y)). pose proof (Hb (y_pass y)).
  assert (E0 : firstn 2 (move_encode y) = le_bytes 2 w0) by reflexivity.
  assert (E1 : firstn 2 (skipn 2 (move_encode y)) = le_bytes 2 (y_eval y mod 2 ^ 16)) by reflexivity.
  rewrite E0, E1. cbv zeta.
  pose proof (Z.mod_pos_bound (y_eval y) (2 ^ 16) ltac:(lia)) as He.
  rewrite !le_value_le_bytes by (change (256 ^ Z.of_nat 2) with 65536; subst w0; lia).
  rewrite !bits_arith by lia.
  change (2 ^ 0) with 1. change (2 ^ 1) with 2. change (2 ^ 2) with 4. change (2 ^ 3) with 8. change (2 ^ 6) with 64.
  change (2 ^ 10) with 1024 in *. change (2 ^ 15) with 32768 in *. change (2 ^ 16) with 65536 in *.
  assert (Bits : w0 / 1 mod 2 = bit (y_first y) /\ w0 / 2 mod 2 = bit (y_last y) /\ w0 / 4 mod 2 = bit (y_noeval y)
    /\ w0 / 8 mod 2 = bit (y_pass y) /\ w0 / 64 mod 1024 = y_move y).
  { subst w0. clear E0 E1 Hb He. repeat split; Z.div_mod_to_equations; lia. }
  destruct Bits as (-> & -> & -> & -> & ->).
  assert (Eq : forall b, (bit b =? 1) = b) by (intros []; reflexivity). rewrite !Eq. f_equal.
  clear -H3. destruct (Z.ltb_spec (y_eval y mod 65536) 32768); Z.div_mod_to_equations; lia.
Qed.

Lemma packed_head_encode z r u rest : packed_ok z r u ->
  packed_head_of (packed_encode z ++ rest)
  = {| ph_boardsize := z_boardsize z; ph_rule := z_rule z; ph_result := z_result z; ph_total := z_total z;
       ph_init := zlen (z_init z); ph_tag := z_tag z; ph_count := zlen (z_moves z) |}.
Proof.
  intros H. destruct H as [H1 [H2 _] [H3 _] H4 H5 [H6 _] [H7 _] _].
  pose proof (zlen_nonneg (z_init z)) as P1. pose proof (zlen_nonneg (z_moves z)) as P2.
  unfold packed_head_of.
  set (w0 := z_boardsize z + 2 ^ 5 * z_rule z + 2 ^ 8 * z_result z + 2 ^ 12 * z_total z + 2 ^ 22 * zlen (z_init z)).
  set (w1 := z_tag z + 2 ^ 14 * zlen (z_moves z)).
  assert (E0 : firstn 4 (packed_encode z ++ rest) = le_bytes 4 w0) by reflexivity.
  assert (E1 : firstn 4 (skipn 4 (packed_encode z ++ rest)) = le_bytes 4 w1) by reflexivity.
  rewrite E0, E1. cbv zeta. clear E0 E1. generalize dependent (zlen (z_init z)). generalize dependent (zlen (z_moves z)). intros.
  subst w0 w1. change (2 ^ 5) with 32 in *. change (2 ^ 8) with 256 in *. change (2 ^ 12) with 4096 in *. change (2 ^ 22) with 4194304 in *.
  change (2 ^ 14) with 16384 in *. change (2 ^ 3) with 8 in *. change (2 ^ 4) with 16 in *. change (2 ^ 10) with 1024 in *. change (2 ^ 18) with 262144 in *.
  rewrite !le_value_le_bytes by (change (256 ^ Z.of_nat 4) with 4294967296; lia).
  rewrite !bits_arith by lia. change (2 ^ 0) with 1. change (2 ^ 5) with 32 in *. change (2 ^ 8) with 256 in *. change (2 ^ 12) with 4096 in *. change (2 ^ 22) with 4194304 in *.
  change (2 ^ 14) with 16384 in *. change (2 ^ 3) with 8 in *. change (2 ^ 4) with 16 in *. change (2 ^ 10) with 1024 in *. change (2 ^ 18) with 262144 in *.
  f_equal; Z.div_mod_to_equations; lia.
Qed.

(** appending *)
Lemma entry_append_fresh gs m : (gs = [] \/ exists gs0 d, gs = gs0 ++ [d] /\ md_ended d = true) ->
  entry_append gs m = if pm_first m then Ok (gs ++ [{| md_moves := [(if pm_pass m then move_pass else move_of (pm_move m),
                                    if pm_noeval m then None else Some (pm_eval m))]; md_ended := pm_last m |}])
                      else Err RuntimeError.
Proof.
  intros [->|(gs0 & d & -> & Hd)]; unfold entry_append.
  - cbn. unfold append_move. cbn. destruct (pm_first m); reflexivity.
  - rewrite rev_app_distr. cbn [rev app]. rewrite Hd. unfold append_move. cbn. destruct (pm_first m); reflexivity.
Qed.

Lemma entry_append_more gs0 d m : md_ended d = false -> md_moves d <> [] ->
  entry_append (gs0 ++ [d]) m = Ok (gs0 ++ [{| md_moves := md_moves d ++ [(if pm_pass m then move_pass else move_of (pm_move m),
                                    if pm_noeval m then None else Some (pm_eval m))]; md_ended := pm_last m |}]).
Proof.
  intros Hd Hm. unfold entry_append. rewrite rev_app_distr. cbn [rev app]. rewrite Hd. unfold append_move. rewrite Hd.
  destruct (md_moves d) as [|x l]; [congruence|]. cbn. rewrite rev_involutive. reflexivity.
Qed.

(** The groups so far: none of them is empty. *)
Definition groups_inv (gs : list move_data) : Prop := Forall (fun d => md_moves d <> []) gs.
Definition open_end (gs : list move_data) : bool := match rev gs with [] => true | d :: _ => md_ended d end.

Lemma open_end_cases gs : groups_inv gs ->
  (open_end gs = true /\ (gs = [] \/ exists gs0 d, gs = gs0 ++ [d] /\ md_ended d = true))
  \/ (open_end gs = false /\ exists gs0 d, gs = gs0 ++ [d] /\ md_ended d = false /\ md_moves d <> []).
Proof.
  intros Hi. unfold open_end. destruct (rev gs) as [|d r] eqn:Er.
  - left. split; [reflexivity|]. left. rewrite <- (rev_involutive gs), Er. reflexivity.
  - assert (E : gs = rev r ++ [d]) by (rewrite <- (rev_involutive gs), Er; reflexivity).
    destruct (md_ended d) eqn:Ed; [left|right]; split; auto.
    + right. eauto.
    + exists (rev r), d. split; [exact E|]. split; [exact Ed|]. subst gs. apply Forall_app in Hi. destruct Hi as [_ Hi].
      inversion Hi; auto.
Qed.

Lemma entry_append_inv gs m gs1 : groups_inv gs -> entry_append gs m = Ok gs1 ->
  groups_inv gs1 /\ open_end gs1 = pm_last m
  /\ zlen gs1 = zlen gs + (if open_end gs then 1 else 0)
  /\ (open_end gs = true -> pm_first m = true).
Proof.
  intros Hi H. destruct (open_end_cases Hi) as [[Eo Hc]|(Eo & gs0 & d & -> & Hd & Hm)]; rewrite Eo.
  - rewrite (entry_append_fresh m Hc) in H. destruct (pm_first m); [|discriminate]. inversion H; subst gs1; clear H.
    split; [apply Forall_app; split; [exact Hi|constructor; [discriminate|constructor]]|].
    split; [unfold open_end; rewrite rev_app_distr; reflexivity|]. split; [rewrite zlen_app; reflexivity|auto].
  - rewrite (entry_append_more gs0 m Hd Hm) in H. inversion H; subst gs1; clear H.
    split; [apply Forall_app in Hi; apply Forall_app; split; [apply Hi|constructor; [|constructor]]|].
    + cbn. intros X. apply app_eq_nil in X. destruct X; congruence.
    + split; [unfold open_end; rewrite rev_app_distr; reflexivity|]. split; [rewrite !zlen_app; unfold zlen; cbn [List.length]; lia|discriminate].
Qed.

(** The pre-scan and the full decoder agree on every byte string. *)
Lemma count_read n : forall s gs c, groups_inv gs -> (packed_move_size * n <= List.length s)%nat ->
  match read_moves n s gs with
  | Ok (gs1, rest) => count_groups n s c (open_end gs) = Ok (c + zlen gs1 - zlen gs)
  | Err e => e = RuntimeError /\ count_groups n s c (open_end gs) = Err RuntimeError
  end.
Proof.
  induction n as [|n IH]; intros s gs c Hi Hlen; cbn [read_moves count_groups].
  - f_equal. lia.
  - unfold take_exact. assert (X : (packed_move_size <=? List.length s)%nat = true).
    { apply Nat.leb_le. unfold packed_move_size in *. lia. }
    rewrite X. cbn [bind]. set (m := packed_move_of (firstn packed_move_size s)).
    destruct (entry_append gs m) as [gs1|e] eqn:Ea.
    + cbn [bind]. destruct (entry_append_inv Hi Ea) as (I1 & I2 & I3 & I4).
      assert (Hlen1 : (packed_move_size * n <= List.length (skipn packed_move_size s))%nat).
      { rewrite skipn_length. unfold packed_move_size in *. lia. }
      destruct (open_end gs) eqn:Eo.
      * rewrite (I4 eq_refl). cbn [bind].
        specialize (IH (skipn packed_move_size s) gs1 (c + 1) I1 Hlen1). rewrite I2 in IH.
        destruct (read_moves n (skipn packed_move_size s) gs1) as [[gs2 rest]|e].
        -- destruct (pm_last m); rewrite IH; f_equal; lia.
        -- destruct (pm_last m); exact IH.
      * cbn [bind]. specialize (IH (skipn packed_move_size s) gs1 c I1 Hlen1). rewrite I2 in IH.
        destruct (read_moves n (skipn packed_move_size s) gs1) as [[gs2 rest]|e].
        -- destruct (pm_last m); rewrite IH; f_equal; lia.
        -- destruct (pm_last m); exact IH.
    + cbn [bind]. destruct (open_end_cases Hi) as [[Eo Hc]|(Eo & gs0 & d & -> & Hd & Hm)]; rewrite Eo.
      * rewrite (entry_append_fresh m Hc) in Ea. destruct (pm_first m); [discriminate|]. inversion Ea. auto.
      * rewrite (entry_append_more gs0 m Hd Hm) in Ea. discriminate.
Qed.

Lemma read_moves_rest n : forall s gs gs1 rest, read_moves n s gs = Ok (gs1, rest) ->
  (packed_move_size * n <= List.length s)%nat /\ rest = skipn (packed_move_size * n) s.
Proof.
  induction n as [|n IH]; intros s gs gs1 rest H; cbn [read_moves] in H.
  - inversion H; subst. split; [lia|reflexivity].
  - inv_bind H. destruct v as [b s1]. inv_bind H. destruct (IH _ _ _ _ H) as [H1 ->].
    destruct (take_exact_inv Hm) as [-> L]. unfold packed_move_size in *. rewrite app_length. split; [lia|].
    replace (4 * S n)%nat with (List.length b + 4 * n)%nat by lia. rewrite skipn_app.
    rewrite (skipn_all2 b) by lia. replace (List.length b + 4 * n - List.length b)%nat with (4 * n)%nat by lia. reflexivity.
Qed.

Lemma read_moves_app n : forall s t gs gs1, List.length s = (packed_move_size * n)%nat ->
  (read_moves n (s ++ t) gs = Ok (gs1, t) <-> read_moves n s gs = Ok (gs1, [])).
Proof.
  induction n as [|n IH]; intros s t gs gs1 L; cbn [read_moves].
  - assert (s = []) by (destruct s; [reflexivity|cbn in L; lia]). subst s. cbn.
    split; intros H; inversion H; reflexivity.
  - unfold packed_move_size in *.
    assert (E : s = firstn 4 s ++ skipn 4 s) by (symmetry; apply firstn_skipn).
    assert (L1 : List.length (firstn 4 s) = 4%nat) by (rewrite firstn_length; lia).
    assert (T1 : take_exact 4 (s ++ t) = Ok (firstn 4 s, skipn 4 s ++ t)).
    { rewrite E at 1. rewrite <- app_assoc. rewrite <- L1 at 1. apply take_exact_app. }
    assert (T2 : take_exact 4 s = Ok (firstn 4 s, skipn 4 s)).
    { rewrite E at 1. rewrite <- L1 at 1. apply take_exact_app. }
    rewrite T1, T2. cbn [bind]. destruct (entry_append gs _) as [gs2|e]; cbn [bind]; [|split; discriminate].
    apply IH. rewrite skipn_length. lia.
Qed.

Lemma Ok_inv1 (A : Type) (a c : A) : Ok a = Ok c -> c = a.
Proof. intros H. injection H. auto. Qed.

Lemma Ok_pair_inv (A B : Type) (a c : A) (b d : B) : Ok (a, b) = Ok (c, d) -> c = a /\ d = b.
Proof. intros H. injection H. auto. Qed.

(** C26: for every byte stream, direct reading and raw reading followed by decoding agree. *)
Theorem C26_raw_and_direct_reading_agree :
  forall s e rest,
  packed_read_entry s = Ok (e, rest) <->
  exists raw, packed_read_raw s = Ok (raw, rest) /\ packed_decode raw = Ok e.
Proof.
  assert (Split : forall n k b, (n + k <= List.length b)%nat -> take_exact (n + k) b = Ok (firstn n b ++ firstn k (skipn n b), skipn k (skipn n b))).
  { intros n k b Hl. unfold take_exact. assert (X : (n + k <=? List.length b)%nat = true) by (apply Nat.leb_le; lia). rewrite X.
    f_equal. f_equal.
    - rewrite <- (firstn_skipn n b) at 1. rewrite firstn_app, firstn_length.
      replace (n + k - Nat.min n (List.length b))%nat with k by lia.
      rewrite (firstn_all2 (firstn n b)) by (rewrite firstn_length; lia). reflexivity.
    - rewrite BaseFacts.skipn_skipn. f_equal. lia. }
  intros s e rest. unfold packed_read_entry, packed_read_raw, packed_decode. split.
  - intros H. inv_bind H. destruct v as [head s1]. inv_bind H. destruct v as [pos s2]. inv_bind H. inv_bind H.
    inv_bind H. destruct v1 as [gs s3]. apply Ok_pair_inv in H; destruct H as [-> <-]. rewrite Hm. cbn [bind].
    destruct (take_exact_inv Hm0) as [E2 L2]. destruct (read_moves_rest Hm3) as [L3 E3].
    set (mb := firstn (packed_move_size * Z.to_nat (ph_count (packed_head_of head))) s2).
    assert (E4 : s2 = mb ++ rest) by (subst rest mb; symmetry; apply firstn_skipn).
    assert (Lmb : List.length mb = (packed_move_size * Z.to_nat (ph_count (packed_head_of head)))%nat).
    { subst mb. rewrite firstn_length. lia. }
    assert (T : take_exact (packed_payload (packed_head_of head)) s1 = Ok (pos ++ mb, rest)).
    { rewrite E2, E4, app_assoc. assert (Lp : packed_payload (packed_head_of head) = List.length (pos ++ mb)).
      { unfold packed_payload. rewrite app_length, L2, Lmb. reflexivity. }
      rewrite Lp. apply take_exact_app. }
    rewrite T. cbn [bind]. eexists. split; [reflexivity|]. unfold packed_read_entry.
    destruct (take_exact_inv Hm) as [_ L1]. rewrite <- L1 at 1. rewrite take_exact_app. cbn [bind].
    rewrite <- L2 at 1. rewrite take_exact_app. cbn [bind]. rewrite Hm1, Hm2. cbn [bind].
    rewrite E4 in Hm3. apply (read_moves_app _ _ _ Lmb) in Hm3. rewrite Hm3. reflexivity.
  - intros (raw & H1 & H2). inv_bind H1. destruct v as [head s1]. inv_bind H1. destruct v as [pay s2].
    apply Ok_pair_inv in H1; destruct H1 as [-> <-]. inv_bind H2. destruct v as [e1 r1]. apply guard_Ok in H2. destruct H2 as [Hr H2].
    destruct r1; [|discriminate]. inversion H2; subst e1; clear H2. rewrite Hm. cbn [bind].
    unfold packed_read_entry in Hm1. destruct (take_exact_inv Hm) as [_ L1]. destruct (take_exact_inv Hm0) as [E0 L2].
    rewrite <- L1 in Hm1 at 1. rewrite take_exact_app in Hm1. cbn [bind] in Hm1.
    inv_bind Hm1. destruct v as [pos mb]. inv_bind Hm1. inv_bind Hm1. inv_bind Hm1. destruct v1 as [gs r2].
    apply Ok_pair_inv in Hm1; destruct Hm1 as [-> <-]. destruct (take_exact_inv Hm2) as [-> L3].
    assert (T : take_exact (2 * Z.to_nat (ph_init (packed_head_of head))) ((pos ++ mb) ++ rest) = Ok (pos, mb ++ rest)).
    { rewrite <- app_assoc, <- L3 at 1. apply take_exact_app. }
    rewrite E0, T. cbn [bind]. rewrite Hm3, Hm4. cbn [bind].
    assert (Lmb : List.length mb = (packed_move_size * Z.to_nat (ph_count (packed_head_of head)))%nat).
    { unfold packed_payload in L2. rewrite app_length, L3 in L2. lia. }
    apply (read_moves_app rest _ _ Lmb) in Hm5. rewrite Hm5. reflexivity.
Qed.

(** C26: the pre-scan predicts the number of positions that decoding produces, and
    accepts exactly the payloads that decode, but for an unknown result code. *)
Theorem C26_prescan_predicts_decoding :
  forall s raw rest, packed_read_raw s = Ok (raw, rest) ->
  (forall e, packed_decode raw = Ok e -> packed_metadata raw = Ok (pe_boardsize e, pe_rule e, zlen (pe_moves e)))
  /\ (forall bs u n, packed_metadata raw = Ok (bs, u, n) ->
        (exists e, packed_decode raw = Ok e) \/ result_of (ph_result (packed_head_of raw)) = Err ValueError).
Proof.
  intros s raw rest H. unfold packed_read_raw in H. inv_bind H. destruct v as [head s1]. inv_bind H. destruct v as [pay s2].
  apply Ok_pair_inv in H; destruct H as [-> <-]. destruct (take_exact_inv Hm) as [_ L1]. destruct (take_exact_inv Hm0) as [_ L2].
  set (h := packed_head_of head) in *.
  assert (Eh : packed_head_of (head ++ pay) = h).
  { subst h. unfold packed_head_size in L1. do 8 (destruct head as [|? head]; [cbn in L1; lia|]). destruct head; [|cbn in L1; lia]. reflexivity. }
  set (pos := firstn (2 * Z.to_nat (ph_init h)) pay). set (mb := skipn (2 * Z.to_nat (ph_init h)) pay).
  assert (Ep : pay = pos ++ mb) by (symmetry; apply firstn_skipn).
  unfold packed_payload in L2.
  assert (Lp : List.length pos = (2 * Z.to_nat (ph_init h))%nat) by (subst pos; rewrite firstn_length; lia).
  assert (Lm : List.length mb = (packed_move_size * Z.to_nat (ph_count h))%nat) by (subst mb; rewrite skipn_length; lia).
  assert (Hmeta : packed_metadata (head ++ pay) =
    count <- count_groups (Z.to_nat (ph_count h)) mb 0 true ;; r <- rule_of (ph_rule h) ;; Ok (ph_boardsize h, r, count)).
  { unfold packed_metadata. rewrite Eh, app_length.
    assert (X : (packed_head_size <=? List.length head + List.length pay)%nat = true) by (apply Nat.leb_le; lia). rewrite X.
    assert (Y : (List.length head + List.length pay =? packed_head_size + packed_payload h)%nat = true).
    { apply Nat.eqb_eq. unfold packed_payload. lia. }
    cbv zeta. rewrite Y. rewrite skipn_app, L1. rewrite (skipn_all2 head) by lia.
    replace (packed_head_size + 2 * Z.to_nat (ph_init h) - packed_head_size)%nat with (2 * Z.to_nat (ph_init h))%nat by lia.
    reflexivity. }
  assert (Hdec : packed_read_entry (head ++ pay) =
    r <- rule_of (ph_rule h) ;; rs <- result_of (ph_result h) ;;
    '(gs, s3) <- read_moves (Z.to_nat (ph_count h)) mb [] ;;
    Ok ({| pe_boardsize := ph_boardsize h; pe_rule := r; pe_result := rs; pe_total := ph_total h;
         pe_tag := ph_tag h; pe_init := map move_of (u16s (Z.to_nat (ph_init h)) pos); pe_moves := gs |}, s3)).
  { unfold packed_read_entry. rewrite <- L1 at 1. rewrite take_exact_app. cbn [bind]. fold h.
    rewrite Ep, <- Lp at 1. rewrite take_exact_app. reflexivity. }
  pose proof (@count_read (Z.to_nat (ph_count h)) mb [] 0 (Forall_nil _) ltac:(lia)) as Hc.
  change (open_end []) with true in Hc.
  rewrite Hmeta. unfold packed_decode. rewrite Hdec, Eh. split.
  - intros e H. inv_bind H. destruct v as [e1 r1]. inv_bind Hm1. inv_bind Hm1. inv_bind Hm1. destruct v1 as [gs r2].
    apply Ok_pair_inv in Hm1; destruct Hm1 as [-> <-]. apply guard_Ok in H. destruct H as [_ H]. apply Ok_inv1 in H. subst e.
    rewrite Hm4 in Hc. rewrite Hc. cbn [bind]. cbn [pe_boardsize pe_rule pe_moves]. rewrite Hm2. cbn [bind]. f_equal. f_equal. change (zlen (@nil move_data)) with 0. lia.
  - intros bs u n H. inv_bind H. inv_bind H. apply Ok_pair_inv in H; destruct H as [_ _]. rewrite Hm2. cbn [bind].
    destruct (result_of (ph_result h)) as [rs|er] eqn:Er.
    + left. cbn [bind]. destruct (read_moves (Z.to_nat (ph_count h)) mb []) as [[gs r2]|e] eqn:Erm.
      * cbn [bind]. destruct (read_moves_rest Erm) as [_ ->]. rewrite (skipn_all2 mb) by lia. cbn. eauto.
      * destruct Hc as [_ Hc]. congruence.
    + right. unfold result_of in Er. repeat (destruct (_ =? _); [discriminate|]). congruence.
Qed.

(** C26: cut anywhere, an entry raises EOFError. *)
Theorem C26_truncated_entries_raise_eof :
  forall s raw rest, packed_read_raw s = Ok (raw, rest) ->
  s = raw ++ rest /\ forall k, (k < List.length raw)%nat ->
    packed_read_raw (firstn k s) = Err EOFError.
Proof.
  intros s raw rest H. unfold packed_read_raw in *. inv_bind H. destruct v as [head s1]. inv_bind H. destruct v as [pay s2].
  apply Ok_pair_inv in H; destruct H as [-> <-]. destruct (take_exact_inv Hm) as [-> L1]. destruct (take_exact_inv Hm0) as [-> L2].
  split; [apply app_assoc|]. intros k Hk. rewrite app_length in Hk.
  destruct (Nat.lt_ge_cases k packed_head_size) as [Hlt|Hge].
  - rewrite take_exact_short; [reflexivity|]. rewrite firstn_length. lia.
  - assert (E : firstn k (head ++ pay ++ rest) = head ++ firstn (k - List.length head) (pay ++ rest)).
    { rewrite firstn_app. rewrite (firstn_all2 head) by lia. reflexivity. }
    rewrite E. rewrite <- L1 at 1. rewrite take_exact_app. cbn [bind].
    rewrite take_exact_short; [reflexivity|]. rewrite firstn_length, app_length. lia.
Qed.

(** Reading encoded groups back. *)
Lemma read_encoded_moves ys : forall gsx d k s, md_ended d = false -> md_moves d <> [] -> Forall move_fits ys ->
  Forall (fun y => y_last y = false) ys ->
  read_moves (List.length ys + k) (flat_map move_encode ys ++ s) (gsx ++ [d])
  = read_moves k s (gsx ++ [{| md_moves := md_moves d ++ map candidate ys; md_ended := false |}]).
Proof.
  induction ys as [|y ys IH]; intros gsx d k s Hd Hne Hf Hl.
  - cbn. rewrite app_nil_r. destruct d as [ms en]. cbn in *. subst en. reflexivity.
  - inversion Hf as [|? ? Hf1 Hf2]; subst. inversion Hl as [|? ? Hl1 Hl2]; subst.
    cbn [List.length Nat.add read_moves flat_map]. rewrite <- app_assoc.
    unfold packed_move_size.
    pose proof (take_exact_app (move_encode y) (flat_map move_encode ys ++ s)) as T. rewrite (move_encode_length y) in T.
    rewrite T. cbn [bind]. rewrite (packed_move_encode Hf1). rewrite (entry_append_more gsx _ Hd Hne).
    cbn [bind pm_last pm_pass pm_move pm_noeval pm_eval]. rewrite Hl1. rewrite IH; auto.
    + cbn [md_moves map]. rewrite move_of_at. fold (candidate y). rewrite <- app_assoc. reflexivity.
    + cbn. intros X. apply app_eq_nil in X. destruct X; discriminate.
Qed.

Lemma read_encoded_groups groups : forall rest gs0 n, open_end gs0 = true -> groups_inv gs0 ->
  Forall move_fits (List.concat groups) -> Forall group_ok groups ->
  n = List.length (List.concat groups) ->
  read_moves n (flat_map move_encode (List.concat groups) ++ rest) gs0
  = Ok (gs0 ++ map (fun g => {| md_moves := map candidate g; md_ended := true |}) groups, rest).
Proof.
  induction groups as [|g groups IH]; intros rest gs0 n Ho Hi Hf Hg ->.
  - cbn. rewrite app_nil_r. reflexivity.
  - inversion Hg as [|? ? Hg1 Hg2]; subst. cbn [List.concat] in *. apply Forall_app in Hf. destruct Hf as [Hf1 Hf2].
    rewrite app_length, flat_map_app, <- app_assoc.
    set (rest1 := flat_map move_encode (List.concat groups) ++ rest).
    set (n1 := List.length (List.concat groups)).
    assert (Hg' : read_moves (List.length g + n1) (flat_map move_encode g ++ rest1) gs0
                  = read_moves n1 rest1 (gs0 ++ [{| md_moves := map candidate g; md_ended := true |}])).
    { clear IH Hg Hg2 Hf2. destruct Hg1 as (init & m & -> & Hlast & Hm & Hfirst).
      assert (Hc : gs0 = [] \/ exists gs d, gs0 = gs ++ [d] /\ md_ended d = true).
      { destruct (open_end_cases Hi) as [[_ X]|[X _]]; [exact X|congruence]. }
      assert (Step1 : forall y s k, y_first y = true -> move_fits y ->
        read_moves (S k) (move_encode y ++ s) gs0 = read_moves k s (gs0 ++ [{| md_moves := [candidate y]; md_ended := y_last y |}])).
      { intros y s k Hy Hfit. cbn [read_moves]. unfold packed_move_size.
        pose proof (take_exact_app (move_encode y) s) as T. rewrite (move_encode_length y) in T. rewrite T. cbn [bind].
        rewrite (packed_move_encode Hfit), (entry_append_fresh _ Hc). cbn [pm_first pm_last pm_pass pm_move pm_noeval pm_eval].
        rewrite Hy. cbn [bind]. rewrite move_of_at. reflexivity. }
      destruct init as [|y init].
      - cbn [app] in *. cbn [List.length Nat.add flat_map map]. rewrite app_nil_r. inversion Hf1; subst.
        rewrite Step1 by auto. rewrite Hm. reflexivity.
      - cbn [app] in *. inversion Hf1 as [|? ? Hfy Hf3]; subst. inversion Hlast as [|? ? Hly Hl2]; subst.
        apply Forall_app in Hf3. destruct Hf3 as [Hf3 Hf4]. inversion Hf4 as [|? ? Hfm _]; subst.
        cbn [List.length Nat.add flat_map]. rewrite <- app_assoc. rewrite Step1 by auto. rewrite Hly.
        rewrite app_length, flat_map_app, <- app_assoc. cbn [List.length flat_map]. rewrite app_nil_r.
        rewrite <- Nat.add_assoc, read_encoded_moves; auto; [|cbn; discriminate].
        cbn [Nat.add read_moves]. unfold packed_move_size.
        pose proof (take_exact_app (move_encode m) rest1) as T. rewrite (move_encode_length m) in T. rewrite T. cbn [bind].
        rewrite (packed_move_encode Hfm). rewrite entry_append_more; [|reflexivity|cbn; discriminate].
        cbn [bind pm_last pm_pass pm_move pm_noeval pm_eval md_moves]. rewrite Hm, move_of_at. fold (candidate m).
        cbn [map]. rewrite map_app. reflexivity. }
    rewrite Hg'. subst rest1 n1. rewrite IH; auto.
    + rewrite <- app_assoc. reflexivity.
    + unfold open_end. rewrite rev_app_distr. reflexivity.
    + apply Forall_app. split; [exact Hi|]. constructor; [|constructor]. cbn.
      destruct Hg1 as (init & m & -> & _). rewrite map_app. intros X. apply app_eq_nil in X. destruct X; discriminate.
Qed.

Lemma flat_map_encode_length ys : List.length (flat_map move_encode ys) = (4 * List.length ys)%nat.
Proof. induction ys as [|y ys IH]; [reflexivity|]. cbn [flat_map List.length]. rewrite app_length, IH, move_encode_length. lia. Qed.

(** C26: decoding recovers every bit field and the grouping of the moves. *)
Theorem C26_decoding_recovers_every_field :
  forall z r u rest, packed_ok z r u ->
  packed_read_entry (packed_encode z ++ rest) = Ok (packed_meaning z r u, rest)
  /\ packed_decode (packed_encode z) = Ok (packed_meaning z r u)
  /\ packed_metadata (packed_encode z) = Ok (z_boardsize z, u, zlen (z_groups z)).
Proof.
  assert (Main : forall z r u rest, packed_ok z r u ->
    packed_read_entry (packed_encode z ++ rest) = Ok (packed_meaning z r u, rest)).
  { intros z r u rest H. unfold packed_read_entry.
    set (h := le_bytes 4 (z_boardsize z + 2 ^ 5 * z_rule z + 2 ^ 8 * z_result z + 2 ^ 12 * z_total z + 2 ^ 22 * zlen (z_init z))
              ++ le_bytes 4 (z_tag z + 2 ^ 14 * zlen (z_moves z))).
    assert (E : packed_encode z ++ rest = h ++ flat_map (le_bytes 2) (z_init z) ++ flat_map move_encode (z_moves z) ++ rest).
    { unfold packed_encode. subst h. rewrite <- !app_assoc. reflexivity. }
    rewrite E.
    assert (Lh : List.length h = packed_head_size) by (subst h; rewrite app_length, !le_bytes_length; reflexivity).
    rewrite <- Lh at 1. rewrite take_exact_app. cbn [bind].
    assert (Eh : packed_head_of h = packed_head_of (packed_encode z ++ rest)).
    { rewrite E. subst h. reflexivity. }
    rewrite Eh, (packed_head_encode rest H). cbn [ph_boardsize ph_rule ph_result ph_total ph_init ph_tag ph_count].
    destruct H as [_ [_ Hu] [_ Hr] _ _ [_ Hi] [_ Hm] Hg].
    unfold zlen at 1. rewrite Nat2Z.id. rewrite <- (flat_map_le_length 2 (z_init z)) at 1. rewrite take_exact_app. cbn [bind].
    rewrite Hu, Hr, rule_of_code, result_of_code. cbn [bind]. unfold zlen at 1. rewrite Nat2Z.id.
    unfold z_moves in *. rewrite (@read_encoded_groups (z_groups z) rest [] _ eq_refl (Forall_nil _) Hm Hg eq_refl). cbn [bind app].
    unfold packed_meaning. unfold zlen. rewrite Nat2Z.id. rewrite map_move_of.
    pose proof (u16s_app [] Hi) as U. rewrite app_nil_r in U. rewrite U. reflexivity. }
  intros z r u rest H.
  assert (Hd : packed_decode (packed_encode z) = Ok (packed_meaning z r u)).
  { unfold packed_decode. pose proof (Main z r u [] H) as E. rewrite app_nil_r in E. rewrite E. reflexivity. }
  split; [apply Main; exact H|]. split; [exact Hd|].
  destruct (proj1 (C26_raw_and_direct_reading_agree _ _ _) (Main z r u rest H)) as (raw & Eraw & _).
  destruct (C26_truncated_entries_raise_eof Eraw) as [E2 _]. apply app_inv_tail in E2. subst raw.
  destruct (C26_prescan_predicts_decoding Eraw) as [Hp _]. rewrite (Hp _ Hd).
  cbn. unfold zlen. rewrite map_length. reflexivity.
Qed.

(** C26: a game takes part in training exactly when its rule and its board size are wanted. *)
Theorem C26_wanted_games_are_delivered :
  forall id rules sizes fixed z r u sh, packed_ok z r u ->
  (f_shape (packed_format id rules sizes fixed) (packed_encode z) = Ok (Some sh) <->
   In u rules /\ In (z_boardsize z, z_boardsize z) sizes
   /\ sh = match fixed with Some (h, w) => [h; w] | None => [z_boardsize z; z_boardsize z] end).
Proof.
  intros id rules sizes fixed z r u sh H. cbn [f_shape packed_format].
  destruct (C26_decoding_recovers_every_field [] H) as (_ & _ & ->). cbn [bind].
  rewrite <- accepted_spec. split; [intros E; injection E; auto|intros ->; reflexivity].
Qed.

(** C26: a file of encoded games is split into exactly these games, in order, and each
    game stands for as many records as it has positions. *)
Theorem C26_files_are_split_into_their_games :
  forall id rules sizes fixed zs,
  (forall z, In z zs -> exists r u, packed_ok z r u) ->
  entries (packed_format id rules sizes fixed) (List.concat (map packed_encode zs)) (map packed_encode zs)
  /\ forall s z, In z zs -> q_format s = packed_format id rules sizes fixed ->
       (exists r u, packed_ok z r u /\ In u rules /\ In (z_boardsize z, z_boardsize z) sizes) ->
       entry_count s (packed_encode z) = zlen (z_groups z).
Proof.
  intros id rules sizes fixed zs H. split.
  - induction zs as [|x xs IH]; [constructor|].
    cbn [map List.concat]. destruct (H x (or_introl eq_refl)) as (r & u & Hx).
    set (tail := List.concat (map packed_encode xs)) in *.
    assert (Hr : packed_read_raw (packed_encode x ++ tail) = Ok (packed_encode x, tail)).
    { assert (Hd : packed_read_entry (packed_encode x ++ tail) = Ok (packed_meaning x r u, tail)).
      { apply (C26_decoding_recovers_every_field tail Hx). }
      destruct (proj1 (C26_raw_and_direct_reading_agree _ _ _) Hd) as (raw & E & _). rewrite E.
      destruct (C26_truncated_entries_raise_eof E) as [E2 _]. apply app_inv_tail in E2. subst raw. reflexivity. }
    assert (Hf : firstn (List.length (packed_encode x)) (packed_encode x ++ tail) = packed_encode x).
    { rewrite firstn_app, Nat.sub_diag, firstn_all, firstn_O. apply app_nil_r. }
    rewrite <- Hf at 2. constructor.
    + unfold packed_encode. discriminate.
    + cbn [f_read packed_format]. rewrite Hr. reflexivity.
    + rewrite Hf. unfold packed_encode. discriminate.
    + assert (Hs : skipn (List.length (packed_encode x)) (packed_encode x ++ tail) = tail).
      { rewrite skipn_app, Nat.sub_diag, skipn_all. reflexivity. }
      rewrite Hs. apply IH. intros y Hy. apply H. right. exact Hy.
  - intros s z Hz Hq (r & u & Hok & Hu & Ha).
    destruct (C26_decoding_recovers_every_field [] Hok) as (_ & _ & Hmeta).
    unfold entry_count. rewrite Hq. cbn [f_shape f_count packed_format]. rewrite Hmeta. cbn [bind].
    rewrite (proj2 (accepted_spec rules sizes fixed (z_boardsize z) u _) (conj Hu (conj Ha eq_refl))). reflexivity.
Qed.

Example ex_packed :
  let mv f l n p m e := {| y_first := f; y_last := l; y_noeval := n; y_pass := p; y_reserved := 0; y_move := m; y_eval := e |} in
  let z := {| z_boardsize := 15; z_rule := 0; z_result := 1; z_total := 40; z_tag := 9; z_init := [231];
              z_groups := [[mv true true false false 100 (-3)]; [mv true false false false 7 12; mv false true true true 0 0]] |} in
  packed_ok z DRAW FREESTYLE
  /\ packed_metadata (packed_encode z) = Ok (15, FREESTYLE, 2)
  /\ packed_decode (packed_encode z) = Ok (packed_meaning z DRAW FREESTYLE).
Proof.
  split; [|split; vm_compute; reflexivity].
  constructor; cbn; try (split; [lia|reflexivity]); try lia.
  - split; [reflexivity|]. repeat (constructor; [lia|]). constructor.
  - split; [reflexivity|]. repeat (constructor; [unfold move_fits; cbn; lia|]). constructor.
  - constructor; [|constructor; [|constructor]].
    + exists [], {| y_first := true; y_last := true; y_noeval := false; y_pass := false; y_reserved := 0; y_move := 100; y_eval := -3 |}.
      cbn. auto.
    + exists [{| y_first := true; y_last := false; y_noeval := false; y_pass := false; y_reserved := 0; y_move := 7; y_eval := 12 |}],
             {| y_first := false; y_last := true; y_noeval := true; y_pass := true; y_reserved := 0; y_move := 0; y_eval := 0 |}.
      cbn. auto 6.
Qed.
