(** Model of dataset/packed.py: PackedReservoirState, and state / restore of
    PackedUInt64ShuffleReservoir and PackedUInt64ReadyBuffer, with the checks of
    planner_cpp/packed_shuffle.cpp restore; and proofs about them. *)
From Verif Require Import Base BaseFacts Rng RngFacts Reservoir ReservoirFacts PackedReservoir PackedReservoirFacts.
Set Implicit Arguments.
Unset Strict Implicit.

(** numpy astype("<u8").tobytes() and np.frombuffer(dtype="<u8"): packed.py:100,
    126, 181, 331. *)
Definition u64_bytes (l : list Z) : bytes := flat_map (le_bytes 8) l.
Fixpoint le_value (b : bytes) : Z := match b with [] => 0 | x :: t => x + 256 * le_value t end.
Fixpoint take_u64 (n : nat) (b : bytes) : list Z :=
  match n with O => [] | S k => le_value (firstn 8 b) :: take_u64 k (skipn 8 b) end.
Definition bytes_u64 (b : bytes) : list Z := take_u64 (List.length b / 8) b.

Definition u64 (v : Z) : Prop := 0 <= v < two64.

Lemma le_value_bytes n v : 0 <= v < 256 ^ Z.of_nat n -> le_value (le_bytes n v) = v.
Proof.
  revert v; induction n as [|n IH]; intros v H; cbn [le_bytes le_value].
  - change (256 ^ Z.of_nat 0) with 1 in H. lia.
  - rewrite IH.
    + pose proof (Z.div_mod v 256). lia.
    + rewrite Nat2Z.inj_succ, Z.pow_succ_r in H by lia.
      split; [apply Z.div_pos; lia|apply Z.div_lt_upper_bound; lia].
Qed.

Lemma u64_bytes_length l : List.length (u64_bytes l) = (8 * List.length l)%nat.
Proof.
  induction l as [|x l IH]; [reflexivity|]. unfold u64_bytes in *. cbn [flat_map].
  rewrite app_length, le_bytes_length, IH. cbn [List.length]. lia.
Qed.

Lemma take_u64_length n b : List.length (take_u64 n b) = n.
Proof. revert b; induction n as [|n IH]; intros b; cbn [take_u64 List.length]; auto. Qed.

Lemma firstn_len {A} n (a b : list A) : List.length a = n -> firstn n (a ++ b) = a.
Proof. intros <-. rewrite firstn_app, Nat.sub_diag, firstn_all. apply app_nil_r. Qed.
Lemma skipn_len {A} n (a b : list A) : List.length a = n -> skipn n (a ++ b) = b.
Proof. intros <-. rewrite skipn_app, Nat.sub_diag, skipn_all. reflexivity. Qed.

Lemma bytes_u64_bytes l : Forall u64 l -> bytes_u64 (u64_bytes l) = l.
Proof.
  intros H. unfold bytes_u64. rewrite u64_bytes_length, Nat.mul_comm, Nat.div_mul by lia.
  induction H as [|x l Hx Hl IH]; [reflexivity|]. unfold u64_bytes in *. cbn [flat_map List.length take_u64].
  assert (E8 : List.length (le_bytes 8 x) = 8%nat) by apply le_bytes_length.
  rewrite (firstn_len _ E8), (skipn_len _ E8), le_value_bytes, IH; [reflexivity|].
  change (256 ^ Z.of_nat 8) with two64. exact Hx.
Qed.

(** packed.py:71-96 PackedReservoirState. *)
Record pkstate := {
  pk_algorithm : string;
  pk_seed : Z;
  pk_epoch : Z;
  pk_stream_key : list key;
  pk_capacity : Z;
  pk_slots_le : bytes;
  pk_rng_counter : Z;
  pk_offered : Z;
  pk_emitted : Z;
  pk_peak : Z;
  pk_closed : bool
}.

(** packed.py:15 *)
Definition PACKED_RESERVOIR_ALGORITHM : string := "streaming-shuffle-reservoir-v2-uint64".

(** The wrapper object: native core and _state_cache (packed.py:262-263). *)
Record pkobj := { pk_core : prsv; pk_cache : option pkstate }.
Definition pk_init : pkobj := {| pk_core := prsv_init; pk_cache := None |}.

Section Obj.
  Variable cf : rconfig.   (* capacity, seed, epoch, stream_key, rng_base *)

  (** packed.py:323-337: the fresh state. *)
  Definition pk_snapshot (p : prsv) : pkstate := {|
    pk_algorithm := PACKED_RESERVOIR_ALGORITHM; pk_seed := cf_seed cf; pk_epoch := cf_epoch cf;
    pk_stream_key := cf_stream_key cf; pk_capacity := cf_capacity cf;
    pk_slots_le := u64_bytes (p_slots p); pk_rng_counter := p_rng_counter p;
    pk_offered := p_offered p; pk_emitted := p_emitted p; pk_peak := p_peak p;
    pk_closed := p_closed p |}.

  (** packed.py:285-298 offer_block (cycles None, default_cycle 0). *)
  Definition pk_offer (o : pkobj) (block : list Z) : res (pkobj * list Z) :=
    '(p, out) <- p_offer (cf_capacity cf) (cf_rng_base cf) (pk_core o) block ;;
    Ok ({| pk_core := p; pk_cache := match block with [] => pk_cache o | _ => None end |}, out).

  (** packed.py:300-320 drain. *)
  Definition pk_drain header hash64 (o : pkobj) : res (pkobj * list Z) :=
    if p_closed (pk_core o) then Ok (o, [])
    else '(p, out) <- w_drain header hash64 cf (pk_core o) ;;
         Ok ({| pk_core := p; pk_cache := None |}, out).

  (** packed.py:322-338 state. *)
  Definition pk_state (o : pkobj) : pkobj * pkstate :=
    match pk_cache o with
    | Some s => (o, s)
    | None => ({| pk_core := pk_core o; pk_cache := Some (pk_snapshot (pk_core o)) |},
               pk_snapshot (pk_core o))
    end.

  (** packed.py:340-399 restore, then packed_shuffle.cpp:104-130.  Integers that do
      not fit uint64 are refused by the binding (TypeError). *)
  Definition is_u64 (v : Z) : bool := (0 <=? v) && (v <? two64).
  Definition pk_restore (s : pkstate) : res pkobj :=
    guard String.eqb (pk_algorithm s) PACKED_RESERVOIR_ALGORITHM && (pk_seed s =? cf_seed cf)
          && (pk_epoch s =? cf_epoch cf)
          && key_eqb (KTuple (pk_stream_key s)) (KTuple (cf_stream_key cf))
          && (pk_capacity s =? cf_capacity cf) else ValueError ;;
    guard (List.length (pk_slots_le s) mod 8 =? 0)%nat else ValueError ;;
    let occupancy := Z.of_nat (List.length (pk_slots_le s) / 8) in
    guard occupancy <=? cf_capacity cf else ValueError ;;
    guard (0 <=? pk_rng_counter s) && (0 <=? pk_offered s) && (0 <=? pk_emitted s)
          && (0 <=? pk_peak s) else ValueError ;;
    guard pk_offered s =? pk_emitted s + occupancy else ValueError ;;
    guard (occupancy <=? pk_peak s) && (pk_peak s <=? cf_capacity cf) else ValueError ;;
    guard negb (pk_closed s && negb (occupancy =? 0)) else ValueError ;;
    let slots := bytes_u64 (pk_slots_le s) in
    guard is_u64 (pk_rng_counter s) && is_u64 (pk_offered s) && is_u64 (pk_emitted s)
          && is_u64 (pk_peak s) else TypeError ;;
    guard zlen slots <=? cf_capacity cf else ValueError ;;
    guard pk_rng_counter s <? two63 else ValueError ;;
    guard pk_offered s =? (pk_emitted s + zlen slots) mod two64 else ValueError ;;
    guard (zlen slots <=? pk_peak s) && (pk_peak s <=? cf_capacity cf) else ValueError ;;
    Ok {| pk_core := {| p_slots := slots; p_rng_counter := pk_rng_counter s; p_offered := pk_offered s;
                        p_emitted := pk_emitted s; p_peak := pk_peak s; p_closed := pk_closed s |};
          pk_cache := Some s |}.

  (** ** Facts *)
  (** What a reachable packed reservoir satisfies. *)
  Record PInv (o : pkobj) : Prop := {
    pi_slots : Forall u64 (p_slots (pk_core o));
    pi_cap : zlen (p_slots (pk_core o)) <= cf_capacity cf;
    pi_rng : 0 <= p_rng_counter (pk_core o) < two63;
    pi_off : 0 <= p_offered (pk_core o) < two64;
    pi_emit : 0 <= p_emitted (pk_core o);
    pi_once : p_offered (pk_core o) = p_emitted (pk_core o) + zlen (p_slots (pk_core o));
    pi_peak : zlen (p_slots (pk_core o)) <= p_peak (pk_core o) <= cf_capacity cf;
    pi_closed : p_closed (pk_core o) = true -> p_slots (pk_core o) = [];
    pi_cache : forall s, pk_cache o = Some s -> s = pk_snapshot (pk_core o)
  }.

  Lemma pk_state_snapshot o : PInv o -> snd (pk_state o) = pk_snapshot (pk_core o).
  Proof.
    intros H. unfold pk_state. destruct (pk_cache o) eqn:E; [|reflexivity]. apply (pi_cache H). exact E.
  Qed.

  Lemma pk_restore_state o : cf_capacity cf < two64 -> PInv o ->
    exists o', pk_restore (snd (pk_state o)) = Ok o' /\ pk_core o' = pk_core o /\ PInv o'.
  Proof.
    intros Hcap HI. rewrite pk_state_snapshot by auto. pose proof HI as HI0. destruct HI as [H1 H2 H3 H4 H5 H6 H7 H8 H9].
    assert (El : (List.length (u64_bytes (p_slots (pk_core o))) / 8 = List.length (p_slots (pk_core o)))%nat)
      by (rewrite u64_bytes_length, Nat.mul_comm; apply Nat.div_mul; lia).
    assert (Em : (List.length (u64_bytes (p_slots (pk_core o))) mod 8 = 0)%nat)
      by (rewrite u64_bytes_length, Nat.mul_comm; apply Nat.mod_mul; lia).
    pose proof (zlen_nonneg (p_slots (pk_core o))) as Hz.
    unfold pk_restore.
    cbn [pk_snapshot pk_algorithm pk_seed pk_epoch pk_stream_key pk_capacity pk_slots_le pk_rng_counter pk_offered
         pk_emitted pk_peak pk_closed].
    rewrite El, Em, bytes_u64_bytes by auto. fold (zlen (p_slots (pk_core o))).
    rewrite String.eqb_refl, !Z.eqb_refl, key_eqb_refl. cbn [andb].
    unfold is_u64.
    repeat match goal with |- context [?a <=? ?b] => replace (a <=? b) with true by (symmetry; apply Z.leb_le; lia) end.
    repeat match goal with |- context [?a <? ?b] => replace (a <? b) with true by (symmetry; apply Z.ltb_lt; unfold two64, two63 in *; lia) end.
    cbn [andb Nat.eqb].
    rewrite H6, Z.mod_small by lia. rewrite Z.eqb_refl.
    replace (negb (p_closed (pk_core o) && negb (zlen (p_slots (pk_core o)) =? 0))) with true.
    2:{ destruct (p_closed (pk_core o)) eqn:Ec; [|reflexivity]. rewrite (H8 eq_refl). reflexivity. }
    eexists. split; [reflexivity|]. rewrite <- H6.
    assert (Ec : pk_core o = {| p_slots := p_slots (pk_core o); p_rng_counter := p_rng_counter (pk_core o);
      p_offered := p_offered (pk_core o); p_emitted := p_emitted (pk_core o); p_peak := p_peak (pk_core o);
      p_closed := p_closed (pk_core o) |}) by (destruct (pk_core o); reflexivity).
    cbn [pk_core]. split; [symmetry; exact Ec|].
    constructor; cbn [pk_core pk_cache p_slots p_rng_counter p_offered p_emitted p_peak p_closed]; auto.
    intros s Hs. injection Hs as <-. unfold pk_snapshot.
    cbn [p_slots p_rng_counter p_offered p_emitted p_peak p_closed]. congruence.
  Qed.

  (** Whatever [pk_restore] accepts is a legal packed reservoir of this configuration. *)
  Lemma pk_restore_sound s o : pk_restore s = Ok o ->
    0 <= p_rng_counter (pk_core o) < two63
    /\ zlen (p_slots (pk_core o)) <= cf_capacity cf
    /\ p_offered (pk_core o) = p_emitted (pk_core o) + zlen (p_slots (pk_core o))
    /\ zlen (p_slots (pk_core o)) <= p_peak (pk_core o) <= cf_capacity cf
    /\ (p_closed (pk_core o) = true -> p_slots (pk_core o) = [])
    /\ pk_algorithm s = PACKED_RESERVOIR_ALGORITHM
    /\ key_eqb (KTuple (pk_stream_key s)) (KTuple (cf_stream_key cf)) = true
    /\ pk_seed s = cf_seed cf /\ pk_epoch s = cf_epoch cf /\ pk_capacity s = cf_capacity cf.
  Proof.
    intros H. unfold pk_restore in H. cbv zeta in H.
    apply guard_Ok in H as [G1 H]. apply guard_Ok in H as [G2 H]. apply guard_Ok in H as [G3 H].
    apply guard_Ok in H as [G4 H]. apply guard_Ok in H as [G5 H]. apply guard_Ok in H as [G6 H].
    apply guard_Ok in H as [G7 H]. apply guard_Ok in H as [G8 H]. apply guard_Ok in H as [G9 H].
    apply guard_Ok in H as [G10 H]. apply guard_Ok in H as [G11 H]. apply guard_Ok in H as [G12 H].
    injection H as <-. cbn [pk_core p_slots p_rng_counter p_offered p_emitted p_peak p_closed].
    assert (El : zlen (bytes_u64 (pk_slots_le s)) = Z.of_nat (List.length (pk_slots_le s) / 8)).
    { unfold zlen, bytes_u64. f_equal. apply take_u64_length. }
    repeat match goal with G : _ && _ = true |- _ => apply andb_true_iff in G as [G ?] end.
    rewrite El in *. apply String.eqb_eq in G1. conj; try lia; auto.
    intros Hc. rewrite Hc in G7. cbn [andb negb] in G7. rewrite negb_involutive in G7.
    destruct (bytes_u64 (pk_slots_le s)); [reflexivity|]. unfold zlen in El. cbn [List.length] in El. lia.
  Qed.
End Obj.
