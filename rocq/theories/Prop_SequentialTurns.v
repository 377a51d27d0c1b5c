(** C39: the open files of a sequential source take turns of [read_quantum] entries.
    [reads] (SequentialTurns.v) is the specification of the order: the file whose turn it is
    first delivers what is still due from the entry it read last, then reads an entry and
    delivers its first record; after [read_quantum] entries the turn goes to the next open
    file (back to the first after the last); an exhausted file is replaced in place by the
    next waiting file, with a fresh turn, or closed if none waits. *)
From Verif Require Import Base BaseFacts Rng RngFacts Source Composite CompositeSim NpzSpec NpzFacts.
From Verif Require Import Sequential SequentialShard SequentialSpec SequentialFacts SequentialGlue SequentialKeys.
From Verif Require Import SequentialTurns Prop_Sequential.

(** The files initially open, and those waiting, in the file order of the cycle. *)
Definition turns_of header hash64 (s : seq_source) es cycle a (order : list nat)
    (l : list (envelope seq_payload)) : Prop :=
  let entries := file_entries header hash64 s cycle a es in
  reads (q_quantum s) (map (fun g => ([], entries g)) (firstn (q_active s) order))
    (map entries (skipn (q_active s) order)) 0 0 l.

Theorem C39_files_take_turns :
  forall header hash64 (s : seq_source) es epoch cycle rank cur,
    seq_built s -> Forall (fun f => 0 <= q_size f) (q_files s) ->
    seq_contents s es -> seq_sampling_ok s es epoch cycle ->
    seq_start header hash64 s epoch cycle rank = Ok cur ->
    exists a l,
      augmentation_epoch header hash64 s epoch cycle = Ok a
      /\ turns_of header hash64 s es cycle a (sc_order cur) l
      /\ forall k, exists c, serve_source (sequential_source header hash64 s) cur (repeat NextOne k)
                             = Ok (firstn k l, c)
            /\ ((List.length l <= k)%nat ->
                exists c', s_next (sequential_source header hash64 s) c = Ok (None, c')).
Proof.
  intros header hash64 s es epoch cycle rank cur Hb Hsz Hc HS Hst.
  destruct (seq_cycle_yields Hb Hsz Hc HS Hst) as (a & l & H1 & H2 & H3 & H4).
  exists a, l. split; [exact H1|]. split.
  - pose proof (seq_built_good Hb) as G. destruct HS as (S1 & S2 & S3 & S4).
    destruct (augmentation_epoch_total header hash64 S1 S2 S3) as (a' & Ha & Hai).
    assert (a' = a) by congruence. subst a'.
    assert (Hadm := sub_admitted_total header hash64 G (conj S1 (conj S2 (conj S3 S4))) Hai).
    destruct (seq_start_inv Hc Hadm G Hsz Hst) as (Hi & Hr & Hord & Hrem).
    pose proof (yields_turns Hc Ha Hadm G Hi H2) as Hw.
    destruct (seq_order_ok G Hsz Hord) as [_ Hrng].
    unfold seq_start in Hst. repeat (apply guard_Ok in Hst as [? Hst]).
    inv_bind Hst. rewrite Hm in Hord. injection Hord as Hord. subst v.
    rewrite (mapM_open Hadm Hrng) in Hst by lia. cbn [bind] in Hst.
    set (order := sc_order cur) in *. clearbody order.
    injection Hst as <-. unfold will_read in Hw.
    cbn [sc_active sc_next sc_order sc_turn sc_quantum] in Hw. unfold turns_of.
    assert (E1 : firstn (Nat.min (q_active s) (List.length order)) order = firstn (q_active s) order).
    { rewrite <- firstn_firstn, firstn_all. reflexivity. }
    assert (E2 : skipn (Nat.min (q_active s) (List.length order)) order = skipn (q_active s) order).
    { destruct (Nat.min_spec (q_active s) (List.length order)) as [[L ->]|[L ->]]; [reflexivity|].
      rewrite !skipn_all2 by lia. reflexivity. }
    rewrite E1, E2, map_map in Hw. erewrite map_ext; [exact Hw|]. intros g.
    unfold opened, file_entries. cbn [r_file r_pending r_entry]. destruct (nth_error (q_files s) g); reflexivity.
  - intros k. destruct (yields_serve k H2) as (c & E & Hy). exists c.
    split; [exact E|]. intros Hk. rewrite skipn_all2 in Hy by exact Hk. apply yields_done. exact Hy.
Qed.
Print Assumptions C39_files_take_turns.

(** The turns determine the order completely. *)
Theorem C39_turns_determine_the_order :
  forall header hash64 (s : seq_source) es cycle a order l l',
    turns_of header hash64 s es cycle a order l -> turns_of header hash64 s es cycle a order l' -> l = l'.
Proof. intros header hash64 s es cycle a order l l' H H'. exact (reads_unique H H'). Qed.
Print Assumptions C39_turns_determine_the_order.

(** Two files of three one-record entries each, turns of two entries: two from the first,
    two from the second, then one each; with three files and two open, the third one takes
    the place of the first. *)
Example C39_turns_of_two :
  reads 2 [([], [[1]; [2]; [3]]); ([], [[4]; [5]; [6]])] [] 0 0 [1; 2; 4; 5; 3; 6].
Proof.
  apply (@R_entry_same_turn Z 2 [] [1]); [lia|]. cbn [tl app List.length].
  apply (@R_entry_next_turn Z 2 [] [2]); [lia|]. cbn [tl app List.length].
  apply (@R_entry_same_turn Z 2 [([], [[3]])] [4]); [lia|]. cbn [tl app List.length].
  apply (@R_entry_next_turn Z 2 [([], [[3]])] [5]); [lia|]. cbn [tl app List.length].
  apply (@R_entry_same_turn Z 2 [] [3]); [lia|]. cbn [tl app List.length].
  apply (@R_close Z 2 []). cbn [app List.length]. apply (@R_entry_same_turn Z 2 [] [6]); [lia|]. cbn [tl app List.length].
  apply (@R_close Z 2 []). apply R_end.
Qed.
Example C39_replacement :
  reads 1 [([], [[1]]); ([], [[4; 5]; [6]])] [[[7]; [8]]] 0 0 [1; 4; 7; 5; 6; 8].
Proof.
  apply (@R_entry_next_turn Z 1 [] [1]); [lia|]. cbn [tl app List.length].
  apply (@R_entry_next_turn Z 1 [([], [])] [4; 5]); [lia|]. cbn [tl app List.length].
  apply (@R_replace Z 1 []). cbn [app List.length].
  apply (@R_entry_next_turn Z 1 [] [7]); [lia|]. cbn [tl app List.length].
  apply (@R_due Z 1 [([], [[8]])]). cbn [app List.length].
  apply (@R_entry_next_turn Z 1 [([], [[8]])] [6]); [lia|]. cbn [tl app List.length].
  apply (@R_entry_next_turn Z 1 [] [8]); [lia|]. cbn [tl app List.length].
  apply (@R_close Z 1 [([], [])]). cbn [app List.length]. apply (@R_close Z 1 []). apply R_end.
Qed.
(** The hypotheses of the theorem hold of the source of C15_example. *)
Example C39_source :
  exists cur a l, seq_start [] exs_hash (exs_source 2) 3 1 0 = Ok cur
    /\ turns_of [] exs_hash (exs_source 2) exs_entries 1 a (sc_order cur) l /\ List.length l = 7%nat.
Proof.
  assert (Hs : exists cur, seq_start [] exs_hash (exs_source 2) 3 1 0 = Ok cur) by (eexists; vm_compute; reflexivity).
  destruct Hs as [cur Hs].
  destruct (@C39_files_take_turns [] exs_hash (exs_source 2) exs_entries 3 1 0 cur) as (a & l & H1 & H2 & H3); auto.
  - eapply seq_built_made; apply exs_make; lia.
  - repeat (apply Forall_cons || apply Forall_nil); vm_compute; discriminate.
  - apply exs_contents.
  - apply exs_sampling.
  - exists cur, a, l. split; [exact Hs|]. split; [exact H2|].
    destruct (H3 7%nat) as (c7 & E7 & _). destruct (H3 8%nat) as (c8 & E8 & _).
    assert (L7 : List.length (firstn 7 l) = 7%nat).
    { clear -E7 Hs. revert E7. generalize (firstn 7 l). intros m E.
      vm_compute in Hs. injection Hs as <-. vm_compute in E. injection E as <- _. reflexivity. }
    assert (L8 : List.length (firstn 8 l) = 7%nat).
    { clear -E8 Hs. revert E8. generalize (firstn 8 l). intros m E.
      vm_compute in Hs. injection Hs as <-. vm_compute in E. injection E as <- _. reflexivity. }
    rewrite firstn_length in *. lia.
Qed.
