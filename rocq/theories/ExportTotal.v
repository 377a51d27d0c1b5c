(** Well-formed arguments are accepted. *)
From Verif Require Import Base BaseFacts Json JsonFacts MetricsFacts Codec Export ExportSpec ExportFacts ExportMasks.
Set Implicit Arguments. Unset Strict Implicit.

Lemma rules_accepted a rs : names_rules a rs -> rs <> [] -> incl rs legal_rules -> ~ two_ways a ->
  exists k, In k rule_keys /\ get_rules_from_args a = Ok (rs, without a k) /\ forall k', In k' rule_keys -> given a k' -> k' = k.
Proof.
  intros N E L T.
  assert (Only : forall k, In k rule_keys -> given a k -> forall k', In k' rule_keys -> given a k' -> k' = k).
  { intros k K G k' K' G'. destruct (ustr_eqb k' k) eqn:Q; [apply ustr_eqb_eq; exact Q|]. apply ustr_eqb_neq in Q. exfalso. apply T. left. exists k', k. repeat split; assumption. }
  assert (None_of : forall k k', In k rule_keys -> given a k -> In k' rule_keys -> k' <> k -> obj_get a k' = None).
  { intros k k' K G K' D. destruct (obj_get a k') eqn:Q; [|reflexivity]. exfalso. apply D. apply (Only k K G k' K'). unfold given. congruence. }
  assert (Z : (zlen (map JStr rs) =? 0) = false) by (destruct rs; [congruence|unfold zlen; cbn; lia]).
  destruct N as [r H|k l K H].
  - exists k_rule. split; [cbn; auto|]. split; [|apply Only; [cbn; auto|unfold given; change k_rule with (ulit "rule"); congruence]].
    unfold get_rules_from_args. change k_rule with (ulit "rule"). rewrite H. cbn [bind]. change [JStr r] with (map JStr [r]). rewrite Z. cbn [negb].
    rewrite (rules_check L). reflexivity.
  - assert (G : given a k) by (unfold given; congruence).
    destruct K as [<-|[<-|[]]]; [exists k_rule_list|exists k_rules]; (split; [cbn; auto|]); (split; [|apply Only; [cbn; auto|exact G]]); unfold get_rules_from_args.
    + rewrite (None_of (ulit "rule_list") k_rule) by (try exact G; try (cbn; auto; fail); discriminate). change k_rule_list with (ulit "rule_list"). rewrite H.
      cbn [as_list bind]. rewrite Z. cbn [negb]. rewrite (rules_check L). reflexivity.
    + rewrite (None_of (ulit "rules") k_rule) by (try exact G; try (cbn; auto; fail); discriminate).
      rewrite (None_of (ulit "rules") k_rule_list) by (try exact G; try (cbn; auto; fail); discriminate). change k_rules with (ulit "rules"). rewrite H.
      cbn [as_list bind]. rewrite Z. cbn [negb]. rewrite (rules_check L). reflexivity.
Qed.

Lemma sizes_accepted a P : names_sizes a P -> (forall n, P n -> 1 <= n <= 32) -> ~ two_ways a -> (given a k_min <-> given a k_max) ->
  exists ns ks, In ks size_ways /\ get_boardsizes_from_args a = Ok (ns, withouts a ks) /\ Forall (fun n => 1 <= n <= 32) ns /\ (forall n, P n <-> In n ns)
  /\ forall k', In k' size_keys -> given a k' -> In k' ks.
Proof.
  intros N L T M.
  set (four := [k_size; k_min; k_size_list; k_sizes]).
  assert (Only : forall k k', In k four -> given a k -> In k' four -> k' <> k -> obj_get a k' = None).
  { intros k k' K G K' D. destruct (obj_get a k') eqn:Q; [|reflexivity]. exfalso. apply T. right. exists k', k. repeat split; try assumption. unfold given. congruence. }
  assert (NM : obj_get a k_min = None -> obj_get a k_max = None).
  { intros Q. destruct (obj_get a k_max) eqn:Q'; [|reflexivity]. exfalso. apply (proj2 M); [unfold given; congruence|exact Q]. }
  assert (Finish : forall ks, (forall k', In k' size_keys -> ~ In k' ks -> obj_get a k' = None) -> forall k', In k' size_keys -> given a k' -> In k' ks).
  { intros ks H k' I G. destruct (mem k' ks) eqn:B; [apply mem_in; exact B|]. exfalso. apply G. apply H; [exact I|]. intros J. apply mem_in in J. congruence. }
  destruct N as [j n H K|jlo jhi lo hi H1 H2 K1 K2|k js ns K H F|H D].
  - assert (G : given a k_size) by (unfold given; change k_size with (ulit "board_size"); congruence).
    exists [n], [k_size]. split; [cbn; auto|]. split; [|split; [|split]].
    + unfold get_boardsizes_from_args. change k_size with (ulit "board_size"). rewrite H. cbn [bind].
      rewrite (@sizes_check [j] [n]); [reflexivity|constructor; [exact K|constructor]|constructor; [apply L; reflexivity|constructor]].
    + constructor; [apply L; reflexivity|constructor].
    + intros m. cbn. intuition.
    + apply Finish. intros k' I J. assert (Q : k' <> k_size) by (intros ->; apply J; left; reflexivity). assert (Mn : obj_get a k_min = None) by (apply Only with k_size; cbn; auto; discriminate).
      destruct I as [<-|[<-|[<-|[<-|[<-|[]]]]]]; [congruence|exact Mn|exact (NM Mn)| |]; apply Only with k_size; cbn; auto.
  - assert (G : given a k_min) by (unfold given; change k_min with (ulit "min_board_size"); congruence).
    assert (F : Forall (fun n => 1 <= n <= 32) (int_range lo (hi + 1))) by (apply Forall_forall; intros n I; apply L; apply in_int_range in I; lia).
    exists (int_range lo (hi + 1)), [k_min; k_max]. split; [cbn; auto|]. split; [|split; [exact F|split]].
    + unfold get_boardsizes_from_args. rewrite (Only k_min k_size) by (try exact G; try (cbn; auto; fail); discriminate).
      change k_min with (ulit "min_board_size"). change k_max with (ulit "max_board_size"). rewrite H1, H2.
      apply int_of_number in K1. apply int_of_number in K2. rewrite K1, K2. cbn [bind]. rewrite (sizes_check (numbers_ints _) F). reflexivity.
    + intros m. rewrite in_int_range. lia.
    + apply Finish. intros k' I J. destruct I as [<-|[<-|[<-|[<-|[<-|[]]]]]]; try (exfalso; apply J; cbn; auto; fail); apply Only with k_min; cbn; auto; discriminate.
  - assert (G : given a k) by (unfold given; congruence). assert (F' : Forall (fun n => 1 <= n <= 32) ns) by (apply Forall_forall; exact L).
    assert (KM : In k four /\ k <> k_size /\ k <> k_min) by (destruct K as [<-|[<-|[]]]; repeat split; cbn; auto; discriminate).
    destruct KM as (KM & D1 & D2). assert (N1 : obj_get a k_size = None) by (apply Only with k; cbn; auto; congruence).
    assert (N2 : obj_get a k_min = None) by (apply Only with k; cbn; auto; congruence). pose proof (NM N2) as N3.
    exists ns, [k]. split; [destruct K as [<-|[<-|[]]]; cbn; auto|]. split; [|split; [exact F'|split; [tauto|]]].
    + unfold get_boardsizes_from_args. rewrite N1, N2. destruct K as [<-|[<-|[]]].
      * change k_size_list with (ulit "board_size_list"). rewrite H. cbn [as_list bind]. rewrite (sizes_check F F'). reflexivity.
      * rewrite (Only (ulit "boardsizes") k_size_list) by (try exact G; try (cbn; auto; fail); discriminate).
        change k_sizes with (ulit "boardsizes"). rewrite H. cbn [as_list bind]. rewrite (sizes_check F F'). reflexivity.
    + apply Finish. intros k' I J. assert (Q : k' <> k) by (intros ->; apply J; left; reflexivity).
      destruct I as [<-|[<-|[<-|[<-|[<-|[]]]]]]; try assumption; apply Only with k; try assumption; cbn; auto.
  - assert (N0 : obj_get a k_size = None) by (apply H; cbn; auto). assert (N1 : obj_get a k_size_list = None) by (apply H; cbn; auto).
    assert (N2 : obj_get a k_sizes = None) by (apply H; cbn; auto).
    assert (N3 : obj_get a k_min = None).
    { destruct D as [D|D]; [exact D|]. destruct (obj_get a k_min) eqn:Q; [|reflexivity]. exfalso. apply (proj1 M); [unfold given; congruence|exact D]. }
    pose proof (NM N3) as N4.
    assert (F : Forall (fun n => 1 <= n <= 32) (int_range 1 (32 + 1))) by (apply Forall_forall; intros n I; apply in_int_range in I; lia).
    exists (int_range 1 (32 + 1)), []. split; [cbn; auto 6|]. split; [|split; [exact F|split]].
    + unfold get_boardsizes_from_args. rewrite N0, N3, N1, N2. cbn [bind]. rewrite (sizes_check (numbers_ints _) F). reflexivity.
    + intros m. rewrite in_int_range. lia.
    + apply Finish. intros k' I _. destruct I as [<-|[<-|[<-|[<-|[<-|[]]]]]]; assumption.
Qed.

Lemma two_ways_without a k : ~ two_ways a -> ~ two_ways (without a k).
Proof.
  intros T H. apply T. assert (G : forall x, given (without a k) x -> given a x).
  { intros x. unfold given. rewrite get_without. destruct (ustr_eqb k x); congruence. }
  destruct H as [(k1 & k2 & D & I1 & I2 & V1 & V2)|(k1 & k2 & D & I1 & I2 & V1 & V2)]; [left|right]; exists k1, k2; repeat split; auto.
Qed.

Theorem prepare_total registry mt c a rs P tr : names_rules a rs -> rs <> [] -> incl rs legal_rules ->
  names_sizes a P -> (forall n, P n -> 1 <= n <= 32) -> ~ two_ways a -> (given a k_min <-> given a k_max) -> obj_get a k_model_type = None ->
  obj_get registry mt = Some c -> (forall e, In e (options a) -> In (fst e) (accepts c)) -> construct c (options a) = Ok tr ->
  exists ns, prepare registry mt a = Ok (Serializer rs ns tr) /\ (forall n, P n <-> In n ns) /\ Forall (fun n => 1 <= n <= 32) ns.
Proof.
  intros N E L S B T M MT C A K. destruct (rules_accepted N E L T) as (k & K1 & K2 & K3).
  assert (Same : forall x, In x size_keys -> obj_get a x = obj_get (without a k) x).
  { intros x X. rewrite get_without, (rule_size_differ K1 X). reflexivity. }
  destruct (@sizes_accepted (without a k) P) as (ns & ks & S1 & S2 & S3 & S4 & S5).
  { apply names_sizes_same with a; assumption. } { exact B. } { apply two_ways_without; exact T. }
  { unfold given. rewrite <- !Same by (cbn; auto). exact M. }
  exists ns. split; [|split; assumption]. unfold prepare. rewrite K2. cbn [bind]. rewrite S2. cbn [bind].
  set (r2 := withouts (without a k) ks) in *. change r2 with (withouts a (k :: ks)) in *.
  assert (KR : forall k0, In k0 (k :: ks) -> In k0 reserved).
  { intros k0 [<-|I]; [destruct K1 as [<-|[<-|[<-|[]]]]; cbn; auto|].
    destruct S1 as [<-|[<-|[<-|[<-|[<-|[]]]]]]; repeat (destruct I as [<-|I]; [cbn; auto 10|]); destruct I. }
  assert (Gone : forall x, In x reserved -> obj_get (withouts a (k :: ks)) x = None).
  { intros x X. rewrite get_withouts. destruct (mem x (k :: ks)) eqn:Q; [reflexivity|]. destruct (obj_get a x) as [v|] eqn:V; [|reflexivity]. exfalso.
    assert (NI : ~ In x (k :: ks)) by (intros J; apply mem_in in J; congruence). cbn in NI.
    assert (SZ : In x size_keys -> False).
    { intros Y. apply NI. right. apply S5; [exact Y|]. unfold given. rewrite <- Same by exact Y. congruence. }
    assert (RK : In x rule_keys -> False).
    { intros Y. apply NI. left. symmetry. apply K3; [exact Y|]. unfold given. congruence. }
    repeat (destruct X as [<-|X]; [first [apply SZ; cbn; auto 10; fail|apply RK; cbn; auto; fail|change (obj_get a k_model_type = Some v) in V; congruence]|]). destruct X. }
  assert (O : withouts a (k :: ks) = options a).
  { apply options_of; [exact KR|]. intros e I J. pose proof (Gone _ J) as Q. apply obj_get_none in Q. apply Q. apply in_map. exact I. }
  rewrite O in *. unfold has. rewrite !Gone by (cbn; auto 10). cbn [orb negb]. unfold build_serializer. rewrite C. cbn [bind].
  match goal with |- context [has_rules_in_args ?x] => replace (has_rules_in_args x) with true end.
  2:{ symmetry. unfold has_rules_in_args. rewrite !orb_true_iff. right. reflexivity. }
  match goal with |- context [get_rules_from_args ?x] => assert (G1 : get_rules_from_args x = Ok (rs, (k_sizes, JList (map JInt ns)) :: options a)) end.
  { unfold get_rules_from_args.
    change (obj_get (_ :: _ :: options a) k_rule) with (obj_get (options a) k_rule). change (obj_get (_ :: _ :: options a) k_rule_list) with (obj_get (options a) k_rule_list).
    change (obj_get ((k_rules, ?x) :: _ :: options a) k_rules) with (Some x). rewrite !Gone by (cbn; auto 10). cbn [as_list bind].
    replace (zlen (map JStr rs) =? 0) with false by (destruct rs; [congruence|unfold zlen; cbn; lia]). cbn [negb]. rewrite (rules_check L). cbn [bind].
    change (without (_ :: _ :: options a) k_rules) with ((k_sizes, JList (map JInt ns)) :: without (options a) k_rules). rewrite without_absent by (apply Gone; cbn; auto). reflexivity. }
  rewrite G1. cbn [bind]. clear G1.
  match goal with |- context [has_boardsizes_in_args ?x] => replace (has_boardsizes_in_args x) with true end.
  2:{ symmetry. unfold has_boardsizes_in_args. rewrite !orb_true_iff. right. right. reflexivity. }
  match goal with |- context [get_boardsizes_from_args ?x] => assert (G1 : get_boardsizes_from_args x = Ok (ns, options a)) end.
  { unfold get_boardsizes_from_args.
    change (obj_get (_ :: options a) k_size) with (obj_get (options a) k_size). change (obj_get (_ :: options a) k_size_list) with (obj_get (options a) k_size_list).
    change (obj_get (_ :: options a) k_min) with (obj_get (options a) k_min).
    change (obj_get ((k_sizes, ?x) :: options a) k_sizes) with (Some x). rewrite !Gone by (cbn; auto 10). cbn [as_list bind].
    rewrite (sizes_check (numbers_ints ns) S3). cbn [bind].
    change (without (_ :: options a) k_sizes) with (without (options a) k_sizes). rewrite without_absent by (apply Gone; cbn; auto 10). reflexivity. }
  rewrite G1. cbn [bind]. clear G1. unfold call, has. rewrite !Gone by (cbn; auto 10). cbn [orb negb].
  replace (forallb (fun e => mem (fst e) (accepts c)) (options a)) with true.
  2:{ symmetry. apply forallb_forall. intros e I. apply mem_in. apply A. exact I. }
  rewrite K. reflexivity.
Qed.
