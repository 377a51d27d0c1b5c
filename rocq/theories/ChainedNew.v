(** The constructor of ChainedOptimizer; whole histories; saving and loading. *)
From Verif Require Import Base BaseFacts Chained ChainedSpec ChainedFacts ChainedInv.
Set Implicit Arguments. Unset Strict Implicit.

Section New.
Variables T L W : Type.
Variables (ss : list (spec L W)) (lr0 : L) (wd0 : W).

Definition apart (rs : list (request L W)) : Prop :=
  forall i j ri rj p, (i < j)%nat -> nth_error rs i = Some ri -> nth_error rs j = Some rj -> List.In p (r_params ri) -> ~ List.In p (r_params rj).
Lemma base_new_spec (rs : list (request L W)) : forall (gs : list (group L W)),
  (exists gs', base_new lr0 wd0 gs rs = Ok gs') <->
  (apart rs /\ forall g r p, List.In g gs -> List.In r rs -> List.In p (g_params g) -> ~ List.In p (r_params r)).
Proof.
  induction rs as [|r rs IH]; intros gs; cbn.
  - split; [intros _; split; [intros [|i] j ri rj p _ E; discriminate|intros g r p _ []]|eauto].
  - unfold base_add. destruct (overlaps (map (@g_params L W) gs) (r_params r)) eqn:O; cbn.
    + split; [intros (gs' & E); discriminate|]. intros (_ & H). apply overlaps_spec in O. destruct O as (p & qs & A & B & C). apply in_map_iff in B. destruct B as (g & <- & B). elim (H g r p B (or_introl eq_refl) C A).
    + rewrite IH. split.
      * intros (H1 & H2). split.
        -- intros [|i] [|j] ri rj p IJ Ei Ej P Q; try lia; cbn in Ei, Ej.
           ++ injection Ei as <-. apply (H2 (fill lr0 wd0 r) rj p); [apply in_app_iff; right; left; reflexivity|eapply nth_error_In; eauto|exact P|exact Q].
           ++ exact (H1 i j ri rj p ltac:(lia) Ei Ej P Q).
        -- intros g r' p Hg [<-|R] P Q; [|exact (H2 g r' p ltac:(apply in_app_iff; tauto) R P Q)]. apply (proj1 (not_overlaps _ _) O p (g_params g) Q); [apply in_map; exact Hg|exact P].
      * intros (H1 & H2). split.
        -- intros i j ri rj p IJ Ei Ej. exact (H1 (S i) (S j) ri rj p ltac:(lia) Ei Ej).
        -- intros g r' p Hg R P Q. apply in_app_iff in Hg. destruct Hg as [Hg|[<-|[]]]; [exact (H2 g r' p Hg (or_intror R) P Q)|].
           apply In_nth_error in R. destruct R as (j & J). exact (H1 0%nat (S j) r r' p ltac:(lia) eq_refl J P Q).
Qed.
Lemma base_new_eq (rs : list (request L W)) : forall (gs gs' : list (group L W)), base_new lr0 wd0 gs rs = Ok gs' -> gs' = gs ++ map (fill lr0 wd0) rs.
Proof.
  induction rs as [|r rs IH]; intros gs gs' H; cbn in H; [injection H as <-; rewrite app_nil_r; reflexivity|].
  unfold base_add in H. destruct (negb _); cbn in H; [|discriminate]. apply IH in H. rewrite H, <- app_assoc. reflexivity.
Qed.
Definition accepted (ps : list nat) : Prop := forall p, List.In p ps -> exists k, belongs ss p k.
Lemma route_groups_spec (gs : list (group L W)) : forall lists, List.length lists = List.length ss ->
  ((exists x, route_groups ss gs lists = Ok x) <-> forall g, List.In g gs -> accepted (g_params g)) /\
  forall lists' gs', route_groups ss gs lists = Ok (lists', gs') ->
    List.length lists' = List.length ss /\
    (forall k, (k < List.length ss)%nat -> nth k lists' [] = nth k lists [] ++ filter (mine ss k) (flat_map (@g_params L W) gs)) /\
    List.length gs' = List.length gs /\
    forall j g, nth_error gs j = Some g -> exists g', nth_error gs' j = Some g' /\ g_params g' = g_params g /\ g_lr g' = g_lr g /\ g_wd g' = g_wd g /\
      forall k i, List.In (k, i) (g_links g') <-> i = 0%nat /\ exists p, List.In p (g_params g) /\ belongs ss p k.
Proof.
  induction gs as [|g gs IH]; intros lists HL; cbn [route_groups].
  - split; [split; [intros _ g []|eauto]|]. intros lists' gs' [= <- <-]. split; [exact HL|]. split; [intros; cbn; rewrite app_nil_r; reflexivity|]. split; [reflexivity|]. intros [|j] g E; discriminate.
  - destruct (route ss (fun _ => 0%nat) (g_params g) (lists, [])) as ((lists1, links), ok) eqn:R. apply route_spec in R; [|exact HL].
    destruct R as (HL1 & O & H1 & H2). destruct (IH lists1 HL1) as (A & B). split.
    + split.
      * intros (x & H). apply bind_Ok in H || idtac. destruct ok; cbn in H; [|discriminate]. inv_bind H. intros g' [<-|G']; [exact (proj1 O eq_refl)|]. apply A; [eauto|exact G'].
      * intros H. rewrite (proj2 O (H g (or_introl eq_refl))). cbn. destruct (proj2 A) as ((l2, g2) & ->); [intros g' G'; apply H; right; exact G'|]. cbn. eauto.
    + intros lists' gs' H. destruct ok; cbn in H; [|discriminate].
      destruct (route_groups ss gs lists1) as [(l2, g2)|e] eqn:E; cbn in H; [|discriminate]. injection H as <- <-.
      destruct (B l2 g2 eq_refl) as (B1 & B2 & B3 & B4). split; [exact B1|]. split; [|split; [cbn; lia|]].
      * intros k K. rewrite (B2 k K), (H1 eq_refl k K), <- app_assoc. cbn [flat_map]. rewrite filter_app. reflexivity.
      * intros [|j] g' E'; cbn in E'; [|exact (B4 j g' E')]. injection E' as <-. exists (with_links g links). repeat (split; [reflexivity|]). intros k i. cbn [with_links g_links]. rewrite (H2 eq_refl k i). cbn. tauto.
Qed.
Lemma nth_nil (k : nat) : nth k (map (fun _ : spec L W => @nil nat) ss) [] = [].
Proof. revert k. induction ss as [|s l IH]; intros [|k]; cbn; auto. Qed.
Lemma mapM_new_sub (l : list (spec L W * list nat)) :
  (exists subs, mapM (fun '(s, ps) => new_sub T lr0 wd0 s ps) l = Ok subs) <-> forall s ps, List.In (s, ps) l -> ps <> [].
Proof.
  induction l as [|(s, ps) l IH]; cbn; [split; [intros _ s ps []|eauto]|]. split.
  - intros (subs & H). unfold new_sub in H at 1. destruct ps as [|p ps]; cbn in H; [discriminate|].
    destruct (mapM _ l) as [x|e] eqn:E; cbn in H; [|discriminate]. intros s' ps' [[= <- <-]|I]; [discriminate|]. apply (proj1 IH) with (s := s'); [eauto|exact I].
  - intros H. unfold new_sub at 1. destruct ps as [|p ps]; [elim (H s [] (or_introl eq_refl) eq_refl)|]. cbn. destruct (proj2 IH) as (x & ->); [intros s' ps' I; exact (H s' ps' (or_intror I))|]. cbn. eauto.
Qed.
Lemma mapM_new_sub_at (l : list (spec L W * list nat)) : forall subs, mapM (fun '(s, ps) => new_sub T lr0 wd0 s ps) l = Ok subs ->
  List.length subs = List.length l /\ forall k s ps, nth_error l k = Some (s, ps) -> exists x, nth_error subs k = Some x /\ new_sub T lr0 wd0 s ps = Ok x.
Proof.
  induction l as [|(s, ps) l IH]; intros subs H; cbn in H.
  - injection H as <-. split; [reflexivity|intros [|k] s ps E; discriminate].
  - destruct (new_sub T lr0 wd0 s ps) as [x|e] eqn:E1; cbn in H; [|discriminate]. destruct (mapM _ l) as [xs|e] eqn:E; cbn in H; [|discriminate]. injection H as <-.
    destruct (IH xs eq_refl) as (HL & P). split; [cbn; lia|]. intros [|k] s' ps' E'; cbn in E'; [injection E' as <- <-; exists x; split; [reflexivity|exact E1]|exact (P k s' ps' E')].
Qed.
Lemma combine_nth (A B : Type) (l : list A) : forall (m : list B) k a b, nth_error (combine l m) k = Some (a, b) <-> nth_error l k = Some a /\ nth_error m k = Some b.
Proof.
  induction l as [|x l IH]; intros [|y m] [|k] a b; cbn; try (split; [discriminate|intros (H & K); discriminate]).
  - split; [intros [= <- <-]; auto|intros ([= ->] & [= ->]); reflexivity].
  - apply IH.
Qed.
Definition every_optimizer_used (rs : list (request L W)) : Prop :=
  forall k, (k < List.length ss)%nat -> exists r p, List.In r rs /\ List.In p (r_params r) /\ belongs ss p k.

Lemma fill_params rs : flat_map (@g_params L W) (map (fill lr0 wd0) rs) = flat_map (@r_params L W) rs.
Proof. induction rs as [|r rs IH]; cbn; [reflexivity|]. rewrite IH. reflexivity. Qed.
Lemma new_iff rs : (exists c, new T ss lr0 wd0 rs = Ok c) <->
  rs <> [] /\ apart rs /\ (forall r, List.In r rs -> accepted (r_params r)) /\ every_optimizer_used rs.
Proof.
  unfold new. destruct rs as [|r0 rs0] eqn:Ers; [cbn; split; [intros (c & E); discriminate|intros (N & _); congruence]|]. rewrite <- Ers. replace (negb _) with true by (rewrite Ers; reflexivity). cbn.
  assert (NE : rs <> []) by (rewrite Ers; discriminate). clear Ers.
  destruct (base_new lr0 wd0 [] rs) as [gs|e] eqn:E1; cbn.
  2:{ split; [intros (c & E); discriminate|]. intros (_ & A & _). destruct (proj2 (base_new_spec rs [])) as (gs & E); [split; [exact A|intros g r p []]|congruence]. }
  assert (AP : apart rs) by (apply (base_new_spec rs []); eauto). apply base_new_eq in E1. cbn in E1. subst gs.
  destruct (@route_groups_spec (map (fill lr0 wd0) rs) (map (fun _ => []) ss) ltac:(apply map_length)) as (RA & RB).
  assert (ACC : (forall g, List.In g (map (fill lr0 wd0) rs) -> accepted (g_params g)) <-> forall r, List.In r rs -> accepted (r_params r)).
  { split; [intros H r R; exact (H (fill lr0 wd0 r) (in_map _ _ _ R))|]. intros H g Hg. apply in_map_iff in Hg. destruct Hg as (r & <- & R). exact (H r R). }
  destruct (route_groups ss (map (fill lr0 wd0) rs) (map (fun _ => []) ss)) as [(lists, gs)|e] eqn:E2; cbn.
  2:{ split; [intros (c & E); discriminate|]. intros (_ & _ & A & _). destruct (proj2 RA (proj2 ACC A)) as (x & E). discriminate. }
  destruct (RB lists gs eq_refl) as (HL & LF & _). clear RB.
  assert (USED : (forall s ps, List.In (s, ps) (combine ss lists) -> ps <> []) <-> every_optimizer_used rs).
  { split.
    - intros H k K. destruct (nth_error ss k) as [s|] eqn:Es; [|apply nth_error_None in Es; lia].
      assert (El : nth_error lists k = Some (nth k lists [])) by (apply nth_error_nth'; lia).
      specialize (H s (nth k lists [])). assert (I : List.In (s, nth k lists []) (combine ss lists)) by (eapply nth_error_In; apply combine_nth; eauto).
      specialize (H I). rewrite (LF k K), nth_nil in H. cbn in H. rewrite fill_params in H.
      destruct (filter (mine ss k) (flat_map (@r_params L W) rs)) as [|p l] eqn:F; [congruence|].
      assert (P : List.In p (filter (mine ss k) (flat_map (@r_params L W) rs))) by (rewrite F; left; reflexivity).
      apply filter_In in P. destruct P as (P & M). apply in_flat_map in P. destruct P as (r & R & P). exists r, p. split; [exact R|]. split; [exact P|apply mine_spec; exact M].
    - intros H s ps I X. subst ps. apply In_nth_error in I. destruct I as (k & I). apply combine_nth in I. destruct I as (Es & El).
      assert (K : (k < List.length ss)%nat) by (apply nth_error_Some; congruence). destruct (H k K) as (r & p & R & P & B).
      apply nth_error_nth with (d := []) in El. rewrite (LF k K), nth_nil in El. cbn in El. rewrite fill_params in El.
      assert (Q : List.In p (filter (mine ss k) (flat_map (@r_params L W) rs))) by (apply filter_In; split; [apply in_flat_map; eauto|apply mine_spec; exact B]).
      rewrite El in Q. destruct Q. }
  destruct (mapM _ (combine ss lists)) as [subs|e] eqn:E3; cbn.
  - split; [intros _|eauto]. split; [exact NE|]. split; [exact AP|]. split; [apply ACC; apply RA; eauto|]. apply USED. apply mapM_new_sub. eauto.
  - split; [intros (c & E); discriminate|]. intros (_ & _ & _ & U). destruct (proj2 (mapM_new_sub (combine ss lists)) (proj2 USED U)) as (x & E). congruence.
Qed.
Lemma apart_nodup (rs : list (request L W)) : apart rs -> (forall r, List.In r rs -> NoDup (r_params r)) -> NoDup (flat_map (@r_params L W) rs).
Proof.
  induction rs as [|r rs IH]; intros A N; cbn; [constructor|]. apply NoDup_app_iff. split; [apply N; left; reflexivity|]. split.
  - apply IH; [|intros x X; apply N; right; exact X]. intros i j ri rj p IJ Ei Ej. exact (A (S i) (S j) ri rj p ltac:(lia) Ei Ej).
  - intros p P Q. apply in_flat_map in Q. destruct Q as (r' & R & Q). apply In_nth_error in R. destruct R as (j & J). exact (A 0%nat (S j) r r' p ltac:(lia) eq_refl J P Q).
Qed.
Lemma new_good rs (c : chain T L W) : new T ss lr0 wd0 rs = Ok c -> (forall r, List.In r rs -> proper ss r) ->
  good ss lr0 wd0 (List.length rs) c /\
  map (fun g => (g_params g, g_lr g)) (groups c) = map (fun r => (r_params r, or_default (r_lr r) lr0)) rs /\
  forall k s p, nth_error (subs c) k = Some s -> s_state s p = None.
Proof.
  intros H PR. pose proof (proj1 (new_iff rs) (ex_intro _ _ H)) as (NE & AP & ACC & USED).
  unfold new in H. apply guard_Ok in H. destruct H as (_ & H). destruct (base_new lr0 wd0 [] rs) as [gs|e] eqn:E1; cbn in H; [|discriminate]. apply base_new_eq in E1. cbn in E1. subst gs.
  destruct (@route_groups_spec (map (fill lr0 wd0) rs) (map (fun _ => []) ss) ltac:(apply map_length)) as (_ & RB).
  destruct (route_groups ss (map (fill lr0 wd0) rs) (map (fun _ => []) ss)) as [(lists, gs)|e] eqn:E2; cbn in H; [|discriminate].
  destruct (RB lists gs eq_refl) as (HL & LF & GL & GN). clear RB. rewrite map_length in GL.
  destruct (mapM _ (combine ss lists)) as [subs|e] eqn:E3; cbn in H; [|discriminate]. injection H as <-. cbn [groups Chained.subs].
  apply mapM_new_sub_at in E3. destruct E3 as (SL & SN). rewrite combine_length, HL, Nat.min_id in SL.
  set (PS := flat_map (@r_params L W) rs) in *.
  assert (ND : NoDup PS) by (apply apart_nodup; [exact AP|intros r R; apply (PR r R)]).
  assert (SUB : forall k, (k < List.length ss)%nat -> exists s x, nth_error ss k = Some s /\ nth_error subs k = Some x /\ s_groups x = [{| sg_params := filter (mine ss k) PS; sg_lr := or_default (init_lr s) lr0; sg_wd := or_default (init_wd s) wd0 |}] /\
     s_wd x = or_default (init_wd s) wd0 /\ (forall p, s_state x p = None)).
  { intros k K. destruct (nth_error ss k) as [s|] eqn:Es; [|apply nth_error_None in Es; lia].
    assert (El : nth_error lists k = Some (filter (mine ss k) PS)).
    { rewrite (nth_error_nth' lists [] (n := k)) by lia. rewrite (LF k K), nth_nil. cbn. rewrite fill_params. reflexivity. }
    destruct (SN k s _ (proj2 (combine_nth ss lists k s _) (conj Es El))) as (x & Ex & Nx). unfold new_sub in Nx. apply guard_Ok in Nx. destruct Nx as (_ & Nx). injection Nx as <-.
    exists s. eexists. split; [reflexivity|]. split; [exact Ex|]. cbn. repeat split. }
  assert (GAT : forall j ps ls, nth_error (gl_of gs) j = Some (ps, ls) -> exists r, nth_error rs j = Some r /\ ps = r_params r /\ forall k i, List.In (k, i) ls <-> i = 0%nat /\ exists p, List.In p ps /\ belongs ss p k).
  { intros j ps ls E. apply gl_nth_inv in E. destruct E as (g & Eg & -> & ->). assert (J : (j < List.length rs)%nat) by (rewrite <- GL; apply nth_error_Some; congruence).
    destruct (nth_error rs j) as [r|] eqn:Er; [|apply nth_error_None in Er; lia]. destruct (GN j (fill lr0 wd0 r)) as (g' & Eg' & P1 & _ & _ & LK); [rewrite nth_error_map, Er; reflexivity|].
    assert (g' = g) by congruence. subst g'. exists r. split; [reflexivity|]. split; [exact P1|]. rewrite P1. exact LK. }
  assert (INPS : forall p, List.In p PS -> exists ps ls, List.In (ps, ls) (gl_of gs) /\ List.In p ps).
  { intros p P. unfold PS in P. apply in_flat_map in P. destruct P as (r & R & P). apply In_nth_error in R. destruct R as (j & J).
    destruct (GN j (fill lr0 wd0 r)) as (g' & Eg' & P1 & _); [rewrite nth_error_map, J; reflexivity|]. exists (g_params g'), (g_links g'). split; [eapply nth_error_In; apply gl_nth; exact Eg'|rewrite P1; exact P]. }
  split; [|split].
  - split; [reflexivity|]. split; [reflexivity|]. split; [reflexivity|]. cbn [groups Chained.subs]. split.
    + constructor.
      * unfold pl_of. rewrite map_length. exact SL.
      * unfold gl_of. rewrite map_length. lia.
      * intros j ps ls p E P. destruct (GAT j ps ls E) as (r & Er & -> & LK). destruct (ACC r (nth_error_In _ _ Er) p P) as (k & B).
        destruct (SUB k (belongs_lt B)) as (s & x & Es & Ex & G1 & _). exists k, 0%nat. eexists. eexists. split; [exact B|]. split; [apply LK; eauto|]. split; [exact (pl_nth Ex)|]. rewrite G1. split; [reflexivity|].
        cbn. apply filter_In. split; [unfold PS; apply in_flat_map; exists r; split; [eapply nth_error_In; eauto|exact P]|apply mine_spec; exact B].
      * intros j ps ls k i E LK. destruct (GAT j ps ls E) as (r & Er & -> & LKs). apply LKs in LK. destruct LK as (-> & p & P & B).
        destruct (SUB k (belongs_lt B)) as (s & x & Es & Ex & G1 & _). split; [|split; [eauto|left; split; [apply nth_error_Some; congruence|reflexivity]]].
        eexists. eexists. split; [exact (pl_nth Ex)|]. rewrite G1. reflexivity.
      * intros j1 ps1 ls1 j2 ps2 ls2 k i E1 E' L1 _ NZ. destruct (GAT _ _ _ E1) as (r & _ & _ & LKs). apply LKs in L1. destruct L1 as (-> & _). congruence.
      * intros k gs' E. apply pl_nth_inv in E. destruct E as (x & Ex & ->). assert (K : (k < List.length ss)%nat) by (rewrite <- SL; apply nth_error_Some; congruence).
        destruct (SUB k K) as (s & x' & Es & Ex' & G1 & _). assert (x' = x) by congruence. subst x'. rewrite G1. cbn. rewrite app_nil_r. split; [discriminate|]. split; [apply NoDup_filter; exact ND|].
        intros p P. apply filter_In in P. destruct P as (P & M). split; [apply mine_spec; exact M|exact (INPS p P)].
    + intros k x Ex. assert (K : (k < List.length ss)%nat) by (rewrite <- SL; apply nth_error_Some; congruence).
      destruct (SUB k K) as (s & x' & Es & Ex' & G1 & W1 & _). assert (x' = x) by congruence. subst x'. rewrite G1, W1. unfold decay_of. rewrite Es. split; [reflexivity|]. intros g [<-|[]]. reflexivity.
  - clear - GL GN. revert gs GL GN. induction rs as [|r rs IH]; intros [|g gs] GL GN; cbn in *; try lia; [reflexivity|]. f_equal.
    + destruct (GN 0%nat (fill lr0 wd0 r) eq_refl) as (g' & [= <-] & -> & -> & _). reflexivity.
    + apply IH; [lia|]. intros j g' E. exact (GN (S j) g' E).
  - intros k x p Ex. assert (K : (k < List.length ss)%nat) by (rewrite <- SL; apply nth_error_Some; congruence).
    destruct (SUB k K) as (s & x' & Es & Ex' & _ & _ & ST). assert (x' = x) by congruence. subst x'. apply ST.
Qed.

(** ** Histories *)
Variables V G : Type.
Variable update : nat -> L -> W -> G -> option T -> V -> V * T.
Variable n : nat.
Definition states_of (c : chain T L W) (old : nat -> option T) (p : nat) : option T :=
  match first_accepting 0 ss p with
  | Some k => match nth_error (subs c) k with Some s => s_state s p | None => old p end
  | None => old p
  end.
Definition next_view (c : chain T L W) (values : nat -> V) (x : view V T L) : view V T L :=
  {| v_groups := view_groups c; v_values := values; v_states := states_of c (v_states x) |}.
Lemma next_sees c values x : specs c = ss -> sees c values (next_view c values x).
Proof.
  intros S1. split; [reflexivity|]. split; [reflexivity|]. intros p k s B E. cbn. unfold states_of. rewrite S1 in B. apply first_belongs in B. rewrite B, E. reflexivity.
Qed.
Lemma same_states c c' (x : view V T L) values : good ss lr0 wd0 n c -> sees c values x ->
  (forall k s, nth_error (subs c) k = Some s -> exists s', nth_error (subs c') k = Some s' /\ s_state s' = s_state s) -> forall p, states_of c' (v_states x) p = v_states x p.
Proof.
  intros (S1 & _ & _ & I & _) (_ & _ & SS) H p. unfold states_of. destruct (first_accepting 0 ss p) as [k|] eqn:F; [|reflexivity]. apply first_belongs in F.
  destruct (nth_error (subs c) k) as [s|] eqn:Es.
  - destruct (H k s Es) as (s' & -> & ->). symmetry. apply (SS p k s); [rewrite S1; exact F|exact Es].
  - exfalso. apply nth_error_None in Es. apply belongs_lt in F. pose proof (i_len I) as X. unfold pl_of in X. rewrite map_length in X. lia.
Qed.
Lemma perform_done (o : op V G L W) c values x c' values' e : good ss lr0 wd0 n c -> op_proper ss o -> sees c values x -> perform update o c values = (c', values', e) ->
  exists y, good ss lr0 wd0 n c' /\ sees c' values' y /\ done update ss lr0 wd0 (last_rate ss n) o x y e.
Proof.
  intros GD OP SE H. pose proof GD as (S1 & S2 & S3 & I & D). pose proof SE as (VG & VV & VS). destruct o as [closure|i lr|r]; cbn in H.
  - destruct (@step_good T L W ss lr0 wd0 n V G update c values closure GD) as (c1 & v1 & E & GD' & GG & OUT & P). rewrite E in H. injection H as <- <- <-.
    exists (next_view c1 v1 x). split; [exact GD'|]. split; [apply next_sees; apply GD'|]. constructor. split; [cbn; unfold view_groups; rewrite GG, VG; reflexivity|]. cbn.
    subst values. intros p. split.
    + intros H. unfold states_of. destruct (first_accepting 0 ss p) as [k|] eqn:F.
      * apply first_belongs in F. destruct (P p k F) as (s & s' & Es & Es' & U & _). rewrite Es', (VS p k s ltac:(rewrite S1; exact F) Es). apply U.
        destruct H as [H|H]; [left|right; exact H]. intros g Hg. apply (H (g_params g) (g_lr g)). rewrite VG. apply in_map_iff. eauto.
      * split; [|reflexivity]. apply OUT. intros k B. apply first_belongs in B. congruence.
    + intros k g lr (ps & lr' & I1 & I2) GR B LR. unfold states_of. rewrite (proj2 (first_belongs ss p k) B).
      destruct (P p k B) as (s & s' & Es & Es' & _ & U). rewrite Es', (VS p k s ltac:(rewrite S1; exact B) Es). rewrite (U lr).
      * unfold fresh_of. rewrite GR. reflexivity.
      * rewrite VG in I1. apply in_map_iff in I1. destruct I1 as (g' & [= <- <-] & Hg). eauto.
      * unfold view_groups. rewrite <- VG. exact LR.
  - destruct (@set_lr_good T L W ss lr0 wd0 n c i lr GD) as [(E1 & E2)|(g & c1 & E1 & E2 & GD' & SB & VG')]; rewrite E2 in H; injection H as <- <- <-.
    + exists x. split; [exact GD|]. split; [exact SE|]. apply DSetBad. rewrite VG, nth_error_map, E1. reflexivity.
    + exists (next_view c1 values x). split; [exact GD'|]. split; [apply next_sees; apply GD'|]. apply DSet with (ps := g_params g) (lr' := g_lr g).
      * rewrite VG, nth_error_map, E1. reflexivity.
      * cbn. unfold view_groups. rewrite VG', VG. reflexivity.
      * cbn. congruence.
      * cbn. apply (same_states GD SE). intros k s Es. rewrite SB. eauto.
  - destruct (add_good GD OP) as [((p & g & P & Hg & Q) & E)|(NO & c1 & g & E & GD' & GG & GP & GLr & ST)]; rewrite E in H; injection H as <- <- <-.
    + exists x. split; [exact GD|]. split; [exact SE|]. apply DAddBad with (p := p) (ps := g_params g) (lr := g_lr g); [exact P| |exact Q]. rewrite VG. apply in_map_iff. eauto.
    + exists (next_view c1 values x). split; [exact GD'|]. split; [apply next_sees; apply GD'|]. apply DAdd.
      * intros p ps lr P Q. rewrite VG in Q. apply in_map_iff in Q. destruct Q as (g' & [= <- <-] & Hg). exact (NO p g' P Hg).
      * cbn. unfold view_groups. rewrite GG, map_app, VG. cbn. rewrite GP, GLr. reflexivity.
      * cbn. congruence.
      * cbn. exact (same_states GD SE ST).
Qed.
Lemma performs_done (os : list (op V G L W)) : forall c values x c' values' es, good ss lr0 wd0 n c -> Forall (op_proper ss) os -> sees c values x -> performs update os c values = (c', values', es) ->
  exists y, good ss lr0 wd0 n c' /\ sees c' values' y /\ all_done update ss lr0 wd0 (last_rate ss n) os x y es.
Proof.
  induction os as [|o os IH]; intros c values x c' values' es GD OP SE H; cbn in H.
  - injection H as <- <- <-. exists x. split; [exact GD|]. split; [exact SE|constructor].
  - inversion OP as [|? ? O1 O2]; subst. destruct (perform update o c values) as ((c1, v1), e) eqn:E. destruct (performs update os c1 v1) as ((c2, v2), es') eqn:E2. injection H as <- <- <-.
    destruct (perform_done GD O1 SE E) as (y & GD1 & SE1 & D1). destruct (IH _ _ _ _ _ _ GD1 O2 SE1 E2) as (z & GD2 & SE2 & D2). exists z. split; [exact GD2|]. split; [exact SE2|]. econstructor; eauto.
Qed.
End New.
