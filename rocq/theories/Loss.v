(** The supervised loss in training and in validation: trainer/loss/supervised.py, trainer/loss/utils.py, dataset/core.py 815-1403.

    Numbers are elements of any field.  What torch computes of one row (softmax, sigmoid, the soft-label cross entropies, huber) is any
    function.  A row is a sample with what the model and the teacher said about it; the accessors are a record, so that two readings of the
    same rows can be compared.  Board-shaped tensors are flat.  Not modelled: VQ losses and auxiliary outputs, shape errors, gradients
    (detach), NaN for empty batches, the textual keys of composed statistics (here: position, group and kind). *)
From Coq Require Import String.
From Verif Require Import Base.
Set Implicit Arguments. Unset Strict Implicit.

(** What is computed with numbers: the arithmetic, and what torch computes of one row. *)
Class numbers (R : Type) := {
  r0 : R; r1 : R; radd : R -> R -> R; rmul : R -> R -> R; rsub : R -> R -> R; rdiv : R -> R -> R;
  softmax : list R -> list R; sigmoid : R -> R;
  (** one row of cross_entropy_with_softlabel (utils/training_utils.py 1206-1262): KL or not, focal gamma, input, target, weights *)
  soft_ce : bool -> R -> list R -> list R -> option (list R) -> R;
  soft_bce : bool -> R -> R -> R -> R;
  huber : R -> R -> R; less : R -> R -> bool; is_zero : R -> bool;
  (** dataset/core.py 958-964: mean and variance; exact equality is never too far *)
  too_far : R -> R -> bool;
  (** -1e6 *)
  floor_logit : R
}.
Section Loss.
Context {R : Type} {N : numbers R}.
Notation "x + y" := (radd x y). Notation "x * y" := (rmul x y). Notation "x - y" := (rsub x y). Notation "x / y" := (rdiv x y).
Fixpoint inj (n : nat) : R := match n with O => r0 | S n => inj n + r1 end.
Fixpoint rsum (l : list R) : R := match l with [] => r0 | x :: l => x + rsum l end.
Definition two : R := r1 + r1.
Definition square (x : R) : R := x * x.
Context {row : Type}.
Inductive aux :=
| AValue (f : row -> list R)
| APolicy (f : row -> list R)
| AUncertainty (f : row -> R * list R * list R)               (* prediction, value, target *)
| ARelative (f : row -> R * list R * list R * list R)         (* prediction, small, large, target *)
| AReg (f : row -> list R)
| ATensor (f : list row -> R)                                (* a plain tensor *)
| AUnknown.
Record reading := {
  value_of : row -> list R; policy_of : row -> list R;
  board_mask : option (row -> list bool);
  value_target : row -> list R; policy_target : row -> list R;
  teacher_value : row -> list R; teacher_policy : row -> list R;
  forbidden : row -> list bool;
  auxiliaries : list (string * aux)
}.
Inductive kind := KL | CE | MSE | NONE | Other.
(** [loss_type], [loss_args] and the distillation arguments *)
Record config := {
  value_kind : kind; policy_kind : kind; value_gamma : R; policy_gamma : R; ignore_forbidden : bool;
  policy_reg_lambda : R; value_policy_ratio : R; aux_lambda : string -> option R; kd_T : R; kd_alpha : R
}.
Variable c : config.
Variable d : reading.

(** ** Preparation of a row: trainer/loss/utils.py *)
Definition over_T (l : list R) : list R := map (fun x => x / kd_T c) l.
(** lines 6-31, [apply_kd_temperature] of the value head *)
Definition soften (target : list R) : list R := if (1 <? List.length target)%nat then softmax (over_T target) else map sigmoid (over_T target).
(** lines 34-51, [convert_value_target] *)
Definition winrate (p : list R) : R := (nth 0 p r0 - nth 1 p r0 + r1) / two.
Definition convert_value_target (v t : list R) : (R * R) + (list R * list R) :=
  match v with [x] => inl (x, match t with [y] => y | _ => winrate t end) | _ => inr (v, t) end.
Fixpoint masked_fill (x : R) (mask : list bool) (l : list R) : list R :=
  match mask, l with b :: mask, y :: l => (if b then y else x) :: masked_fill x mask l | _, _ => [] end.
Definition fill (x : R) (r : row) (l : list R) : list R := match board_mask d with Some m => masked_fill x (m r) l | None => l end.
(** lines 54-72, [prepare_policy] *)
Definition prepare_policy (p t : list R) (r : row) : list R * list R := (fill floor_logit r p, fill r0 r t).
(** trainer/loss/supervised.py 816-843 and 563-589: input and target of the value head (target before conversion) and of the policy head *)
Definition value_input (kd : bool) (r : row) : list R * list R :=
  if kd then (over_T (value_of d r), soften (teacher_value d r)) else (value_of d r, value_target d r).
Definition policy_input (kd : bool) (r : row) : list R * list R :=
  let '(p, t) := prepare_policy (policy_of d r) (if kd then teacher_policy d r else policy_target d r) r in
  if kd then (over_T p, fill r0 r (softmax (over_T (fill floor_logit r t)))) else (p, t).
(** lines 845-850, 591-597 *)
Definition policy_weight (r : row) : option (list R) :=
  if ignore_forbidden c then Some (map (fun f : bool => if f then r1 - r1 else r1 - r0) (forbidden d r)) else None.
Definition aux_value_input (kd : bool) (f : row -> list R) (r : row) := convert_value_target (if kd then over_T (f r) else f r) (snd (value_input kd r)).
Definition aux_policy_input (kd : bool) (f : row -> list R) (r : row) : list R * list R :=
  let '(p, t) := prepare_policy (f r) (snd (policy_input kd r)) r in (if kd then over_T p else p, t).
(** lines 98-108, [_value_uncertainty_gt] *)
Definition uncertainty_gt (value target : list R) : R :=
  match value with
  | [v] => square (sigmoid v - nth 0 target r0)
  | _ => square (winrate (softmax value) - winrate target)
  end.
Definition relative_gt (small large target : list R) : R :=
  let ug_small := uncertainty_gt small target in let ug_large := uncertainty_gt large target in
  if less ug_large ug_small then ug_large / ug_small else r1.
Definition zip2 A B C (f : A -> B -> C) (l : list A) (m : list B) : list C := map (fun '(a, b) => f a b) (combine l m).
Definition value_lambda : R := two * value_policy_ratio c / (value_policy_ratio c + r1).
Definition policy_lambda : R := two / (value_policy_ratio c + r1).
Definition positive (x : R) : bool := less r0 x.

(** ** Training *)
Definition mean (l : list R) : R := rsum l / inj (List.length l).
(** lines 18-36, 111-116, [_dispatch_value_loss] *)
Definition value_loss (k : kind) (pair : row -> (R * R) + (list R * list R)) : res (list row -> R) :=
  match k with
  | KL => Ok (fun rows => mean (map (fun r => match pair r with inl (v, t) => soft_bce true r0 v t | inr (v, t) => soft_ce true r0 v t None end) rows))
  | CE => Ok (fun rows => mean (map (fun r => match pair r with inl (v, t) => soft_bce false (value_gamma c) v t | inr (v, t) => soft_ce false (value_gamma c) v t None end) rows))
  | MSE => Ok (fun rows => mean (map (fun r => match pair r with inl (v, t) => square (sigmoid v - t) | inr (v, t) => square (winrate (softmax v) - winrate t) end) rows))
  | _ => Err KeyError
  end.
(** lines 42-64, 119-130, [_dispatch_policy_loss]; the mean of MSE is over all cells *)
Definition policy_loss (k : kind) (pair : row -> list R * list R) : res (list row -> R) :=
  match k with
  | KL => Ok (fun rows => mean (map (fun r => soft_ce true r0 (fst (pair r)) (snd (pair r)) (policy_weight r)) rows))
  | CE => Ok (fun rows => mean (map (fun r => soft_ce false (policy_gamma c) (fst (pair r)) (snd (pair r)) (policy_weight r)) rows))
  | MSE => Ok (fun rows => mean (flat_map (fun r => let e := zip2 (fun p t => square (p - t)) (softmax (fst (pair r))) (snd (pair r)) in
                                                 match policy_weight r with Some w => zip2 rmul e w | None => e end) rows))
  | _ => Err KeyError
  end.
(** lines 70-79, [policy_reg_loss] *)
Definition bit (b : bool) : R := if b then r1 else r0.
Definition policy_reg_loss (f : row -> list R) (rows : list row) : R :=
  match board_mask d with
  | Some m => square (rsum (flat_map (fun r => zip2 rmul (f r) (map bit (m r))) rows) / rsum (flat_map (fun r => map bit (m r)) rows))
  | None => square (mean (flat_map f rows))
  end.
Record term (A : Type) := { t_name : string; t_of : list row -> A; t_dependent : bool; t_weight : R }.
Definition or_else A (o : option A) (x : A) : A := match o with Some y => y | None => x end.
(** lines 884-986, [_apply_aux_losses]; None: the term is left out *)
Definition train_aux (kd : bool) (na : string * aux) : res (option (term R)) :=
  let '(name, a) := na in
  let w := aux_lambda c name in let name_loss := String.append name "_loss" in
  match a with
  | AValue f => l <- value_loss (value_kind c) (aux_value_input kd f) ;; Ok (Some {| t_name := name_loss; t_of := l; t_dependent := true; t_weight := or_else w value_lambda |})
  | APolicy f =>
      match policy_kind c with
      | NONE => Ok None
      | k => l <- policy_loss k (aux_policy_input kd f) ;; Ok (Some {| t_name := name_loss; t_of := l; t_dependent := true; t_weight := or_else w policy_lambda |})
      end
  | AUncertainty f => Ok (Some {| t_name := name_loss; t_of := fun rows => mean (map (fun r => let '(u, v, t) := f r in huber u (uncertainty_gt v t)) rows); t_dependent := false; t_weight := or_else w r1 |})
  | ARelative f => Ok (Some {| t_name := name_loss; t_of := fun rows => mean (map (fun r => let '(u, s, l, t) := f r in square (u - relative_gt s l t)) rows); t_dependent := false; t_weight := or_else w r1 |})
  | AReg f =>
      match w with
      | None => if is_zero (policy_reg_lambda c) then Ok None else Ok (Some {| t_name := name; t_of := policy_reg_loss f; t_dependent := false; t_weight := policy_reg_lambda c |})
      | Some w => Ok (Some {| t_name := name; t_of := policy_reg_loss f; t_dependent := false; t_weight := w |})
      end
  | ATensor f => Ok (Some {| t_name := name_loss; t_of := f; t_dependent := false; t_weight := or_else w r1 |})
  | AUnknown => Err ValueError
  end.
Fixpoint somes A (l : list (option A)) : list A := match l with [] => [] | Some a :: l => a :: somes l | None :: l => somes l end.
(** lines 795-881, [_compute_loss_terms]; there the value and the policy term are one term with their sum *)
Definition train_terms (kd : bool) : res (list (term R)) :=
  lv <- value_loss (value_kind c) (fun r => convert_value_target (fst (value_input kd r)) (snd (value_input kd r))) ;;
  lp <- match policy_kind c with NONE => Ok (fun _ => r0) | k => policy_loss k (policy_input kd) end ;;
  auxs <- mapM (train_aux kd) (auxiliaries d) ;;
  Ok ([{| t_name := "value_loss"; t_of := lv; t_dependent := true; t_weight := value_lambda |};
       {| t_name := "policy_loss"; t_of := lp; t_dependent := true; t_weight := policy_lambda |}]
      ++ (if positive (policy_reg_lambda c) then [{| t_name := "policy_reg"; t_of := policy_reg_loss (policy_of d); t_dependent := false; t_weight := policy_reg_lambda c |}] else [])
      ++ somes auxs).
(** a dict: a later entry of the same name replaces the value *)
Definition dict A := list (string * A).
Fixpoint dict_set A (m : dict A) (k : string) (v : A) : dict A :=
  match m with [] => [(k, v)] | (k', v') :: m => if String.eqb k' k then (k', v) :: m else (k', v') :: dict_set m k v end.
Definition dict_update A (m n : dict A) : dict A := fold_left (fun m e => dict_set m (fst e) (snd e)) n m.
Definition named A (ts : list (term A)) (rows : list row) : dict A := dict_update [] (map (fun t => (t_name t, t_of t rows)) ts).
(** lines 784-792, [_sum_terms] *)
Definition sum_terms (ts : list (term R)) (dep : option bool) (rows : list row) : option R :=
  fold_left (fun acc t => if match dep with Some b => negb (Bool.eqb (t_dependent t) b) | None => false end then acc
                          else Some (match acc with None => t_weight t * t_of t rows | Some s => s + t_weight t * t_of t rows end)) ts None.
Definition prefixed A (m : dict A) : dict A := map (fun '(k, v) => (String.append "kd_" k, v)) m.
(** lines 355-533, [compute_supervised_losses], of rows without padding; [kd]: a teacher is given.  The dictionary has the total, too. *)
Definition compute_supervised_losses (kd : bool) (rows : list row) : res (R * dict R) :=
  terms <- train_terms kd ;;
  if kd then
    real_terms <- train_terms false ;;
    let total := kd_alpha c * or_else (sum_terms terms (Some true) rows) r0 * (kd_T c * kd_T c)
                 + (r1 - kd_alpha c) * or_else (sum_terms real_terms (Some true) rows) r0 in
    let total := match sum_terms real_terms (Some false) rows with Some i => total + i | None => total end in
    Ok (total, dict_set (dict_update (named real_terms rows) (prefixed (named terms rows))) "total_loss" total)
  else
    let total := or_else (sum_terms terms None rows) r0 in
    Ok (total, dict_set (named terms rows) "total_loss" total).

(** ** Validation *)
(** dataset/core.py: SumCount, and SufficientStats with policy_mean_square_v1 *)
Inductive stat := Mean (sum : R) (count : nat) | Square (sum : R) (cells : nat).
Definition sum_count (l : list R) : stat := Mean (rsum l) (List.length l).
(** lines 161-185, [_value_loss_stat]: what is not MSE is cross entropy *)
Definition value_loss_stat (k : kind) (pair : row -> (R * R) + (list R * list R)) (rows : list row) : stat :=
  match k with
  | MSE => sum_count (map (fun r => match pair r with inl (v, t) => square (sigmoid v - t) | inr (v, t) => square (winrate (softmax v) - winrate t) end) rows)
  | _ => let gamma := match k with CE => value_gamma c | _ => r0 end in let kl := match k with KL => true | _ => false end in
         sum_count (map (fun r => match pair r with inl (v, t) => soft_bce kl gamma v t | inr (v, t) => soft_ce kl gamma v t None end) rows)
  end.
(** lines 188-214, [_policy_loss_stat] *)
Definition policy_loss_stat (k : kind) (pair : row -> list R * list R) (rows : list row) : stat :=
  match k with
  | NONE => Mean (rsum (flat_map (fun r => fst (pair r)) rows) * r0) (List.length rows)
  | MSE => sum_count (flat_map (fun r => let e := zip2 (fun p t => square (p - t)) (softmax (fst (pair r))) (snd (pair r)) in
                                         match policy_weight r with Some w => zip2 rmul e w | None => e end) rows)
  | _ => let gamma := match k with CE => policy_gamma c | _ => r0 end in let kl := match k with KL => true | _ => false end in
         Mean (rsum (map (fun r => soft_ce kl gamma (fst (pair r)) (snd (pair r)) (policy_weight r)) rows)) (List.length rows)
  end.
(** lines 217-233, [_policy_regularizer_stat] *)
Definition policy_regularizer_stat (f : row -> list R) (rows : list row) : stat :=
  match board_mask d with
  | None => Square (rsum (flat_map f rows)) (List.length (flat_map f rows))
  | Some m => Square (rsum (flat_map (fun r => zip2 rmul (f r) (map bit (m r))) rows)) (List.length (filter (fun b => b) (flat_map m rows)))
  end.
(** lines 618-691 *)
Definition eval_aux (kd : bool) (na : string * aux) : res (option (term stat)) :=
  let '(name, a) := na in
  let w := aux_lambda c name in let name_loss := String.append name "_loss" in
  match a with
  | AValue f => Ok (Some {| t_name := name_loss; t_of := value_loss_stat (value_kind c) (aux_value_input kd f); t_dependent := true; t_weight := or_else w value_lambda |})
  | APolicy f =>
      match policy_kind c with
      | NONE => Ok None
      | k => Ok (Some {| t_name := name_loss; t_of := policy_loss_stat k (aux_policy_input kd f); t_dependent := true; t_weight := or_else w policy_lambda |})
      end
  | AUncertainty f => Ok (Some {| t_name := name_loss; t_of := fun rows => sum_count (map (fun r => let '(u, v, t) := f r in huber u (uncertainty_gt v t)) rows); t_dependent := false; t_weight := or_else w r1 |})
  | ARelative f => Ok (Some {| t_name := name_loss; t_of := fun rows => sum_count (map (fun r => let '(u, s, l, t) := f r in square (u - relative_gt s l t)) rows); t_dependent := false; t_weight := or_else w r1 |})
  | AReg f =>
      match w with
      | None => if is_zero (policy_reg_lambda c) then Ok None else Ok (Some {| t_name := name; t_of := policy_regularizer_stat f; t_dependent := false; t_weight := policy_reg_lambda c |})
      | Some w => Ok (Some {| t_name := name; t_of := policy_regularizer_stat f; t_dependent := false; t_weight := w |})
      end
  | ATensor _ => Err ValueError
  | AUnknown => Err ValueError
  end.
(** lines 536-692, [_compute_evaluation_terms], of the rows that are real *)
Definition eval_terms (kd : bool) : res (list (term stat)) :=
  auxs <- mapM (eval_aux kd) (auxiliaries d) ;;
  Ok ([{| t_name := "value_loss"; t_of := value_loss_stat (value_kind c) (fun r => convert_value_target (fst (value_input kd r)) (snd (value_input kd r))); t_dependent := true; t_weight := value_lambda |};
       {| t_name := "policy_loss"; t_of := policy_loss_stat (policy_kind c) (policy_input kd); t_dependent := true; t_weight := policy_lambda |}]
      ++ (if positive (policy_reg_lambda c) then [{| t_name := "policy_reg"; t_of := policy_regularizer_stat (policy_of d); t_dependent := false; t_weight := policy_reg_lambda c |}] else [])
      ++ somes auxs).
(** lines 304-343, 695-723: a composed statistic: its terms with group, weight, squared weight and replicas, and with a teacher the sums of
    alpha, T and their squares *)
Inductive group := GAll | GKd | GReal | GIndependent.
Record entry := { e_group : group; e_stat : stat; e_weight : R; e_square : R; e_replicas : nat }.
Record kd_sums := { k_alpha : R; k_alpha2 : R; k_T : R; k_T2 : R; k_replicas : nat }.
Inductive loss_stat := Plain (s : stat) | Total (es : list entry) (k : option kd_sums).
Definition entries (g : group) (ts : list (term stat)) (rows : list row) : list entry :=
  map (fun t => {| e_group := g; e_stat := t_of t rows; e_weight := t_weight t; e_square := square (t_weight t); e_replicas := 1 |}) ts.
(** lines 743-781, [compute_supervised_loss_statistics]; padding rows are marked false *)
Definition real_rows (batch : list (bool * row)) : list row := map snd (filter fst batch).
Definition compute_supervised_loss_statistics (kd : bool) (batch : list (bool * row)) : res (dict loss_stat) :=
  let rows := real_rows batch in
  let plain m := map (fun '(k, s) => (k, Plain s)) m in
  terms <- eval_terms kd ;;
  if kd then
    real_terms <- eval_terms false ;;
    let dep := filter (fun t => t_dependent t) in
    let es := entries GKd (dep terms) rows ++ entries GReal (dep real_terms) rows ++ entries GIndependent (filter (fun t => negb (t_dependent t)) real_terms) rows in
    Ok (dict_set (dict_update (plain (named real_terms rows)) (prefixed (plain (named terms rows)))) "total_loss"
          (Total es (Some {| k_alpha := kd_alpha c; k_alpha2 := square (kd_alpha c); k_T := kd_T c; k_T2 := square (kd_T c); k_replicas := 1 |})))
  else Ok (dict_set (plain (named terms rows)) "total_loss" (Total (entries GAll terms rows) None)).
(** dataset/core.py 837-846, 921-942, [combine] *)
Definition group_eqb (a b : group) : bool := match a, b with GAll, GAll | GKd, GKd | GReal, GReal | GIndependent, GIndependent => true | _, _ => false end.
Definition combine_stat (a b : stat) : res stat :=
  match a, b with
  | Mean s n, Mean s' n' => Ok (Mean (s + s') (n + n')%nat)
  | Square s n, Square s' n' => Ok (Square (s + s') (n + n')%nat)
  | _, _ => Err ValueError
  end.
Fixpoint combine_entries (a b : list entry) : res (list entry) :=
  match a, b with
  | [], [] => Ok []
  | x :: a, y :: b =>
      guard (group_eqb (e_group x) (e_group y)) else ValueError ;;
      s <- combine_stat (e_stat x) (e_stat y) ;; l <- combine_entries a b ;;
      Ok ({| e_group := e_group x; e_stat := s; e_weight := e_weight x + e_weight y; e_square := e_square x + e_square y; e_replicas := (e_replicas x + e_replicas y)%nat |} :: l)
  | _, _ => Err ValueError
  end.
Definition combine_loss (a b : loss_stat) : res loss_stat :=
  match a, b with
  | Plain a, Plain b => s <- combine_stat a b ;; Ok (Plain s)
  | Total a None, Total b None => l <- combine_entries a b ;; Ok (Total l None)
  | Total a (Some k), Total b (Some k') =>
      l <- combine_entries a b ;;
      Ok (Total l (Some {| k_alpha := k_alpha k + k_alpha k'; k_alpha2 := k_alpha2 k + k_alpha2 k'; k_T := k_T k + k_T k'; k_T2 := k_T2 k + k_T2 k'; k_replicas := (k_replicas k + k_replicas k')%nat |}))
  | _, _ => Err ValueError
  end.
Fixpoint combine_dicts (a b : dict loss_stat) : res (dict loss_stat) :=
  match a, b with
  | [], [] => Ok []
  | (k, x) :: a, (k', y) :: b =>
      guard (String.eqb k k') else ValueError ;; z <- combine_loss x y ;; l <- combine_dicts a b ;; Ok ((k, z) :: l)
  | _, _ => Err ValueError
  end.
(** dataset/core.py 848-851, 945-951 *)
Definition finalize_stat (s : stat) : res R :=
  match s with
  | Mean s n => guard (negb (n =? 0)%nat) else ValueError ;; Ok (s / inj n)
  | Square s n => guard (negb (n =? 0)%nat) else ValueError ;; Ok (square (s / inj n))
  end.
(** dataset/core.py 963-985, [_constant_mean] *)
Definition constant_mean (s s2 : R) (n : nat) : res R :=
  guard (negb (n =? 0)%nat) else ValueError ;;
  let m := s / inj n in guard (negb (too_far m (s2 / inj n - square m))) else ValueError ;; Ok m.
(** dataset/core.py 1270-1334, [_finalize_composition_group]: first the means, then the regularizers *)
Definition is_mean (e : entry) : bool := match e_stat e with Mean _ _ => true | Square _ _ => false end.
Definition finalize_entry (e : entry) : res R :=
  match e_stat e with
  | Mean s n => guard (negb (n =? 0)%nat) else ValueError ;; w <- constant_mean (e_weight e) (e_square e) (e_replicas e) ;; Ok (w * s / inj n)
  | Square s n => guard (negb (n =? 0)%nat) else ValueError ;; w <- constant_mean (e_weight e) (e_square e) (e_replicas e) ;; Ok (w * square (s / inj n))
  end.
Fixpoint finalize_entries (acc : option R) (es : list entry) : res (option R) :=
  match es with [] => Ok acc | e :: es => x <- finalize_entry e ;; finalize_entries (Some (match acc with None => x | Some a => a + x end)) es end.
Definition finalize_group (g : group) (es : list entry) : res (option R) :=
  let es := filter (fun e => group_eqb (e_group e) g) es in
  a <- finalize_entries None (filter is_mean es) ;; finalize_entries a (filter (fun e => negb (is_mean e)) es).
(** dataset/core.py 1336-1395 *)
Definition finalize (s : loss_stat) : res R :=
  match s with
  | Plain s => finalize_stat s
  | Total es None => g <- finalize_group GAll es ;; match g with None => Err ValueError | Some x => Ok x end
  | Total es (Some k) =>
      alpha <- constant_mean (k_alpha k) (k_alpha2 k) (k_replicas k) ;;
      t <- constant_mean (k_T k) (k_T2 k) (k_replicas k) ;;
      a <- finalize_group GKd es ;; b <- finalize_group GReal es ;; i <- finalize_group GIndependent es ;;
      match a, b with
      | Some a, Some b => Ok (alpha * square t * a + (r1 - alpha) * b + match i with Some i => i | None => r0 end)
      | _, _ => Err ValueError
      end
  end.
(** one global batch: each rank's statistics, combined in rank order and finalized (the reduction is C31) *)
Fixpoint combine_all (x : dict loss_stat) (l : list (dict loss_stat)) : res (dict loss_stat) :=
  match l with [] => Ok x | y :: l => z <- combine_dicts x y ;; combine_all z l end.
Definition validate (kd : bool) (ranks : list (list (bool * row))) : res (dict R) :=
  stats <- mapM (compute_supervised_loss_statistics kd) ranks ;;
  match stats with
  | [] => Err ValueError
  | x :: l => m <- combine_all x l ;; mapM (fun '(k, s) => v <- finalize s ;; Ok (k, v)) m
  end.
End Loss.
Arguments aux : clear implicits. Arguments reading : clear implicits. Arguments config : clear implicits. Arguments term : clear implicits. Arguments stat : clear implicits. Arguments loss_stat : clear implicits. Arguments entry : clear implicits.
