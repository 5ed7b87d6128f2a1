(* Model of suprb/rule/base.py: one rule and its fitted attributes. *)
From Verif Require Import PyNum PyList PyMon M_Matching.

(* What the rule gets from outside: the regressor class (training data -> fitted model; model, row -> prediction;
   sklearn's linear models predict row by row) and the fitness function, which reads the condition, the error
   and the (fixed) input space.  fit_model is total: X and y were validated before.  Simplification: a fitted model answers for
   rows of any length; the one of scikit-learn raises ValueError for a row with another number of features. *)
Record learner : Type := mkLearner {
  Mdl : Type;
  train : matrix -> targets -> Mdl;
  mpred : Mdl -> row -> Q;
  rfitness : matching -> Q -> num
}.

(* fitted attributes, base.py:56-88 *)
Record atts : Type := mkAtts {
  is_fitted : bool; error : num; fitness : num; experience : Q; pred : list Q; match_set : list bool }.
Record rule (L : learner) : Type := mkRule {
  cond : matching; rmodel : option (Mdl L); att : option atts }.
Arguments mkRule {L}. Arguments cond {L}. Arguments rmodel {L}. Arguments att {L}.

(* sklearn.metrics.mean_squared_error on two vectors of the same length *)
Definition mse (y p : list Q) : Q := qsum (map2 (fun a b => (a - b) * (a - b)) y p) / qofnat (length y).
Definition floor_error (e : Q) : Q := qmax e (1#10000).    (* max(mse, 1e-4) *)

(* (self.match_set_ == match_set).all(): arrays of different lengths compare to the Python bool False,
   which has no all(); length 1 broadcasts *)
Definition same_flags (a b : list bool) : res bool :=
  if Nat.eqb (length a) (length b) then Ok (forallb (fun p => Bool.eqb (fst p) (snd p)) (combine a b))
  else match a, b with
       | [x], _ => Ok (forallb (Bool.eqb x) b)
       | _, [y] => Ok (forallb (Bool.eqb y) a)
       | _, _ => Raise AttributeError
       end.

Section Rule.
Variable L : learner.

(* base.py:58-66 *)
Definition unmatched (ms : list bool) : atts := mkAtts false PInf NInf 0 [] ms.
(* base.py:74-88: train on the matched samples, predict them, measure *)
Definition trained (m : matching) (ms : list bool) (X : matrix) (y : targets) : Mdl L * atts :=
  let X' := compress X ms in
  let y' := compress y ms in
  let mdl := train L X' y' in
  let p := map (mpred L mdl) X' in
  let e := floor_error (mse y' p) in
  (mdl, mkAtts true (Fin e) (rfitness L m e) (qofnat (length X')) p ms).

(* base.py:53-88.  An exception leaves the rule as it was (simplification: when len(y) <> len(X) the code has
   already assigned match_set_). *)
Definition rule_fit (r : rule L) (X : matrix) (y : targets) : res unit * rule L :=
  match match_call (cond r) X with
  | Raise e => (Raise e, r)
  | Ok ms =>
    if negb (existsb (fun b => b) ms) then (Ok tt, mkRule (cond r) (rmodel r) (Some (unmatched ms)))
    else
      let refit :=
        if Nat.eqb (length y) (length X) then
          let '(mdl, a) := trained (cond r) ms X y in (Ok tt, mkRule (cond r) (Some mdl) (Some a))
        else (Raise IndexError, r) in
      match att r with
      | None => refit
      | Some a =>
        match same_flags (match_set a) ms with
        | Raise e => (Raise e, r)
        | Ok true =>      (* 68-72: keep everything, mark fitted *)
            (Ok tt, mkRule (cond r) (rmodel r)
                      (Some (mkAtts true (error a) (fitness a) (experience a) (pred a) (match_set a))))
        | Ok false => refit
        end
      end
  end.

(* base.py:94-95; an unfitted regressor raises *)
Definition rule_predict (r : rule L) (X : matrix) : res (list Q) :=
  match rmodel r with Some mdl => Ok (map (mpred L mdl) X) | None => Raise NotFittedError end.

(* base.py:90-92 *)
Definition rule_volume (r : rule L) : Q := volume (cond r).

(* base.py:97-104 without arguments: copy of the condition, unfitted copy of the model, no fitted attributes.
   (Sharing of the bounds array: M_RuleHeap.) *)
Definition rule_clone (r : rule L) : rule L := mkRule (cond r) None None.

Definition fresh_rule (m : matching) : rule L := mkRule m None None.

(* calling fit on a list of data sets, one after the other; stops at the first exception *)
Fixpoint rule_fits (r : rule L) (data : list (matrix * targets)) : res unit * rule L :=
  match data with
  | [] => (Ok tt, r)
  | (X, y) :: data' =>
    match rule_fit r X y with
    | (Ok _, r') => rule_fits r' data'
    | (Raise e, r') => (Raise e, r')
    end
  end.
End Rule.
