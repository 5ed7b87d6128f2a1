(* Specification vocabulary for a fitted rule. *)
From Verif Require Import PyNum PyList M_Matching S_Matching M_Rule.

(* flags says for each sample whether the condition covers it *)
Definition flags_of (m : matching) (X : matrix) (flags : list bool) : Prop :=
  Forall2 (fun x f => f = true <-> covers m x) X flags.

(* the mean of the squared differences *)
Fixpoint sq_sum (y p : list Q) : Q :=
  match y, p with a :: y', b :: p' => (a - b) * (a - b) + sq_sum y' p' | _, _ => 0 end.
Definition mean_squared (y p : list Q) : Q := sq_sum y p / inject_Z (Z.of_nat (length y)).

(* the attributes a rule must show after being fitted on (X, y) *)
Record truthful (L : learner) (m : matching) (X : matrix) (y : targets) (r : rule L) : Prop := {
  t_cond : cond r = m;
  t_flags : exists a, att r = Some a /\ flags_of m X (match_set a) /\
    let X' := compress X (match_set a) in        (* the matched samples *)
    let y' := compress y (match_set a) in        (* and their targets *)
    (X' = [] -> is_fitted a = false /\ error a = PInf /\ fitness a = NInf /\ experience a == 0 /\ pred a = []) /\
    (X' <> [] ->
       is_fitted a = true /\
       rmodel r = Some (train L X' y') /\
       pred a = map (mpred L (train L X' y')) X' /\
       experience a == inject_Z (Z.of_nat (length X')) /\
       exists e, error a = Fin e /\ fitness a = rfitness L m e /\
                 (mean_squared y' (pred a) <= e /\ (1#10000) <= e /\
                  (e == mean_squared y' (pred a) \/ e == 1#10000)))
}.
