(* examples/utils.py: the parameters of a fitted estimator, printed after cross validation. *)
From Coq Require Import String.
From Verif Require Import PyNum PyList PyMon.
Local Open Scope string_scope.

(* What an attribute holds: an object with a __dict__ (its class and its attributes in order), or something without one (a number, a text, an array,
   a list), of which only the identity matters here.  Simplification: trees, so no object that contains itself, for which the code does not end. *)
Inductive value : Type :=
| Plain (n : nat)
| Obj (cls : string) (attrs : list (string * value)).

(* keyword in attr_name: somewhere in it *)
Fixpoint occurs (kw s : string) : bool :=
  String.prefix kw s || match s with EmptyString => false | String _ s' => occurs kw s' end.
(* any(keyword in attr_name for keyword in ignore_keywords), utils.py:5 and 37; None cannot be iterated over *)
Definition ignored (kws : option (list string)) (s : string) : res bool :=
  match kws with None => Raise TypeError | Some l => Ok (existsb (fun kw => occurs kw s) l) end.
(* params[k] = v: an old key keeps its place *)
Fixpoint put {A} (d : list (string * A)) (k : string) (v : A) : list (string * A) :=
  match d with
  | [] => [(k, v)]
  | (k', v') :: d' => if String.eqb k' k then (k', v) :: d' else (k', v') :: put d' k v
  end.
(* params.update(other) *)
Definition update {A} (d other : list (string * A)) : list (string * A) := fold_left (fun d kv => put d (fst kv) (snd kv)) other d.

(* get_params, utils.py:1-20 *)
Fixpoint get_params (kws : option (list string)) (prefix : string) (v : value) {struct v} : res (list (string * nat)) :=
  match v with
  | Plain _ => Raise AttributeError                       (* obj.__dict__, 4 *)
  | Obj _ attrs =>
      (fix go (attrs : list (string * value)) (params : list (string * nat)) : res (list (string * nat)) :=
         match attrs with
         | [] => Ok params
         | (name, x) :: rest =>
             let? skip := ignored kws name in              (* 5 *)
             if skip then go rest params
             else match x with
                  | Plain n => go rest (put params (prefix ++ name) n)                 (* 18 *)
                  | Obj _ _ =>                                                         (* 8-16 *)
                      let? inner := get_params kws (prefix ++ name ++ "__") x in
                      go rest (update params inner)
                  end
         end) attrs []
  end.

(* utils.py:24-33 *)
Definition score_keywords : list string :=
  ["rule_discovery_seeds_"; "solution_composition_seeds_"; "elitist___pool"; "pool_"; "random_state_";
   "elitist___mixing__filter_subpopulation__random_state"; "elitist___genome"; "solution_composition__init__mixing__filter_subpopulation__random_state"].
(* What cross_validate returns: arrays of numbers, and the estimators under "estimator" *)
Inductive score : Type := Numbers (n : nat) | Estimators (l : list value).
(* log_scores, utils.py:23-41: the printed lines *)
Definition score_lines (key : string) (s : score) : res (list (string * nat)) :=
  if String.eqb key "estimator" then
    match s with
    | Estimators (v :: _) =>
        let? params := get_params (Some score_keywords) "" v in
        Ok (filter (fun kv => negb (existsb (fun kw => occurs kw (fst kv)) score_keywords)) params)
    | Estimators [] => Raise IndexError
    | Numbers _ => Raise NotModelled       (* cross_validate does not do that *)
    end
  else match s with Numbers n => Ok [(key, n)] | Estimators _ => Raise NotModelled end.
Fixpoint log_scores (scores : list (string * score)) : res (list (string * nat)) :=
  match scores with
  | [] => Ok []
  | (k, s) :: rest => let? now := score_lines k s in let? later := log_scores rest in Ok (now ++ later)%list
  end.
