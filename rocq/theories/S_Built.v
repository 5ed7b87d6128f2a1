(* Vocabulary: what the constructors of the components check and compute. *)
From Coq Require Import String.
From Verif Require Import PyNum PyList PyMon M_Objects M_Components S_Objects.
Local Open Scope string_scope.

Section World.
Variable classes : string -> classinfo.
Variable builtins : atom -> list string.
(* the component at x is reached from v through parameters *)
Inductive component_at (h : heap) : val -> list string -> nat -> Prop :=
| Component_here x ns : param_names classes h (Ref x) = Some ns -> component_at h (Ref x) [] x
| Component_in v ns n w key x : param_names classes h v = Some ns -> In n ns -> getattr classes builtins h v n = Ok w -> component_at h w key x -> component_at h v (n :: key) x.
End World.
(* the components a fit works with, apart from arrays and representations it hands out itself *)
Definition worked_with (h : heap) (s x : nat) : Prop := exists c key,
  (stored h s "rule_discovery_" = Some c \/ stored h s "solution_composition_" = Some c) /\ component_at shipped plain_values h c key x /\
  forall n, In n key -> ~ In n assigned /\ ends_with "bounds" n = false.
(* a number as Python compares it *)
Inductive numeric : val -> num -> Prop :=
| Numeric_int z : numeric (Prim (AInt z)) (Fin (inject_Z z))
| Numeric_bool (b : bool) : numeric (Prim (ABool b)) (Fin (if b then 1 else 0))
| Numeric_float x : numeric (Prim (AFloat x)) x.
Definition attribute (h : heap) (x : nat) (n : string) (v : val) : Prop := getattr shipped plain_values h (Ref x) n = Ok v.
