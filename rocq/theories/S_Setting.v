(* Specification vocabulary for set_params. *)
From Coq Require Import String.
From Verif Require Import PyNum PyList PyMon M_Objects.

Section Setting.
Variables (classes : string -> classinfo) (builtins : atom -> list string).
(* following parameters, every one of which the component has *)
Inductive reaches (h : heap) : val -> list string -> val -> Prop :=
| Reaches_here v : reaches h v [] v
| Reaches_on v ns n u path w : param_names classes h v = Some ns -> In n ns -> getattr classes builtins h v n = Ok u -> reaches h u path w -> reaches h v (n :: path) w.
End Setting.
