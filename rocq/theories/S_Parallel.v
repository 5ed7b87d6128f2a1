(* Vocabulary for parallel runs. *)
From Verif Require Import PyNum PyList PyMon PyRng M_RuleGen M_Discovery M_Parallel.

(* the mutation object as it was configured: its sigma is the one in the configuration; SigmaRange may have left any sigma *)
Definition as_configured (mu : rmutation) (s : sigma) : Prop :=
  match mu with Mut mu => with_sigma mu s = mu | MutRange _ _ _ => True end.
(* the ways joblib runs the tasks: one after the other, or in worker processes, in batches, in any order *)
Inductive jobs {A} (s : sigma) : (list (proc sigma A) -> option (res (list A))) -> Prop :=
| One_job : jobs s (in_sequence s)
| Many_jobs sizes schedule : jobs s (in_processes sizes schedule s).
