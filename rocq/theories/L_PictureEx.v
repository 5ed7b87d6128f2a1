(* The same solutions at other addresses. *)
From Verif Require Import PyNum PyList PyMon PyRng M_Matching M_Rule M_Mixing M_GenomeOps M_Solution M_Composition M_GA S_Solution S_Cold L_RuleProps L_HeapProps L_GenomeProps L_Shipped L_ColdEx.

Definition pic_env : env mean_learner := count_env by_count1.
Definition pic_heap : hst plain := run_ops [HNew [true; false]; HNew [false; false]; HFit 0 pic_env; HFit 1 pic_env] (mkH [] [] a_tape).
(* another solution in front, the order reversed *)
Definition pic_other : hst plain := run_ops [HNew [true; true]; HNew [false; false]; HNew [true; false]; HFit 0 pic_env; HFit 1 pic_env; HFit 2 pic_env] (mkH [] [] a_tape).
Definition pic_ga : gcfg := mkG 1 2 0 SelRandom Uniform 1 (1#10).
Definition pic_comp (pop : list nat) : comp (ga pic_ga) := mkComp (O := ga pic_ga) pop [] tt.
Definition pic_cc : ccfg := mkCcfg (RandomInit (1#2)) true false.
(* no generation is bred *)
Definition still_ga : gcfg := mkG 0 2 0 SelRandom Uniform 1 (1#10).
Definition still_comp (pop : list nat) : comp (ga still_ga) := mkComp (O := ga still_ga) pop [] tt.
Definition twins : hst plain := run_ops [HNew [true; false]; HNew [true; false]; HFit 0 pic_env; HFit 1 pic_env] (mkH [] [] a_tape).
Definition pic_tape : rng := mkRng (fun i => match i with O => 9#10 | _ => 1#10 end) 0.
Lemma pictured : same_picture pic_heap pic_other [0%nat; 1%nat] [2%nat; 1%nat].
Proof.
  exists [(0, 2); (1, 1)]%nat, [(0, 2); (1, 1)]%nat. split; [|split; [|split; [|split]]].
  - intros a a' b b' [H|[H|[]]] [J|[J|[]]]; injection H as <- <-; injection J as <- <-; split; congruence.
  - intros a a' b b' [H|[H|[]]] [J|[J|[]]]; injection H as <- <-; injection J as <- <-; split; congruence.
  - constructor; [left; reflexivity|]. constructor; [right; left; reflexivity|constructor].
  - intros r r' [H|[H|[]]]; injection H as <- <-; vm_compute; do 2 eexists; (split; [reflexivity|]); (split; [reflexivity|]); cbn; auto.
  - intros r r' [H|[H|[]]]; injection H as <- <-; eexists; split; vm_compute; reflexivity.
Qed.
