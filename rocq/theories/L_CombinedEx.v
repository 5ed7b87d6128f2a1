(* Combined loggers for examples. *)
From Coq Require Import String Ascii.
From Verif Require Import PyNum PyList PyMon M_Objects M_Combined S_Combined L_Combined L_CombinedProps.
Local Open Scope string_scope.

(* a progress bar, a history, both together, and that with the progress bar once more *)
Definition screen : loggers :=
  [Simple [("progress_bar", ABool false)]; Simple []; Combined [("screen", Ref 0); ("history", Ref 1)]; Combined [("inner", Ref 2); ("bar", Ref 0); ("off", Prim ANone)]].
Lemma plain_by n : partition (n ++ "_") = (n ++ "_", None) -> plain_name n.
Proof. intros E. exact (proj2 (partition_none _ _ E)). Qed.
Lemma unsplit_by n : partition n = (n, None) -> unsplit n.
Proof. intros E. exact (proj2 (partition_none _ _ E)). Qed.
Ltac named := repeat first [apply Forall_nil | apply Forall_cons; [first [apply plain_by; reflexivity | apply unsplit_by; reflexivity]|] ].
Ltac apart := repeat constructor; cbn; intros I; repeat destruct I as [I|I]; try discriminate I; try destruct I.
Lemma screen_orderly : orderly screen.
Proof.
  intros p o E. do 4 (destruct p as [|p]; [injection E as <-; cbn [well_named map fst]; repeat split; [apart|named|apart..]|]).
  destruct p; discriminate E.
Qed.
Lemma screen_closed : closed screen.
Proof.
  intros p o n v E I. do 4 (destruct p as [|p]; [injection E as <-; cbn in I; repeat destruct I as [[= <- <-]|I]; try destruct I; cbn; repeat constructor|]).
  destruct p; discriminate E.
Qed.
Lemma screen_leads : leads screen (Ref 3) "inner__screen__progress_bar" 0 "progress_bar".
Proof.
  apply (Leads_inner screen 3 [("inner", Ref 2); ("bar", Ref 0); ("off", Prim ANone)] "inner" (Ref 2) "screen__progress_bar"); [reflexivity|now left|].
  apply (Leads_inner screen 2 [("screen", Ref 0); ("history", Ref 1)] "screen" (Ref 0) "progress_bar"); [reflexivity|now left|].
  apply (Leads_here screen 0 (Simple [("progress_bar", ABool false)])); [reflexivity|now left].
Qed.
Lemma screen_suits : suits screen 0 (Prim (ABool true)).
Proof. intros ps _. now exists (ABool true). Qed.
Lemma screen_unknown : forall u, ~ listed screen (Ref 3) "inner__bar" u.
Proof.
  intros u L. assert (G : get_params 3 screen (Ref 3) = get_params 3 screen (Ref 3)) by reflexivity.
  destruct (get_params 3 screen (Ref 3)) as [out|e] eqn:E; [|discriminate E]. apply (get_lists screen screen_orderly _ _ _ E) in L.
  vm_compute in E. injection E as <-. vm_compute in L. discriminate L.
Qed.
(* two members with one name *)
Definition twins : loggers := [Simple [("progress_bar", ABool false)]; Simple [("progress_bar", ABool true)]; Combined [("bar", Ref 0); ("bar", Ref 1)]; Simple []].
(* a member whose name ends in "_" *)
Definition trailing : loggers := [Simple [("progress_bar", ABool false)]; Combined [("bar_", Ref 0)]].
(* two members with two parameters each *)
Definition four : loggers := [Simple [("a", ABool false); ("b", ABool false)]; Simple [("a", ABool false); ("b", ABool false)]; Combined [("x", Ref 0); ("y", Ref 1)]].
Definition four_keywords : list keyword := [("x__a", (0%nat, "a", ABool true)); ("y__b", (1%nat, "b", ABool true)); ("x__b", (0%nat, "b", ABool true))].
Lemma four_orderly : orderly four.
Proof.
  intros p o E. do 3 (destruct p as [|p]; [injection E as <-; cbn [well_named map fst]; repeat split; [apart|named|apart..]|]).
  destruct p; discriminate E.
Qed.
Lemma four_names : Forall (names_parameter four (Ref 2)) four_keywords.
Proof.
  repeat constructor; try (eexists; reflexivity); cbn [target fst snd].
  - apply (Leads_inner four 2 [("x", Ref 0); ("y", Ref 1)] "x" (Ref 0) "a"); [reflexivity|now left|].
    eapply (Leads_here four 0); [reflexivity|now left].
  - apply (Leads_inner four 2 [("x", Ref 0); ("y", Ref 1)] "y" (Ref 1) "b"); [reflexivity|right; now left|].
    eapply (Leads_here four 1); [reflexivity|right; now left].
  - apply (Leads_inner four 2 [("x", Ref 0); ("y", Ref 1)] "x" (Ref 0) "b"); [reflexivity|now left|].
    eapply (Leads_here four 0); [reflexivity|right; now left].
Qed.
Lemma four_distinct : NoDup (map fst four_keywords) /\ NoDup (map target four_keywords).
Proof. split; apart. Qed.
(* one logger under two names *)
Definition shared : loggers := [Simple [("p", ABool false); ("q", ABool false)]; Combined [("x", Ref 0); ("y", Ref 0)]].
