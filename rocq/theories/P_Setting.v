(* What set_params sets: C62. *)
From Coq Require Import String.
From Verif Require Import PyNum PyList PyMon M_Objects M_Components S_Objects S_Setting L_Setting L_ObjectsEx.
Open Scope string_scope.

(* a key sets the parameter it names, of the component it leads to, and nothing else *)
Theorem C62_sets_named : forall classes builtins h v path p ns n w, reaches classes builtins h v path (Ref p) -> param_names classes h (Ref p) = Some ns -> In n ns -> n <> "matching_type" ->
  exists h', set_params classes builtins v (path ++ [n])%list w h = (Ok tt, h') /\ stored h' p n = Some w /\ changed_only (fun q m => q = p /\ m = n) h h'.
Proof. exact sets_named. Qed.
Print Assumptions C62_sets_named.
(* a name that is no parameter is refused, whether or not the component has such an attribute, and nothing changes *)
Theorem C62_unknown_refused : forall classes builtins h v path u ns n rest w, reaches classes builtins h v path u -> param_names classes h u = Some ns -> ~ In n ns ->
  set_params classes builtins v (path ++ n :: rest)%list w h = (Raise ValueError, h).
Proof. exact unknown_refused. Qed.
Print Assumptions C62_unknown_refused.
(* so is a key that goes on behind a value without parameters *)
Theorem C62_not_component : forall classes builtins h v path u n rest w, reaches classes builtins h v path u -> param_names classes h u = None ->
  set_params classes builtins v (path ++ n :: rest)%list w h = (Raise AttributeError, h).
Proof. exact not_component. Qed.
Print Assumptions C62_not_component.
Example C62_setting_satisfiable : reaches shipped plain_values config (Ref 0) ["solution_composition"; "selection"] (Ref 17) /\
  (exists ns, param_names shipped config (Ref 17) = Some ns /\ In "k" ns /\ ~ In "size" ns) /\ exists u, reaches shipped plain_values config (Ref 0) ["solution_composition"; "n_iter"] u /\ param_names shipped config u = None.
Proof.
  assert (H1 : exists ns, param_names shipped config (Ref 0) = Some ns /\ In "solution_composition" ns) by (eexists; split; [vm_compute; reflexivity|cbn; tauto]).
  assert (H2 : exists p, getattr shipped plain_values config (Ref 0) "solution_composition" = Ok (Ref p) /\ exists ns, param_names shipped config (Ref p) = Some ns /\ In "selection" ns /\ In "n_iter" ns /\
    getattr shipped plain_values config (Ref p) "selection" = Ok (Ref 17) /\ exists a, getattr shipped plain_values config (Ref p) "n_iter" = Ok (Prim a)).
  { eexists. split; [vm_compute; reflexivity|]. eexists. split; [vm_compute; reflexivity|]. split; [cbn; tauto|]. split; [cbn; tauto|]. split; [vm_compute; reflexivity|]. eexists. vm_compute. reflexivity. }
  destruct H1 as (ns & E1 & I1), H2 as (p & G1 & ns2 & E2 & I2 & I3 & G2 & a & G3). split; [|split].
  - eapply Reaches_on; eauto. eapply Reaches_on; eauto. constructor.
  - eexists. split; [vm_compute; reflexivity|]. split; [cbn; tauto|]. cbn. intuition discriminate.
  - exists (Prim a). split; [|reflexivity]. eapply Reaches_on; eauto. eapply Reaches_on; eauto. constructor.
Qed.
