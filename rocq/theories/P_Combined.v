(* C58: parameters and copies of combined loggers. *)
From Coq Require Import String Ascii.
From Verif Require Import PyNum PyList PyMon M_Objects M_Combined S_Combined L_Combined L_CombinedProps L_CombinedMany L_CombinedEx.

(* get_params shows the list of members, every member under its name, and every parameter of a member under name__parameter,
   to any depth, and nothing else *)
Theorem C58_lists_parameters : forall h v fuel out, orderly h -> get_params fuel h v = Ok out ->
  forall key w, item out key = Some w <-> listed h v key w.
Proof. intros h v fuel out O G. exact (get_lists h O fuel v out G). Qed.
Print Assumptions C58_lists_parameters.
Example C58_lists_satisfiable : orderly screen /\ exists out, get_params 3 screen (Ref 3) = Ok out /\
  item out "inner__screen__progress_bar" = Some (One (Prim (ABool false))) /\ item out "inner__history" = Some (One (Ref 1)) /\ item out "off__x" = None.
Proof. split; [exact screen_orderly|]. eexists. split; [reflexivity|]. repeat split. Qed.

(* set_params changes exactly the parameter the key names, or replaces exactly the member it names *)
Theorem C58_sets_exactly : forall h v key q n x fuel out, orderly h -> leads h v key q n -> suits h q x -> get_params fuel h v = Ok out ->
  exists h', set_params fuel v [(key, One x)] h = (Ok tt, h') /\ reassigned h h' q n x.
Proof. exact sets_exactly. Qed.
Print Assumptions C58_sets_exactly.
Example C58_sets_satisfiable : orderly screen /\ leads screen (Ref 3) "inner__screen__progress_bar" 0 "progress_bar" /\ suits screen 0 (Prim (ABool true)) /\
  exists out, get_params 3 screen (Ref 3) = Ok out.
Proof. split; [exact screen_orderly|]. split; [exact screen_leads|]. split; [exact screen_suits|]. now eexists. Qed.

(* several keywords at once: exactly the parameters they name are changed, each to the value given *)
Theorem C58_sets_several : forall h v ks fuel out, orderly h -> Forall (names_parameter h v) ks -> NoDup (map fst ks) -> NoDup (map target ks) -> get_params fuel h v = Ok out ->
  exists h', set_params fuel v (map given_as ks) h = (Ok tt, h') /\ parameters_set h h' ks.
Proof. exact sets_several. Qed.
Print Assumptions C58_sets_several.
Example C58_several_satisfiable : orderly four /\ Forall (names_parameter four (Ref 2)) four_keywords /\ NoDup (map fst four_keywords) /\ NoDup (map target four_keywords) /\
  exists out, get_params 2 four (Ref 2) = Ok out.
Proof. split; [exact four_orderly|]. split; [exact four_names|]. split; [exact (proj1 four_distinct)|]. split; [exact (proj2 four_distinct)|]. now eexists. Qed.

(* and get_params shows the new value afterwards *)
Theorem C58_reads_back : forall h v key q n x fuel out h' fuel' out', orderly h -> leads h v key q n -> suits h q x -> get_params fuel h v = Ok out ->
  set_params fuel v [(key, One x)] h = (Ok tt, h') -> get_params fuel' h' v = Ok out' -> item out' key = Some (One x).
Proof. exact reads_back. Qed.
Print Assumptions C58_reads_back.
Example C58_reads_satisfiable : exists h' out', set_params 3 (Ref 3) [("inner__screen__progress_bar"%string, One (Prim (ABool true)))] screen = (Ok tt, h') /\
  get_params 3 h' (Ref 3) = Ok out' /\ item out' "bar__progress_bar" = Some (One (Prim (ABool true))).
Proof. do 2 eexists. split; [vm_compute; reflexivity|]. split; [vm_compute; reflexivity|]. reflexivity. Qed.

(* a key that get_params does not show is refused, and nothing has changed *)
Theorem C58_unknown_refused : forall h fuel v key w, orderly h -> (forall u, ~ listed h v key u) -> exists e, set_params fuel v [(key, w)] h = (Raise e, h).
Proof. intros h fuel v key w O U. exact (unknown_refused h O fuel v key w U). Qed.
Print Assumptions C58_unknown_refused.
Example C58_unknown_satisfiable : orderly screen /\ (forall u, ~ listed screen (Ref 3) "inner__bar" u) /\
  set_params 3 (Ref 3) [("inner__bar"%string, One (Ref 0))] screen = (Raise ValueError, screen).
Proof. split; [exact screen_orderly|]. split; [exact screen_unknown|]. reflexivity. Qed.

(* logging works on copies: new loggers with the same names and plain parameters; the configured ones stay as they are *)
Theorem C58_logging_on_copies : forall fuel ms h b ms' h', closed h -> (forall n v, In (n, v) ms -> within h v) -> log_init fuel ms h = (Ok (b, ms'), h') ->
  (exists l, h' = h ++ l) /\ map fst ms' = map fst ms /\
  forall n v', In (n, v') ms' -> exists v, In (n, v) ms /\ (forall p, v' = Ref p -> (length h <= p)%nat) /\
    forall key a, listed h' v' key (One (Prim a)) <-> listed h v key (One (Prim a)).
Proof. intros fuel ms h b ms' h' C W E. exact (proj2 (init_copies fuel ms h b ms' h' C W E)). Qed.
Print Assumptions C58_logging_on_copies.
Example C58_copies_satisfiable : closed screen /\ exists b ms' h', log_init 3 [("both"%string, Ref 2); ("bar"%string, Ref 0)] screen = (Ok (b, ms'), h') /\ length h' = 8%nat.
Proof. split; [exact screen_closed|]. do 3 eexists. split; vm_compute; reflexivity. Qed.

(* with two members of one name, the first is replaced and the second is shown *)
Theorem C58_duplicate_names_refuted : exists h p ms n v out h' out', nth_error h p = Some (Combined ms) /\ In n (map fst ms) /\ get_params 2 h (Ref p) = Ok out /\
  set_params 2 (Ref p) [(n, One v)] h = (Ok tt, h') /\ get_params 2 h' (Ref p) = Ok out' /\ item out' n = item out n /\ item out n <> Some (One v).
Proof.
  exists twins, 2%nat, [("bar"%string, Ref 0); ("bar"%string, Ref 1)], "bar"%string, (Ref 3). do 3 eexists.
  split; [reflexivity|]. split; [now left|]. split; [vm_compute; reflexivity|]. split; [vm_compute; reflexivity|]. split; [vm_compute; reflexivity|]. split; [reflexivity|discriminate].
Qed.
Print Assumptions C58_duplicate_names_refuted.

(* a parameter of a member whose name ends in "_" is shown, and refused when it is set *)
Theorem C58_underscore_refuted : exists h p key a b out, get_params 2 h (Ref p) = Ok out /\ item out key = Some (One (Prim a)) /\
  set_params 2 (Ref p) [(key, One (Prim b))] h = (Raise ValueError, h).
Proof. exists trailing, 1%nat, "bar___progress_bar"%string, (ABool false), (ABool true). eexists. split; [vm_compute; reflexivity|]. split; reflexivity. Qed.
Print Assumptions C58_underscore_refuted.

(* a call with several keys, one of which is refused, has already replaced a member *)
Theorem C58_refused_call_changes_refuted : exists h p ps e h', orderly h /\ set_params 3 (Ref p) ps h = (Raise e, h') /\ h' <> h.
Proof.
  exists screen, 2%nat, [("screen"%string, One (Ref 1)); ("unknown"%string, One (Prim ANone))]. do 2 eexists.
  split; [exact screen_orderly|]. split; [vm_compute; reflexivity|discriminate].
Qed.
Print Assumptions C58_refused_call_changes_refuted.

(* a combined logger inside a combined one is not warned about *)
Theorem C58_nesting_unnoticed_refuted : exists h ms n p inner ms' h', In (n, Ref p) ms /\ nth_error h p = Some (Combined inner) /\ log_init 3 ms h = (Ok (false, ms'), h').
Proof. exists screen, [("inner"%string, Ref 2)], "inner"%string, 2%nat. do 3 eexists. split; [now left|]. split; [reflexivity|]. vm_compute. reflexivity. Qed.
Print Assumptions C58_nesting_unnoticed_refuted.

(* one logger under two names: keywords are applied member by member, so the last one given need not be the one that counts *)
Theorem C58_shared_order_refuted : exists h v ks key w h' out', set_params 2 v (ks ++ [(key, One (Prim w))]) h = (Ok tt, h') /\ get_params 2 h' v = Ok out' /\ item out' key <> Some (One (Prim w)).
Proof.
  exists shared, (Ref 1), [("x__q"%string, One (Prim (ABool true))); ("y__p"%string, One (Prim (ABool false)))], "x__p"%string, (ABool true). do 2 eexists.
  split; [vm_compute; reflexivity|]. split; [vm_compute; reflexivity|]. vm_compute. discriminate.
Qed.
Print Assumptions C58_shared_order_refuted.
