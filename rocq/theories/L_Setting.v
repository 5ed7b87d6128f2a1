(* set_params sets the named parameter and nothing else (C62). *)
From Coq Require Import String.
From Verif Require Import PyNum PyList PyMon M_Objects S_Objects S_Setting L_Params L_Objects L_Wrapper.
Open Scope string_scope.

Section Setting.
Variables (classes : string -> classinfo) (builtins : atom -> list string).
Notation set_params := (set_params classes builtins).
Notation setattr := (setattr classes builtins).
Notation getattr := (getattr classes builtins).
Lemma not_in_existsb n ns : ~ In n ns -> existsb (String.eqb n) ns = false.
Proof. intros H. destruct (existsb _ _) eqn:E; auto. apply existsb_exists in E as (m & HI & EM). apply String.eqb_eq in EM. congruence. Qed.
Lemma set_params_step v n w h ns : param_names classes h v = Some ns -> In n ns -> set_params v [n] w h = setattr v n w h.
Proof. intros HP HI. cbn [M_Objects.set_params]. unfold bind at 1, get. unfold bind at 1, lift. rewrite HP. cbn [of_option]. rewrite existsb_In by exact HI. reflexivity. Qed.
Lemma set_params_deep v n m rest w h ns u : param_names classes h v = Some ns -> In n ns -> getattr h v n = Ok u -> set_params v (n :: m :: rest) w h = set_params u (m :: rest) w h.
Proof.
  intros HP HI HG. change (set_params v (n :: m :: rest) w) with (let* h := get in let* ns := lift (of_option AttributeError (param_names classes h v)) in
    if negb (existsb (String.eqb n) ns) then raise ValueError else let* c := lift (getattr h v n) in set_params c (m :: rest) w).
  unfold bind at 1, get. unfold bind at 1, lift. rewrite HP. cbn [of_option]. rewrite existsb_In by exact HI. cbn [negb]. unfold bind at 1. rewrite HG. reflexivity.
Qed.
Lemma set_params_reaches h v path u : reaches classes builtins h v path u -> forall n rest w, set_params v (path ++ n :: rest)%list w h = set_params u (n :: rest) w h.
Proof.
  induction 1 as [v|v ns n u path w HP HI HG HR IH]; intros m rest x; [reflexivity|]. cbn [app].
  assert (E : exists k r, (path ++ m :: rest)%list = k :: r) by (destruct path; cbn; eauto). destruct E as (k & r & E). rewrite E, (set_params_deep _ _ _ _ _ _ _ _ HP HI HG), <- E. apply IH.
Qed.
Lemma sets_named h v path p ns n w : reaches classes builtins h v path (Ref p) -> param_names classes h (Ref p) = Some ns -> In n ns -> n <> "matching_type" ->
  exists h', set_params v (path ++ [n])%list w h = (Ok tt, h') /\ stored h' p n = Some w /\ changed_only (fun q m => q = p /\ m = n) h h'.
Proof.
  intros HR HP HI HN. rewrite (set_params_reaches _ _ _ _ HR), (set_params_step _ _ _ _ _ HP HI). cbn in HP. destruct (nth_error h p) as [o|] eqn:EO; [|discriminate HP].
  exists (write h p n w). split; [apply (setattr_plain _ _ _ _ _ _ _ EO); apply String.eqb_neq; exact HN|]. split; [|apply write_changed].
  rewrite write_stored, Nat.eqb_refl, String.eqb_refl. cbn [andb]. assert (HX : Nat.ltb p (length h) = true) by (apply Nat.ltb_lt, nth_error_Some; congruence). rewrite HX. reflexivity.
Qed.
Lemma unknown_refused h v path u ns n rest w : reaches classes builtins h v path u -> param_names classes h u = Some ns -> ~ In n ns -> set_params v (path ++ n :: rest)%list w h = (Raise ValueError, h).
Proof.
  intros HR HP HI. rewrite (set_params_reaches _ _ _ _ HR). cbn [M_Objects.set_params]. unfold bind at 1, get. unfold bind at 1, lift. rewrite HP. cbn [of_option]. rewrite not_in_existsb by exact HI. reflexivity.
Qed.
Lemma not_component h v path u n rest w : reaches classes builtins h v path u -> param_names classes h u = None -> set_params v (path ++ n :: rest)%list w h = (Raise AttributeError, h).
Proof. intros HR HP. rewrite (set_params_reaches _ _ _ _ HR). cbn [M_Objects.set_params]. unfold bind at 1, get. unfold bind at 1, lift. rewrite HP. reflexivity. Qed.
End Setting.
