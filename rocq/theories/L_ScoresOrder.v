(* The order in which parameters are listed. *)
From Coq Require Import String.
From Verif Require Import PyNum PyList PyMon M_Scores S_Scores L_Scores.
Local Open Scope string_scope.

Lemma put_new {A} (d : list (string * A)) k v : ~ In k (map fst d) -> put d k v = (d ++ [(k, v)])%list.
Proof. induction d as [|[k0 v0] d IH]; cbn; intros H; [reflexivity|]. destruct (String.eqb_spec k0 k) as [->|N]; [tauto|]. rewrite IH; [reflexivity|tauto]. Qed.
Lemma update_new {A} (o d : list (string * A)) : NoDup (map fst (d ++ o)) -> update d o = (d ++ o)%list.
Proof.
  unfold update. revert d. induction o as [|[k v] o IH]; cbn [fold_left fst snd]; intros d H; [rewrite app_nil_r; reflexivity|].
  assert (HN : ~ In k (map fst d)). { rewrite map_app in H. cbn in H. apply NoDup_remove_2 in H. intros HI. apply H. apply in_or_app. left. exact HI. }
  rewrite (put_new d k v HN), IH; rewrite <- app_assoc; [reflexivity|exact H].
Qed.
Section Order.
Variables (kws : list string) (vis : string -> bool).
Hypothesis HV : forall a, vis a = true <-> ~ hidden kws a.
Definition named (prefix : string) (l : list string * nat) : string * nat := (prefix ++ joined (fst l), snd l).
Definition shown (l : list string * nat) : bool := forallb vis (fst l).
Definition expected (prefix : string) (v : value) : list (string * nat) := map (named prefix) (filter shown (leaves v)).
Definition expected_all (prefix : string) (attrs : list (string * value)) : list (string * nat) := expected prefix (below attrs).
Lemma expected_cons prefix name x attrs : expected_all prefix ((name, x) :: attrs) = (expected_all prefix [(name, x)] ++ expected_all prefix attrs)%list.
Proof. unfold expected_all, expected, below. cbn [leaves flat_map fst snd]. rewrite app_nil_r, filter_app, map_app. reflexivity. Qed.
Lemma ignored_is name : ignored (Some kws) name = Ok (negb (vis name)).
Proof.
  unfold ignored. f_equal. destruct (existsb (fun kw => occurs kw name) kws) eqn:E.
  - apply hidden_iff in E. destruct (vis name) eqn:Ev; [apply HV in Ev; contradiction|reflexivity].
  - destruct (vis name) eqn:Ev; [reflexivity|]. exfalso. assert (HN : ~ hidden kws name) by (rewrite <- hidden_iff, E; discriminate). apply HV in HN. congruence.
Qed.
Lemma expected_hidden prefix name x : vis name = false -> expected_all prefix [(name, x)] = [].
Proof.
  intros H. unfold expected_all, expected, below. cbn [leaves flat_map fst snd]. rewrite app_nil_r. induction (leaves x) as [|l ls IH]; [reflexivity|]. cbn [map filter]. unfold shown at 1. cbn [fst forallb]. rewrite H. cbn [andb]. exact IH.
Qed.
Lemma leaves_nonempty c attrs l : In l (leaves (Obj c attrs)) -> fst l <> [].
Proof. cbn. intros H. apply in_flat_map in H as (a & _ & H). apply in_map_iff in H as (b & <- & _). discriminate. Qed.
Lemma expected_obj prefix name c l : vis name = true -> expected_all prefix [(name, Obj c l)] = expected (prefix ++ name ++ "__") (Obj c l).
Proof.
  intros H. unfold expected_all, expected, below. change (leaves (Obj "" [(name, Obj c l)])) with (map (fun z => (name :: fst z, snd z)) (leaves (Obj c l)) ++ [])%list. rewrite app_nil_r.
  assert (HN : Forall (fun z => fst z <> []) (leaves (Obj c l))) by (apply Forall_forall; intros z; apply leaves_nonempty).
  induction HN as [|z ls Hz HN IH]; [reflexivity|]. cbn [map filter]. change (shown (name :: fst z, snd z)) with (vis name && shown z)%bool. rewrite H. cbn [andb]. destruct (shown z); [|exact IH]. cbn [map]. rewrite IH. f_equal.
  unfold named. cbn [fst snd]. rewrite (joined_cons name (fst z) Hz), !app_assoc_s. reflexivity.
Qed.
Lemma nodup_left {A} (a b : list A) : NoDup (a ++ b) -> NoDup a.
Proof. induction a as [|x a IH]; [constructor|]. cbn. intros H. apply NoDup_cons_iff in H as [H1 H2]. constructor; [|auto]. intros HI. apply H1. apply in_or_app. auto. Qed.
Lemma nodup_right {A} (a b : list A) : NoDup (a ++ b) -> NoDup b.
Proof. induction a as [|x a IH]; [auto|]. cbn. intros H. apply NoDup_cons_iff in H as [_ H]. auto. Qed.
Lemma collect_order prefix attrs : Forall (fun x => match snd x with Plain _ => True | Obj _ _ => forall pre, NoDup (map fst (expected pre (snd x))) -> get_params (Some kws) pre (snd x) = Ok (expected pre (snd x)) end) attrs ->
  forall params, NoDup (map fst (params ++ expected_all prefix attrs)) -> collect (Some kws) prefix attrs params = Ok (params ++ expected_all prefix attrs)%list.
Proof.
  induction 1 as [|[name x] attrs Hx HA IH]; intros params HN; cbn [collect].
  { change (expected_all prefix []) with (@nil (string * nat)). rewrite app_nil_r. reflexivity. }
  rewrite ignored_is. cbn [rbind]. rewrite (expected_cons prefix name x attrs) in HN |- *. destruct (vis name) eqn:Ev; cbn [negb].
  - destruct x as [m|c l].
    + assert (E1 : expected_all prefix [(name, Plain m)] = [(prefix ++ name, m)]) by (unfold expected_all, expected, below; cbn [leaves flat_map map app filter fst snd]; change (shown ([name], m)) with (vis name && true)%bool; rewrite Ev; reflexivity).
      rewrite E1 in HN |- *. assert (HK : ~ In (prefix ++ name) (map fst params)).
      { rewrite map_app in HN. cbn [map fst app] in HN. apply NoDup_remove_2 in HN. intros HI. apply HN. apply in_or_app. left. exact HI. }
      rewrite (put_new _ _ _ HK), IH; rewrite <- app_assoc; [reflexivity|exact HN].
    + rewrite (expected_obj prefix name c l Ev) in HN |- *. cbn [snd] in Hx.
      assert (HN2 : NoDup (map fst (params ++ expected (prefix ++ name ++ "__") (Obj c l)))) by (rewrite app_assoc, map_app in HN; apply nodup_left in HN; exact HN).
      rewrite Hx; [|rewrite map_app in HN2; apply nodup_right in HN2; exact HN2]. cbn [rbind]. rewrite (update_new _ _ HN2), IH; rewrite <- app_assoc; [reflexivity|exact HN].
  - rewrite (expected_hidden prefix name x Ev) in HN |- *. apply IH. exact HN.
Qed.
Lemma params_order v : match v with Plain _ => True | Obj _ _ => forall pre, NoDup (map fst (expected pre v)) -> get_params (Some kws) pre v = Ok (expected pre v) end.
Proof. induction v as [n|c l IH] using value_nested; [exact I|]. intros pre HN. rewrite get_params_obj. exact (collect_order pre l IH [] HN). Qed.
End Order.
Lemma params_listed kws vis c attrs : (forall a, vis a = true <-> ~ hidden kws a) ->
  let ps := filter (fun l => forallb vis (fst l)) (leaves (Obj c attrs)) in NoDup (map (fun l => joined (fst l)) ps) -> get_params (Some kws) "" (Obj c attrs) = Ok (map printed_as ps).
Proof. intros HV ps HN. apply (params_order kws vis HV (Obj c attrs) ""). unfold expected. rewrite map_map. exact HN. Qed.
Lemma all_scores scores : Forall cross_validated scores -> exists parts, log_scores scores = Ok (concat parts) /\
  Forall2 (fun ks part => (fst ks = "estimator" -> score_lines (fst ks) (snd ks) = Ok part) /\ (fst ks <> "estimator" -> exists n, snd ks = Numbers n /\ part = [(fst ks, n)])) scores parts.
Proof.
  induction 1 as [|[k s] scores [H1 H2] HF (parts & E & HP)]; [exists []; split; [reflexivity|constructor]|]. cbn [fst snd] in *.
  assert (HS : exists part, score_lines k s = Ok part /\ (k <> "estimator" -> exists n, s = Numbers n /\ part = [(k, n)])).
  { destruct (String.eqb_spec k "estimator") as [->|N].
    - destruct (H1 eq_refl) as (c & attrs & rest & ->). unfold score_lines. change (String.eqb "estimator" "estimator") with true. destruct (params_of score_keywords c attrs) as (d & Ed & _). rewrite Ed. eexists. split; [reflexivity|congruence].
    - destruct (H2 N) as (n & ->). exists [(k, n)]. unfold score_lines. apply String.eqb_neq in N as N'. rewrite N'. split; [reflexivity|intros _; eauto]. }
  destruct HS as (part & E1 & E2). exists (part :: parts). split; [cbn [log_scores concat]; rewrite E1, E; reflexivity|]. constructor; [|exact HP]. split; [intros _; exact E1|exact E2].
Qed.
