(* A saved configuration, loaded again. *)
From Coq Require Import String Ascii.
From Verif Require Import PyNum PyList PyMon M_Json S_Objects S_Json L_List L_Text L_Forest L_Fold L_Json.
From Verif Require M_Objects.
Local Open Scope string_scope.
Local Open Scope list_scope.

Fixpoint tree_ind' (P : tree -> Prop) (HP : forall p, P (TPrim p)) (HN : P TNone) (HA : forall r, P (TArr r)) (HB : P TBlank)
  (HO : forall c ps, Forall (fun nu => P (snd nu)) ps -> P (TObj c ps)) (t : tree) : P t :=
  match t with
  | TPrim p => HP p | TNone => HN | TArr r => HA r | TBlank => HB
  | TObj c ps => HO c ps ((fix all (ps : list (string * tree)) : Forall (fun nu => P (snd nu)) ps :=
      match ps with [] => Forall_nil _ | nu :: ps' => Forall_cons _ (tree_ind' P HP HN HA HB HO (snd nu)) (all ps') end) ps)
  end.
Lemma list_eqb_eq a b : M_Objects.list_eqb String.eqb a b = true -> a = b.
Proof.
  revert b. induction a as [|x a IH]; intros [|y b] E; try discriminate E; [reflexivity|]. cbn in E. apply Bool.andb_true_iff in E as [E1 E2].
  apply String.eqb_eq in E1 as ->. now rewrite (IH b E2).
Qed.
Lemma distinct_nodup ns : distinct ns = true -> NoDup ns.
Proof.
  induction ns as [|n ns IH]; intros E; [constructor|]. cbn in E. apply Bool.andb_true_iff in E as [E1 E2]. constructor; [|auto].
  intros I. apply Bool.negb_true_iff in E1. assert (C : existsb (String.eqb n) ns = true) by (apply existsb_exists; exists n; split; [exact I|apply String.eqb_refl]). congruence.
Qed.

Section Classes.
Variable classes : string -> option cinfo.
Notation parametrised := (parametrised classes).
Notation orderly := (orderly classes).
Notation peval := (peval classes).
Notation fval := (fval classes).
Notation forget := (forget classes).
Notation forget_all := (forget_all classes).
Notation again := (again classes).

(* ----- what is written ----- *)
Fixpoint p_of (t : tree) : ptree :=
  match t with
  | TObj c ps =>
      if has_params classes c then
        match ps with
        | [] => Done (encode t)
        | _ => Open c ((fix go (ps : list (string * tree)) := match ps with [] => [] | (n, u) :: ps' => (n, p_of u) :: go ps' end) ps)
        end
      else Done (encode t)
  | _ => Done (encode t)
  end.
Definition ps_of (ps : list (string * tree)) : forest := map (fun nu => (fst nu, p_of (snd nu))) ps.
Lemma ps_of_go ps : (fix go (ps : list (string * tree)) := match ps with [] => [] | (n, u) :: ps' => (n, p_of u) :: go ps' end) ps = ps_of ps.
Proof. induction ps as [|[n u] ps IH]; [reflexivity|]. cbn [ps_of map fst snd]. now rewrite IH. Qed.
Lemma p_of_obj c ps : parametrised (TObj c ps) = true -> p_of (TObj c ps) = Open c (ps_of ps).
Proof.
  cbn [S_Json.parametrised p_of]. intros E. apply Bool.andb_true_iff in E as [-> E]. destruct ps as [|[n u] ps]; [discriminate E|]. f_equal. exact (ps_of_go ((n, u) :: ps)).
Qed.
Lemma p_of_leaf t : parametrised t = false -> p_of t = Done (encode t).
Proof.
  destruct t as [| | | |c ps]; try reflexivity. cbn [S_Json.parametrised p_of]. destruct (has_params classes c); [|reflexivity]. destruct ps; [reflexivity|discriminate].
Qed.
Lemma ps_names ps : map fst (ps_of ps) = map fst ps.
Proof. unfold ps_of. now rewrite map_map. Qed.
Lemma orderly_obj c ps : parametrised (TObj c ps) = true -> orderly (TObj c ps) = true ->
  exists i, classes c = Some i /\ component i = true /\ M_Objects.contains "." c = true /\ as_declared i ps = true /\ Forall (fun n => plain n = true) (map fst ps) /\
    NoDup (map fst ps) /\ no_clash classes ps = true /\ Forall (fun nu => orderly (snd nu) = true) ps.
Proof.
  intros P O. cbn [S_Json.parametrised S_Json.orderly] in *. unfold has_params in P. apply Bool.andb_true_iff in O as [D O]. apply Bool.andb_true_iff in D as [D _].
  destruct (classes c) as [i|]; [|discriminate O]. apply Bool.andb_true_iff in P as [C _]. rewrite C in O. cbn [negb orb] in O.
  apply Bool.andb_true_iff in O as [O O5]. apply Bool.andb_true_iff in O as [O O4]. apply Bool.andb_true_iff in O as [O O3]. apply Bool.andb_true_iff in O as [O1 O2].
  exists i. repeat split; try assumption.
  - apply Forall_forall. rewrite forallb_forall in O2. exact O2.
  - now apply distinct_nodup.
  - clear - O5. induction ps as [|[n u] ps IH]; [constructor|]. apply Bool.andb_true_iff in O5 as [E1 E2]. constructor; [exact E1|exact (IH E2)].
Qed.
Lemma no_clash_good ps : Forall (fun n => plain n = true) (map fst ps) -> NoDup (map fst ps) -> no_clash classes ps = true -> good (ps_of ps).
Proof.
  intros P N C. unfold good. rewrite ps_names. split; [exact P|]. split; [exact N|]. intros n c qs m I Im [r ->].
  unfold ps_of in I. apply in_map_iff in I as ([n' u] & E & I). cbn [fst snd] in E. injection E as -> Eu.
  unfold no_clash in C. rewrite forallb_forall in C. specialize (C _ I). cbn [fst snd] in C.
  destruct (parametrised u) eqn:Pu; [|rewrite (p_of_leaf u Pu) in Eu; discriminate Eu]. cbn [negb orb] in C. rewrite forallb_forall in C. specialize (C _ Im).
  assert (Pr : String.prefix n (n ++ r) = true) by (apply prefix_app; now exists r). rewrite Pr in C. cbn [negb orb] in C. now apply String.eqb_eq in C as <-.
Qed.
Lemma orderly_pwf t : orderly t = true -> pwf (p_of t).
Proof.
  induction t as [p| | | |c ps IH] using tree_ind'; intros O; try constructor.
  destruct (parametrised (TObj c ps)) eqn:P; [|rewrite (p_of_leaf _ P); constructor]. rewrite (p_of_obj c ps P).
  destruct (orderly_obj c ps P O) as (i & _ & _ & D & _ & Pl & N & C & A). constructor.
  - exact D.
  - cbn [S_Json.parametrised] in P. apply Bool.andb_true_iff in P as [_ P]. destruct ps; [discriminate P|discriminate].
  - now apply no_clash_good.
  - unfold ps_of. rewrite Forall_map. cbn [snd]. clear - IH A. induction IH as [|[n u] ps Hu _ IHp]; [constructor|]. inversion A; subst. constructor; auto.
Qed.
Definition unlogged {V} (l : list (string * V)) : list (string * V) := filter (fun kv => negb (String.prefix "logger" (fst kv))) l.
Lemma get_params_entries t : orderly t = true -> parametrised t = true ->
  map (fun kv => (fst kv, encode (snd kv))) (get_params classes t) = map named (entries (p_of t)).
Proof.
  induction t as [p| | | |c ps IH] using tree_ind'; intros O P; try discriminate P.
  rewrite (p_of_obj c ps P), entries_open. destruct (orderly_obj c ps P O) as (i & Ei & Ci & D & _ & Pl & N & _ & A).
  cbn [get_params]. unfold has_params. rewrite Ei, Ci. clear - IH A. 
  induction IH as [|[n u] ps Hu _ IHp]; [reflexivity|]. inversion A as [|? ? Au A']; subst. cbn [snd] in *. cbn [ps_of map fent fst snd].
  rewrite !map_app. cbn [map fst snd]. rewrite (IHp A'). f_equal.
  - rewrite !map_map. cbn [named under fst snd]. destruct (parametrised u) eqn:Pu.
    + specialize (Hu Au eq_refl). 
      transitivity (map (fun kv => ((n ++ "__" ++ fst kv)%string, snd kv)) (map (fun kv => (fst kv, encode (snd kv))) (get_params classes u))); [now rewrite map_map|].
      rewrite Hu, map_map. apply map_ext_in. intros e I. unfold named, under. cbn [fst snd]. rewrite join_cons; [reflexivity|].
      destruct u as [| | | |c' qs]; try discriminate Pu. rewrite (p_of_obj c' qs Pu), entries_open in I. exact (fent_nonempty _ _ I).
    + rewrite (p_of_leaf u Pu). cbn [entries map]. destruct u as [| | | |c' qs]; try reflexivity. cbn [S_Json.parametrised get_params] in *.
      destruct (has_params classes c'); [|reflexivity]. destruct qs; [reflexivity|discriminate Pu].
  - f_equal. unfold named. cbn [fst snd join]. f_equal. destruct (parametrised u) eqn:Pu; [|now rewrite (p_of_leaf u Pu)].
    destruct u as [| | | |c' qs]; try discriminate Pu. rewrite (p_of_obj c' qs Pu). cbn [head encode].
    destruct (orderly_obj c' qs Pu Au) as (? & _ & _ & D' & _). unfold class_name. now rewrite D'.
Qed.
Lemma prefix_logger n p : String.prefix "logger" (join (n :: p)) = String.prefix "logger" n.
Proof.
  destruct p as [|m p]; [reflexivity|]. rewrite join_cons by discriminate. now apply prefix_sep.
Qed.
Lemma unlogged_entries ps : unlogged (map named (fent ps)) = map named (fent (unlogged ps)).
Proof.
  unfold unlogged. induction ps as [|[n u] ps IH]; [reflexivity|]. cbn [fent filter fst]. rewrite map_app, filter_app. cbn [map filter]. rewrite IH.
  assert (E : forall e : list string * jv, String.prefix "logger" (fst (named (under n e))) = String.prefix "logger" n) by (intros e; cbn [named under fst]; apply prefix_logger).
  assert (E1 : String.prefix "logger" (fst (named ([n], head u))) = String.prefix "logger" n) by reflexivity. rewrite E1.
  destruct (String.prefix "logger" n) eqn:L; cbn [negb].
  - rewrite filter_none; [reflexivity|]. intros x I. rewrite map_map in I. apply in_map_iff in I as (e & <- & _). now rewrite E.
  - rewrite filter_all; [cbn [fent]; now rewrite map_app|]. intros x I. rewrite map_map in I. apply in_map_iff in I as (e & <- & _). now rewrite E.
Qed.
Lemma save_dict c ps : orderly (TObj c ps) = true -> parametrised (TObj c ps) = true -> save_config classes (TObj c ps) = dict (ps_of (unlogged ps)).
Proof.
  intros O P. unfold save_config.
  transitivity (unlogged (map (fun kv => (fst kv, encode (snd kv))) (get_params classes (TObj c ps)))).
  { unfold unlogged. now rewrite filter_map'. }
  rewrite (get_params_entries _ O P), (p_of_obj c ps P), entries_open, unlogged_entries. unfold dict. do 2 f_equal. unfold unlogged, ps_of. now rewrite filter_map'.
Qed.
Lemma unlogged_good ps : good (ps_of ps) -> good (ps_of (unlogged ps)).
Proof.
  assert (S : forall x, In x (ps_of (unlogged ps)) -> In x (ps_of ps)).
  { intros x I. unfold ps_of in *. apply in_map_iff in I as (y & <- & I). unfold unlogged in I. apply filter_In in I as [I _]. exact (in_map (fun nu => (fst nu, p_of (snd nu))) _ _ I). }
  assert (Sn : forall x, In x (map fst (ps_of (unlogged ps))) -> In x (map fst (ps_of ps))).
  { intros x I. apply in_map_iff in I as (y & <- & I). exact (in_map fst _ _ (S _ I)). }
  intros (P & N & C). split; [|split].
  - unfold plains in *. rewrite Forall_forall in *. auto.
  - rewrite ps_names in *. clear - N. unfold unlogged. induction ps as [|[n u] ps IH]; [constructor|]. cbn [map fst] in N. inversion N as [|? ? Nn N']; subst.
    cbn [filter fst]. destruct (negb _); [|auto]. cbn [map fst]. constructor; [|auto]. intros I. apply Nn. apply in_map_iff in I as (y & <- & I). apply filter_In in I as [I _]. now apply in_map.
  - intros n c qs m I Im R. exact (C n c qs m (S _ I) (Sn _ Im) R).
Qed.
Lemma saved_fwf c ps : orderly (TObj c ps) = true -> parametrised (TObj c ps) = true -> fwf (ps_of (unlogged ps)).
Proof.
  intros O P. destruct (orderly_obj c ps P O) as (i & _ & _ & _ & _ & Pl & N & C & A). split; [apply unlogged_good; now apply no_clash_good|].
  unfold ps_of. rewrite Forall_map. cbn [snd]. apply Forall_forall. intros x I. unfold unlogged in I. apply filter_In in I as [I _].
  rewrite Forall_forall in A. apply orderly_pwf. exact (A _ I).
Qed.
Lemma save_load c ps : orderly (TObj c ps) = true -> parametrised (TObj c ps) = true ->
  match load_config classes (save_config classes (TObj c ps)) with
  | Ok t => exists kids, fval (ps_of (unlogged ps)) = Some kids /\ build classes "suprb.suprb.SupRB" (map (fun kv => (fst kv, as_value (snd kv))) kids) = Ok t
  | Raise _ => forall kids, fval (ps_of (unlogged ps)) = Some kids -> forall t, build classes "suprb.suprb.SupRB" (map (fun kv => (fst kv, as_value (snd kv))) kids) <> Ok t
  end.
Proof. intros O P. rewrite (save_dict c ps O P). apply load_forest. exact (saved_fwf c ps O P). Qed.

(* ----- what comes back ----- *)
Lemma encode_leaf t : orderly t = true -> parametrised t = false ->
  encode t = match t with TPrim p => JPrim p | TNone => JNone | TArr _ | TBlank => JClass "numpy.ndarray" | TObj c _ => JClass c end.
Proof.
  intros O P. destruct t as [[| | |s]| | | |c ps]; try reflexivity; cbn [encode].
  - cbn in O. unfold ordinary in O. apply Bool.andb_true_iff in O as [O1 O2]. unfold of_string, after_class.
    apply Bool.negb_true_iff in O1 as ->. apply Bool.negb_true_iff in O2 as ->. reflexivity.
  - cbn [S_Json.orderly] in O. apply Bool.andb_true_iff in O as [D _]. apply Bool.andb_true_iff in D as [D _]. unfold class_name. now rewrite D.
Qed.
Lemma fval_names ps kids : fval ps = Some kids -> map fst kids = map fst ps.
Proof.
  revert kids. induction ps as [|[n u] ps IH]; intros kids E; cbn in E; [injection E as <-; reflexivity|].
  destruct (peval u); [|discriminate E]. destruct (L_Json.fval classes ps) as [r|]; [|discriminate E]. injection E as <-. cbn. now rewrite (IH r eq_refl).
Qed.
Lemma fval_at ps kids n u : fval ps = Some kids -> NoDup (map fst ps) -> In (n, u) ps -> exists v, peval u = Some v /\ assoc kids n = Some v.
Proof.
  revert kids. induction ps as [|[m w] ps IH]; intros kids E N I; [destruct I|]. cbn in E. destruct (peval w) as [x|] eqn:Ew; [|discriminate E].
  destruct (L_Json.fval classes ps) as [r|] eqn:Er; [|discriminate E]. injection E as <-. cbn [map fst] in N. inversion N as [|? ? Nm N']; subst.
  destruct I as [[= -> ->]|I].
  - exists x. split; [exact Ew|]. cbn. now rewrite String.eqb_refl.
  - destruct (IH r eq_refl N' I) as (v & Ev & Av). exists v. split; [exact Ev|]. cbn. destruct (String.eqb_spec m n) as [->|]; [|exact Av].
    exfalso. apply Nm. exact (in_map fst _ _ I).
Qed.
Lemma assoc_in {V} (l : list (string * V)) n v : assoc l n = Some v -> In (n, v) l.
Proof. induction l as [|[m w] l IH]; [discriminate|]. cbn. destruct (String.eqb_spec m n) as [->|]; [intros [= ->]; now left|right; auto]. Qed.
Lemma in_assoc {V} (l : list (string * V)) n v : NoDup (map fst l) -> In (n, v) l -> assoc l n = Some v.
Proof.
  induction l as [|[m w] l IH]; [intros _ []|]. cbn [map fst]. intros N [[= -> ->]|I]; cbn; [now rewrite String.eqb_refl|]. inversion N as [|? ? Nm N']; subst.
  destruct (String.eqb_spec m n) as [->|]; [|auto]. exfalso. apply Nm. exact (in_map fst _ _ I).
Qed.
Lemma args_at kids r n v : args classes kids = Ok r -> NoDup (map fst kids) -> assoc kids n = Some v -> exists a, kw classes v = Ok a /\ assoc r n = a.
Proof.
  revert r. induction kids as [|[m w] kids IH]; intros r E N A; [discriminate A|]. cbn [args] in E.
  destruct (kw classes w) as [a|] eqn:Ea; [|discriminate E]. cbn [rbind] in E. destruct (args classes kids) as [r'|] eqn:Er; [|discriminate E]. injection E as <-.
  cbn [map fst] in N. inversion N as [|? ? Nm N']; subst. cbn in A. destruct (String.eqb_spec m n) as [->|Nn].
  - injection A as ->. exists a. split; [exact Ea|]. destruct a; [cbn; now rewrite String.eqb_refl|].
    destruct (assoc r' n) eqn:X; [|reflexivity]. exfalso. apply Nm. apply (args_names classes kids r' Er). exact (in_map fst _ _ (assoc_in _ _ _ X)).
  - destruct (IH r' eq_refl N' A) as (b & Eb & Ab). exists b. split; [exact Eb|]. destruct a; [|exact Ab]. cbn. destruct (String.eqb_spec m n); [congruence|exact Ab].
Qed.
(* calling a class *)
Lemma build_at c kws t n v i : build classes c kws = Ok t -> classes c = Some i -> assoc kws n = Some v ->
  exists ps p, t = TObj c ps /\ In p (cparams i) /\ pname p = n /\ assoc ps n = Some (match v, pfill p with TNone, Some d => d | _, _ => v end).
Proof.
  unfold build. intros B Ei A. rewrite Ei in B. destruct (forallb _ kws) eqn:F; cbn [negb] in B; [|discriminate B].
  destruct (rmap _ (cparams i)) as [ps|] eqn:R; [|discriminate B]. cbn [rbind] in B. destruct (cguard i ps); [|discriminate B]. injection B as <-.
  rewrite forallb_forall in F. specialize (F _ (assoc_in _ _ _ A)). apply existsb_exists in F as (p0 & I0 & E0). cbn [fst] in E0. apply String.eqb_eq in E0.
  enough (X : exists p, In p (cparams i) /\ pname p = n /\ assoc ps n = Some (match v, pfill p with TNone, Some d => d | _, _ => v end)) by (destruct X as (p & X); exists ps, p; tauto).
  clear Ei. revert ps R. induction (cparams i) as [|p l IH]; [destruct I0|]. intros ps R. cbn [rmap] in R.
  destruct (String.eqb_spec (pname p) n) as [En|Nn].
  - rewrite En, A in R. cbn [rbind] in R. match type of R with rbind ?r _ = _ => destruct r as [ps'|] end; [|discriminate R]. injection R as <-. exists p.
    split; [now left|]. split; [exact En|]. cbn [assoc]. rewrite String.eqb_refl. reflexivity.
  - match type of R with rbind ?r _ = _ => destruct r as [[m w]|] eqn:Eb; [|discriminate R] end. cbn [rbind] in R.
    match type of R with rbind ?r _ = _ => destruct r as [ps'|] eqn:R'; [|discriminate R] end. injection R as <-.
    destruct I0 as [<-|I0]; [congruence|]. destruct (IH I0 ps' eq_refl) as (q & Iq & Eq & Aq). exists q. split; [now right|]. split; [exact Eq|].
    cbn [assoc]. match type of Eb with rbind ?r _ = _ => destruct r; [|discriminate Eb] end. injection Eb as <- _. destruct (String.eqb_spec (pname p) n); [congruence|exact Aq].
Qed.
Lemma declared_fill i ps n u p : as_declared i ps = true -> NoDup (map fst ps) -> In (n, u) ps -> In p (cparams i) -> pname p = n ->
  match u, pfill p with TNone, Some d => d | _, _ => u end = u.
Proof.
  unfold as_declared. intros E N I Ip En. apply Bool.andb_true_iff in E as [E1 E2]. apply list_eqb_eq in E1.
  revert E1 E2 N I Ip. generalize (cparams i). induction ps as [|[m w] ps IH]; intros l E1 E2 N I Ip; [destruct I|]. destruct l as [|q l]; [destruct Ip|].
  cbn [map fst] in E1. injection E1 as -> E1. cbn [combine forallb fst snd] in E2. apply Bool.andb_true_iff in E2 as [E2 E3]. cbn [map fst] in N. inversion N as [|? ? Nm N']; subst.
  destruct I as [[= Em ->]|I], Ip as [->|Ip].
  - destruct u; try reflexivity. destruct (pfill p); [discriminate E2|reflexivity].
  - exfalso. apply Nm. rewrite E1, Em. now apply in_map.
  - exfalso. apply Nm. exact (in_map fst _ _ I).
  - exact (IH l E1 E3 N' I Ip).
Qed.
Lemma comes_back u w : orderly u = true -> peval (p_of u) = Some w ->
  match u with
  | TPrim _ | TNone => w = encode u
  | TObj c _ => parametrised u = true -> exists ps, w = JObj (TObj c ps)
  | _ => True
  end.
Proof.
  intros O E. destruct u as [p| |r| |c ps]; try exact I; try (injection E as <-; reflexivity).
  intros P. rewrite (p_of_obj c ps P), peval_open in E. destruct (fval (ps_of ps)) as [kids|]; [|discriminate E].
  destruct (finish classes c kids) as [o|] eqn:F; [|discriminate E]. injection E as <-. unfold finish in F. destruct kids as [|[n v] kids]; [discriminate F|].
  destruct (renew classes v) as [v'|]; [|discriminate F]. cbn [rbind] in F. destruct (args classes _) as [kws|]; [|discriminate F]. cbn [rbind] in F. unfold build in F.
  destruct (classes c) as [i|]; [|discriminate F]. destruct (negb _); [discriminate F|]. destruct (rmap _ _) as [qs|]; [|discriminate F]. cbn [rbind] in F.
  destruct (cguard i qs); [|discriminate F]. injection F as <-. now exists qs.
Qed.
Lemma again_kw n v0 (kids : list (string * jv)) v' n0 w u :
  renew classes v0 = Ok v' -> assoc ((n0, v0) :: kids) n = Some w -> (forall c, w <> JClass c) -> orderly u = true -> assoc ((n0, v') :: kids) n = Some w.
Proof.
  intros R A Nc _. cbn [assoc] in *. destruct (String.eqb n0 n); [|exact A]. injection A as ->. destruct w as [p| |c|t]; try (injection R as <-; reflexivity). now elim (Nc c).
Qed.
Lemma back_at path : forall t t' v, orderly t = true -> parametrised t = true -> peval (p_of t) = Some (JObj t') -> value_at classes t path = Some v -> again v (value_at classes t' path).
Proof.
  induction path as [|n path IH]; intros t t' v O P E V.
  - cbn in V. injection V as ->. pose proof (comes_back v (JObj t') O E) as B. destruct v as [p| |r| |c ps]; try discriminate P. cbn [S_Json.again value_at].
    intros _. destruct (B P) as [qs [= ->]]. now exists qs.
  - destruct t as [p| |r| |c ps]; try discriminate P. cbn [value_at] in V. destruct (orderly_obj c ps P O) as (i & Ei & Ci & D & Dec & Pl & N & C & A).
    unfold has_params in V. rewrite Ei, Ci in V. destruct (assoc ps n) as [u|] eqn:Au; [|discriminate V]. pose proof (assoc_in _ _ _ Au) as Iu.
    assert (Ou : orderly u = true) by (rewrite Forall_forall in A; exact (A _ Iu)).
    rewrite (p_of_obj c ps P), peval_open in E. destruct (fval (ps_of ps)) as [kids|] eqn:Ek; [|discriminate E].
    destruct (finish classes c kids) as [o|] eqn:F; [|discriminate E]. injection E as <-.
    destruct (fval_at (ps_of ps) kids n (p_of u) Ek ltac:(now rewrite ps_names)) as (w & Ew & Aw).
    { unfold ps_of. apply in_map_iff. exists (n, u). split; [reflexivity|exact Iu]. }
    pose proof (comes_back u w Ou Ew) as B.
    unfold finish in F. pose proof (fval_names _ _ Ek) as Kn. rewrite ps_names in Kn. destruct kids as [|[n0 v0] kids]; [discriminate F|].
    destruct (renew classes v0) as [v'|] eqn:R; [|discriminate F]. cbn [rbind] in F. destruct (args classes ((n0, v') :: kids)) as [kws|] eqn:Ar; [|discriminate F]. cbn [rbind] in F.
    assert (Nk : NoDup (map fst ((n0, v') :: kids))) by (change (NoDup (map fst ((n0, v0) :: kids))); now rewrite Kn).
    assert (Go : (forall c', w <> JClass c') -> exists a, kw classes w = Ok a /\ assoc kws n = a).
    { intros Nc. exact (args_at _ _ n w Ar Nk (again_kw n v0 kids v' n0 w u R Aw Nc Ou)). }
    assert (Built : forall x, assoc kws n = Some x -> exists qs p, o = TObj c qs /\ In p (cparams i) /\ pname p = n /\ assoc qs n = Some (match x, pfill p with TNone, Some d => d | _, _ => x end)).
    { intros x Ax. exact (build_at c kws o n x i F Ei Ax). }
    assert (Next : forall x, assoc kws n = Some x -> match x with TNone => u = TNone | _ => True end -> value_at classes o (n :: path) = value_at classes x path).
    { intros x Ax Nx. destruct (Built x Ax) as (qs & p & -> & Ip & En & Aq). cbn [value_at]. unfold has_params. rewrite Ei, Ci, Aq.
      destruct x; try reflexivity. subst u. now rewrite (declared_fill i ps n TNone p Dec N Iu Ip En). }
    destruct path as [|m path].
    + cbn in V. injection V as ->. destruct v as [p| |r| |c' ps']; cbn [S_Json.again].
      * assert (Wp : w = JPrim p) by (rewrite B; exact (encode_leaf (TPrim p) Ou eq_refl)). rewrite Wp in Go. destruct (Go ltac:(intros c0 C0; discriminate C0)) as (a & [= <-] & Aa). rewrite (Next _ Aa Logic.I). reflexivity.
      * rewrite B in Go. destruct (Go ltac:(intros c0 C0; discriminate C0)) as (a & [= <-] & Aa). now rewrite (Next _ Aa eq_refl).
      * exact Logic.I.
      * exact Logic.I.
      * intros Pv. destruct (B Pv) as [qs ->]. destruct (Go ltac:(intros c0 C0; discriminate C0)) as (a & [= <-] & Aa). rewrite (Next _ Aa Logic.I). now exists qs.
    + assert (Pu : parametrised u = true).
      { destruct u as [| | | |c' qs]; try discriminate V. cbn [value_at S_Json.parametrised] in *. destruct (has_params classes c'); [|discriminate V]. destruct qs; [discriminate V|reflexivity]. }
      destruct u as [| | | |c' qs]; try discriminate Pu. destruct (B Pu) as [qs' ->]. destruct (Go ltac:(intros c0 C0; discriminate C0)) as (a & [= <-] & Aa). rewrite (Next _ Aa Logic.I).
      exact (IH _ _ v Ou Pu Ew V).
Qed.
Lemma unlogged_in {V} (ps : list (string * V)) n u : In (n, u) ps -> String.prefix "logger" n = false -> In (n, u) (unlogged ps).
Proof. intros I E. unfold unlogged. apply filter_In. split; [exact I|]. cbn [fst]. now rewrite E. Qed.
Lemma unlogged_nodup {V} (ps : list (string * V)) : NoDup (map fst ps) -> NoDup (map fst (unlogged ps)).
Proof.
  unfold unlogged. induction ps as [|[n u] ps IH]; intros N; [constructor|]. cbn [map fst] in N. inversion N as [|? ? Nn N']; subst.
  cbn [filter fst]. destruct (negb _); [|auto]. cbn [map fst]. constructor; [|auto]. intros I. apply Nn. apply in_map_iff in I as (y & <- & I). apply filter_In in I as [I _]. now apply in_map.
Qed.
Lemma assoc_map {V W} (f : V -> W) (l : list (string * V)) n : assoc (map (fun kv => (fst kv, f (snd kv))) l) n = option_map f (assoc l n).
Proof. induction l as [|[m v] l IH]; [reflexivity|]. cbn. destruct (String.eqb m n); [reflexivity|exact IH]. Qed.
Lemma values_restored ps t' n path v :
  orderly (TObj "suprb.suprb.SupRB" ps) = true -> parametrised (TObj "suprb.suprb.SupRB" ps) = true ->
  load_config classes (save_config classes (TObj "suprb.suprb.SupRB" ps)) = Ok t' ->
  String.prefix "logger" n = false -> value_at classes (TObj "suprb.suprb.SupRB" ps) (n :: path) = Some v -> (path = [] -> v <> TNone) ->
  again v (value_at classes t' (n :: path)).
Proof.
  intros O P L Ln V Nn. pose proof (save_load _ _ O P) as S. rewrite L in S. destruct S as (kids & Ek & B).
  destruct (orderly_obj _ _ P O) as (i & Ei & Ci & D & Dec & Pl & N & C & A).
  cbn [value_at] in V. unfold has_params in V. rewrite Ei, Ci in V. destruct (assoc ps n) as [u|] eqn:Au; [|discriminate V]. pose proof (assoc_in _ _ _ Au) as Iu.
  assert (Ou : orderly u = true) by (rewrite Forall_forall in A; exact (A _ Iu)).
  destruct (fval_at _ kids n (p_of u) Ek ltac:(rewrite ps_names; now apply unlogged_nodup)) as (w & Ew & Aw).
  { unfold ps_of. apply in_map_iff. exists (n, u). split; [reflexivity|now apply unlogged_in]. }
  pose proof (comes_back u w Ou Ew) as Bk.
  assert (Aa : assoc (map (fun kv => (fst kv, as_value (snd kv))) kids) n = Some (as_value w)) by (rewrite assoc_map, Aw; reflexivity).
  destruct (build_at _ _ _ _ _ _ B Ei Aa) as (qs & p & -> & Ip & En & Aq).
  assert (Next : as_value w <> TNone -> value_at classes (TObj "suprb.suprb.SupRB" qs) (n :: path) = value_at classes (as_value w) path).
  { intros Nx. cbn [value_at]. unfold has_params. rewrite Ei, Ci, Aq. now destruct (as_value w). }
  destruct path as [|m path].
  - cbn in V. injection V as ->. destruct v as [q| |r| |c' ps']; cbn [S_Json.again].
    + assert (Wp : w = JPrim q) by (rewrite Bk; exact (encode_leaf (TPrim q) Ou eq_refl)). rewrite Wp in Next. now rewrite Next.
    + now elim (Nn eq_refl).
    + exact I.
    + exact I.
    + intros Pv. destruct (Bk Pv) as [qs' ->]. rewrite Next by discriminate. now exists qs'.
  - assert (Pu : parametrised u = true).
    { destruct u as [| | | |c' qs']; try discriminate V. cbn [value_at S_Json.parametrised] in *. destruct (has_params classes c'); [|discriminate V]. destruct qs'; [discriminate V|reflexivity]. }
    destruct u as [| | | |c' qs1]; try discriminate Pu. destruct (Bk Pu) as [qs' ->]. rewrite Next by discriminate. exact (back_at _ _ _ v Ou Pu Ew V).
Qed.
End Classes.
