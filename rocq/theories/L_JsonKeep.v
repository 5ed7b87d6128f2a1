(* Configurations that come back whole. *)
From Coq Require Import String Ascii.
From Verif Require Import PyNum PyList PyMon M_Json S_Objects S_Json L_List L_Text L_Forest L_Fold L_Json L_JsonProps.
From Verif Require M_Objects.
Local Open Scope string_scope.
Local Open Scope list_scope.

Section Classes.
Variable classes : string -> option cinfo.
Notation parametrised := (parametrised classes).
Notation orderly := (orderly classes).
Notation peval := (peval classes).
Notation fval := (fval classes).
Notation p_of := (p_of classes).
Notation ps_of := (ps_of classes).
Notation forget := (forget classes).
Notation forget_all := (forget_all classes).
Notation survives := (survives classes).

(* what the parameter is while its parent is being built *)
Definition back (u : tree) : jv := if parametrised u then JObj (forget u) else encode u.
Definition kept (first : bool) (u : tree) (p : param) : Prop :=
  match u with
  | TPrim _ | TNone => True
  | TArr _ | TBlank => first = true
  | TObj c' _ => if parametrised u then survives u else build classes c' [] = Ok u /\ (first = true \/ default_of p = Some u)
  end.
Fixpoint kept_all (first : bool) (ps : list (string * tree)) (qs : list param) : Prop :=
  match ps, qs with (n, u) :: ps', p :: qs' => kept first u p /\ kept_all false ps' qs' | _, _ => True end.
Lemma survives_obj c ps : survives (TObj c ps) <-> exists i, classes c = Some i /\ cguard i (forget_all ps) = true /\ kept_all true ps (cparams i).
Proof.
  cbn [S_Json.survives]. destruct (classes c) as [i|]; [|split; [intros []|intros (i & [=] & _)]].
  assert (X : forall qs first, (fix go (first : bool) (ps : list (string * tree)) (qs : list param) :=
             match ps, qs with
             | (n, u) :: ps', p :: qs' =>
                 match u with
                 | TPrim _ | TNone => True
                 | TArr _ | TBlank => first = true
                 | TObj c' _ => if parametrised u then survives u else build classes c' [] = Ok u /\ (first = true \/ default_of p = Some u)
                 end /\ go false ps' qs'
             | _, _ => True
             end) first ps qs <-> kept_all first ps qs).
  { induction ps as [|[n u] ps IH]; intros qs first; [destruct qs; reflexivity|]. destruct qs as [|p qs]; [reflexivity|]. cbn [kept_all]. rewrite <- (IH qs false). reflexivity. }
  split.
  - intros [G K]. exists i. split; [reflexivity|]. split; [exact G|now apply X].
  - intros (i' & [= <-] & G & K). split; [exact G|now apply X].
Qed.
Lemma forget_obj c ps : has_params classes c = true -> forget (TObj c ps) = TObj c (forget_all ps).
Proof. intros H. cbn [S_Json.forget]. rewrite H. reflexivity. Qed.
Lemma forget_leaf u : parametrised u = false -> forget u = match u with TArr _ => TBlank | _ => u end.
Proof.
  destruct u as [| | | |c ps]; try reflexivity. cbn [S_Json.parametrised S_Json.forget]. destruct (has_params classes c); [|reflexivity]. destruct ps; [reflexivity|discriminate].
Qed.
Lemma forget_none u : forget u = TNone -> u = TNone.
Proof. destruct u as [| | | |c ps]; try discriminate; [reflexivity|]. cbn [S_Json.forget]. destruct (has_params classes c); discriminate. Qed.
(* building with the parameters that are there *)
Definition filled_in (kws : list (string * tree)) (n : string) (u : tree) (p : param) : Prop :=
  match assoc kws n with Some v => v = forget u | None => default_of p = Some (forget u) end.
Lemma build_kept c i ps kws : classes c = Some i -> map fst ps = map pname (cparams i) ->
  Forall2 (fun nu p => match assoc kws (fst nu) with Some v => v = forget (snd nu) /\ (snd nu = TNone -> pfill p = None) | None => default_of p = Some (forget (snd nu)) end) ps (cparams i) ->
  (forall n, In n (map fst kws) -> In n (map fst ps)) -> cguard i (forget_all ps) = true -> build classes c kws = Ok (TObj c (forget_all ps)).
Proof.
  intros Ei Nm F Nk G. unfold build. rewrite Ei.
  assert (All : forallb (fun kv => existsb (fun p => String.eqb (pname p) (fst kv)) (cparams i)) kws = true).
  { apply forallb_forall. intros [n v] I. apply existsb_exists. pose proof (Nk n (in_map fst _ _ I)) as In'. rewrite Nm in In'. apply in_map_iff in In' as (p & E & Ip).
    exists p. split; [exact Ip|]. cbn [fst]. now apply String.eqb_eq. }
  rewrite All. cbn [negb].
  match goal with |- (let? ps := rmap ?f ?l in _) = _ => assert (R : rmap f l = Ok (forget_all ps)) end.
  { clear Ei Nk All G. revert Nm F. generalize (cparams i). induction ps as [|[n u] ps IH]; intros l Nm F; inversion F as [|? p ? l' Fp F']; subst; [reflexivity|].
    cbn [map fst] in Nm. injection Nm as -> Nm. cbn [rmap fst snd S_Json.forget_all] in *. specialize (IH l' Nm F'). rewrite IH.
    destruct (assoc kws (pname p)) as [v|].
    - destruct Fp as [-> Fp]. cbn [rbind]. do 3 f_equal. destruct (forget u) eqn:Fu; try reflexivity. apply forget_none in Fu. now rewrite (Fp Fu).
    - unfold default_of in Fp. destruct (pdefault p) as [d|]; [|discriminate Fp]. cbn [of_option rbind]. do 3 f_equal.
      destruct d; injection Fp as <-; try reflexivity; destruct (pfill p); reflexivity. }
  rewrite R. cbn [rbind]. now rewrite G.
Qed.
Lemma fval_back ps : Forall (fun nu => orderly (snd nu) = true /\ (parametrised (snd nu) = true -> peval (p_of (snd nu)) = Some (JObj (forget (snd nu))))) ps ->
  fval (ps_of ps) = Some (map (fun nu => (fst nu, back (snd nu))) ps).
Proof.
  induction 1 as [|[n u] ps [O H] _ IH]; [reflexivity|]. cbn [snd] in O, H. cbn [ps_of map fst snd]. change (L_Json.fval classes ((n, p_of u) :: ps_of ps) = Some ((n, back u) :: map (fun nu => (fst nu, back (snd nu))) ps)).
  cbn [L_Json.fval]. rewrite IH. unfold back. destruct (parametrised u) eqn:P; [now rewrite (H eq_refl)|]. now rewrite (p_of_leaf classes u P).
Qed.
Lemma kw_rest u p : orderly u = true -> kept false u p -> exists a, kw classes (back u) = Ok a /\ (a = Some (forget u) \/ a = None /\ default_of p = Some (forget u)).
Proof.
  intros O K. unfold back. destruct (parametrised u) eqn:P; [exists (Some (forget u)); split; [reflexivity|now left]|]. rewrite (encode_leaf classes u O P), (forget_leaf u P).
  destruct u as [q| |r| |c ps]; cbn [kept] in K; try discriminate K; cbn [kw].
  - eauto.
  - eauto.
  - rewrite P in K. destruct K as [B [[=]|D]]. unfold instance. cbn [get_class]. cbn [S_Json.orderly] in O. apply Bool.andb_true_iff in O as [Dot _]. apply Bool.andb_true_iff in Dot as [Dot _]. rewrite Dot. cbn [rbind].
    rewrite B. cbn [rbind]. exists None. split; [reflexivity|right; now split].
Qed.
Lemma kw_first u p : orderly u = true -> kept true u p -> exists v, renew classes (back u) = Ok v /\ kw classes v = Ok (Some (forget u)).
Proof.
  intros O K. unfold back. destruct (parametrised u) eqn:P; [exists (JObj (forget u)); split; reflexivity|]. rewrite (encode_leaf classes u O P), (forget_leaf u P).
  destruct u as [q| |r| |c ps]; cbn [kept] in K; cbn [renew].
  - now exists (JPrim q).
  - now exists JNone.
  - now exists (JObj TBlank).
  - now exists (JObj TBlank).
  - rewrite P in K. destruct K as [B _]. 
    cbn [S_Json.orderly] in O. apply Bool.andb_true_iff in O as [Dot _]. apply Bool.andb_true_iff in Dot as [Dot Arr]. apply Bool.negb_true_iff in Arr. rewrite Arr.
    unfold instance. cbn [get_class]. rewrite Dot. cbn [rbind]. rewrite B. cbn [rbind]. now exists (JObj (TObj c ps)).
Qed.
Lemma args_kept ps qs : Forall (fun nu => orderly (snd nu) = true) ps -> kept_all false ps qs -> length ps = length qs -> NoDup (map fst ps) ->
  exists r, args classes (map (fun nu => (fst nu, back (snd nu))) ps) = Ok r /\
    Forall2 (fun nu p => match assoc r (fst nu) with Some v => v = forget (snd nu) | None => default_of p = Some (forget (snd nu)) end) ps qs /\
    (forall n, In n (map fst r) -> In n (map fst ps)).
Proof.
  revert qs. induction ps as [|[n u] ps IH]; intros qs O K L N; destruct qs as [|p qs]; try discriminate L; [exists []; repeat split; [constructor|intros n []]|].
  inversion O as [|? ? Ou O']; subst. cbn [snd] in Ou. destruct K as [Ku K]. cbn [map fst] in N. inversion N as [|? ? Nn N']; subst. injection L as L.
  destruct (IH qs O' K L N') as (r & Er & F & I). destruct (kw_rest u p Ou Ku) as (a & Ea & Ca). cbn [map fst snd args]. rewrite Ea, Er. cbn [rbind].
  assert (Nr : ~ In n (map fst r)) by (intros C; apply Nn; auto).
  assert (Nr' : assoc r n = None).
  { destruct (assoc r n) as [v|] eqn:X; [|reflexivity]. exfalso. apply Nr. exact (in_map fst _ _ (assoc_in _ _ _ X)). }
  assert (F' : forall t, Forall2 (fun nu p => match assoc ((n, t) :: r) (fst nu) with Some v => v = forget (snd nu) | None => default_of p = Some (forget (snd nu)) end) ps qs).
  { intros t. clear - F Nn. induction F as [|[m w] q ps qs H _ IHF]; constructor.
    - cbn [assoc fst]. destruct (String.eqb_spec n m) as [->|]; [exfalso; apply Nn; now left|exact H].
    - apply IHF. intros C. apply Nn. now right. }
  destruct Ca as [->|[-> D]].
  - exists ((n, forget u) :: r). split; [reflexivity|]. split; [constructor; [cbn [assoc fst snd]; now rewrite String.eqb_refl|apply F']|].
    intros m [<-|Im]; [now left|right; auto].
  - exists r. split; [reflexivity|]. split; [constructor; [cbn [fst snd]; now rewrite Nr'|exact F]|]. intros m Im. right. auto.
Qed.
Lemma declared_fills i ps : as_declared i ps = true -> map fst ps = map pname (cparams i) /\ Forall2 (fun nu p => snd nu = TNone -> pfill p = None) ps (cparams i).
Proof.
  unfold as_declared. intros E. apply Bool.andb_true_iff in E as [E1 E2]. apply list_eqb_eq in E1. split; [exact E1|].
  revert E1 E2. generalize (cparams i). induction ps as [|[n u] ps IH]; intros [|p l] E1 E2; try discriminate E1; constructor.
  - cbn [snd]. intros ->. cbn [combine forallb fst snd] in E2. apply Bool.andb_true_iff in E2 as [E2 _]. destruct (pfill p); [discriminate E2|reflexivity].
  - cbn [map fst] in E1. injection E1 as _ E1. cbn [combine forallb] in E2. apply Bool.andb_true_iff in E2 as [_ E2]. exact (IH l E1 E2).
Qed.
Lemma Forall2_and {A B} (P Q : A -> B -> Prop) l m : Forall2 P l m -> Forall2 Q l m -> Forall2 (fun a b => P a b /\ Q a b) l m.
Proof. induction 1; intros H'; inversion H'; subst; constructor; auto. Qed.
Lemma Forall2_imp {A B} (P Q : A -> B -> Prop) l m : (forall a b, P a b -> Q a b) -> Forall2 P l m -> Forall2 Q l m.
Proof. intros H. induction 1; constructor; auto. Qed.
Lemma comes_back_whole t : orderly t = true -> parametrised t = true -> survives t -> peval (p_of t) = Some (JObj (forget t)).
Proof.
  induction t as [p| | | |c ps IH] using tree_ind'; intros O P S; try discriminate P.
  destruct (orderly_obj classes c ps P O) as (i & Ei & Ci & D & Dec & Pl & N & C & A). apply survives_obj in S as (i' & Ei' & G & K).
  assert (i' = i) by congruence. subst i'. destruct (declared_fills i ps Dec) as [Nm Fl].
  rewrite (p_of_obj classes c ps P), peval_open.
  assert (Kids : Forall (fun nu => orderly (snd nu) = true /\ (parametrised (snd nu) = true -> peval (p_of (snd nu)) = Some (JObj (forget (snd nu))))) ps).
  { assert (L : length ps = length (cparams i)) by (rewrite <- (map_length fst ps), Nm; apply map_length).
    clear - IH A K L. revert K L. generalize (cparams i). set (first0 := true) at 1. generalize first0. clear first0. induction IH as [|[n u] ps Hu _ IHp]; intros first qs K L; [constructor|].
    inversion A as [|? ? Au A']; subst. destruct qs as [|p qs]; [discriminate L|]. destruct K as [Ku K]. injection L as L. constructor; [|exact (IHp A' false qs K L)].
    cbn [snd] in *. split; [exact Au|]. intros Pu. apply Hu; [exact Au|exact Pu|]. destruct u as [| | | |c' qs']; try discriminate Pu. cbn [kept] in Ku. now rewrite Pu in Ku. }
  rewrite (fval_back ps Kids). destruct ps as [|[n u] ps]; [cbn [S_Json.parametrised] in P; rewrite Bool.andb_false_r in P; discriminate P|].
  destruct (cparams i) as [|p qs] eqn:Eq; [discriminate Nm|]. cbn [kept_all] in K. destruct K as [Ku K]. cbn [map fst] in N, Nm. inversion N as [|? ? Nn N']; subst. injection Nm as En Nm.
  inversion A as [|? ? Au A']; subst. cbn [snd] in Au. destruct (kw_first u p Au Ku) as (v & Rv & Kv).
  assert (L : length ps = length qs) by (rewrite <- (map_length fst ps), Nm; apply map_length).
  destruct (args_kept ps qs A' K L N') as (r & Er & F & I).
  cbn [map fst snd finish]. rewrite Rv. cbn [rbind args]. rewrite Kv, Er. cbn [rbind].
  rewrite (build_kept c i ((pname p, u) :: ps) ((pname p, forget u) :: r) Ei).
  - rewrite forget_obj; [reflexivity|]. unfold has_params. now rewrite Ei.
  - cbn [map fst]. now rewrite Eq, Nm.
  - rewrite Eq. inversion Fl as [|? ? ? ? Fl1 Fl2]; subst. constructor.
    + cbn [fst snd assoc]. rewrite String.eqb_refl. split; [reflexivity|exact Fl1].
    + pose proof (Forall2_and _ _ _ _ F Fl2) as FF. clear - FF Nn. induction FF as [|[m w] q ps qs [H H2] _ IHF]; constructor.
      * cbn [assoc fst snd] in *. destruct (String.eqb_spec (pname p) m) as [E|]; [exfalso; apply Nn; left; cbn; congruence|]. destruct (assoc r m); [now split|exact H].
      * apply IHF. intros C. apply Nn. now right.
  - cbn [map fst]. intros m [<-|Im]; [now left|right; auto].
  - exact G.
Qed.
(* the estimator *)
Lemma build_out c i kws out : classes c = Some i ->
  Forall2 (fun nv p => fst nv = pname p /\ match assoc kws (pname p) with Some v => v = snd nv /\ v <> TNone | None => default_of p = Some (snd nv) end) out (cparams i) ->
  (forall n, In n (map fst kws) -> In n (map pname (cparams i))) -> cguard i out = true -> build classes c kws = Ok (TObj c out).
Proof.
  intros Ei F Nk G. unfold build. rewrite Ei.
  assert (All : forallb (fun kv => existsb (fun p => String.eqb (pname p) (fst kv)) (cparams i)) kws = true).
  { apply forallb_forall. intros [n v] I. apply existsb_exists. pose proof (Nk n (in_map fst _ _ I)) as In'. apply in_map_iff in In' as (p & E & Ip).
    exists p. split; [exact Ip|]. cbn [fst]. now apply String.eqb_eq. }
  rewrite All. cbn [negb].
  match goal with |- (let? ps := rmap ?f ?l in _) = _ => assert (R : rmap f l = Ok out) end.
  { clear Ei Nk All G. induction F as [|[n u] p out l [En Fp] F IH]; [reflexivity|]. cbn [rmap fst snd] in *. subst n. rewrite IH.
    destruct (assoc kws (pname p)) as [v|].
    - destruct Fp as [-> Fp]. cbn [rbind]. do 3 f_equal. destruct u; try reflexivity. congruence.
    - unfold default_of in Fp. destruct (pdefault p) as [d|]; [|discriminate Fp]. cbn [of_option rbind]. do 3 f_equal.
      destruct d; injection Fp as <-; try reflexivity; destruct (pfill p); reflexivity. }
  rewrite R. cbn [rbind]. now rewrite G.
Qed.
Lemma top_value u : orderly u = true -> match u with TPrim _ => True | TObj _ _ => parametrised u = true /\ survives u | _ => False end ->
  as_value (back u) = forget u /\ forget u <> TNone.
Proof.
  intros O S. destruct u as [p| | | |c ps]; try contradiction.
  - unfold back. cbn [S_Json.parametrised]. rewrite (encode_leaf classes (TPrim p) O eq_refl). split; [reflexivity|discriminate].
  - unfold back. destruct S as [-> _]. split; [reflexivity|]. intros E. apply forget_none in E. discriminate E.
Qed.
Lemma unlogged_out (ps : list (string * tree)) n u : NoDup (map fst ps) -> In (n, u) ps ->
  assoc (map (fun nu => (fst nu, as_value (back (snd nu)))) (unlogged ps)) n = if String.prefix "logger" n then None else Some (as_value (back u)).
Proof.
  intros N I. rewrite (assoc_map (fun u => as_value (back u))). destruct (String.prefix "logger" n) eqn:L.
  - destruct (assoc (unlogged ps) n) as [v|] eqn:X; [|reflexivity]. apply assoc_in in X. unfold unlogged in X. apply filter_In in X as [_ X]. cbn [fst] in X. rewrite L in X. discriminate X.
  - rewrite (in_assoc _ n u); [reflexivity|now apply unlogged_nodup|now apply unlogged_in].
Qed.
Lemma restored_whole ps i out : orderly (TObj "suprb.suprb.SupRB" ps) = true -> parametrised (TObj "suprb.suprb.SupRB" ps) = true ->
  classes "suprb.suprb.SupRB" = Some i -> Forall2 (survives_at_top classes) ps (cparams i) ->
  map (fun nv => (fst nv, Some (snd nv))) out = without_logger classes ps (cparams i) -> cguard i out = true ->
  load_config classes (save_config classes (TObj "suprb.suprb.SupRB" ps)) = Ok (TObj "suprb.suprb.SupRB" out).
Proof.
  intros O P Ei S Eo G. destruct (orderly_obj classes _ ps P O) as (i' & Ei' & Ci & D & Dec & Pl & N & C & A). assert (i' = i) by congruence. subst i'.
  destruct (declared_fills i ps Dec) as [Nm Fl].
  assert (Kids : Forall (fun nu => orderly (snd nu) = true /\ (parametrised (snd nu) = true -> peval (p_of (snd nu)) = Some (JObj (forget (snd nu))))) (unlogged ps)).
  { apply Forall_forall. intros [n u] I. unfold unlogged in I. apply filter_In in I as [I L]. cbn [fst snd] in *. apply Bool.negb_true_iff in L.
    rewrite Forall_forall in A. pose proof (A _ I) as Ou. cbn [snd] in Ou. split; [exact Ou|]. intros Pu. apply comes_back_whole; [exact Ou|exact Pu|].
    clear - S I L Pu. induction S as [|[m w] p ps qs H _ IH]; [destruct I|]. destruct I as [[= -> ->]|I]; [|exact (IH I)].
    unfold survives_at_top in H. cbn [fst snd] in H. rewrite L in H. destruct u as [| | | |c qs']; try discriminate Pu. exact (proj2 H). }
  pose proof (fval_back (unlogged ps) Kids) as Fv. pose proof (save_load classes _ _ O P) as SL.
  assert (B : build classes "suprb.suprb.SupRB" (map (fun kv => (fst kv, as_value (snd kv))) (map (fun nu => (fst nu, back (snd nu))) (unlogged ps))) = Ok (TObj "suprb.suprb.SupRB" out)).
  { rewrite map_map. cbn [fst snd]. apply (build_out _ i); [exact Ei| |intros n I|exact G].
    - assert (At : forall n u, In (n, u) ps -> assoc (map (fun nu => (fst nu, as_value (back (snd nu)))) (unlogged ps)) n = if String.prefix "logger" n then None else Some (as_value (back u))) by (intros n u I; exact (unlogged_out ps n u N I)).
      revert At. generalize (map (fun nu => (fst nu, as_value (back (snd nu)))) (unlogged ps)) as kws. intros kws At.
      clear - S Eo At Nm A. revert out Nm Eo. unfold without_logger. induction S as [|[n u] p ps qs H _ IH]; intros out Nm Eo; cbn [combine map] in Eo.
      + destruct out; [constructor|discriminate Eo].
      + destruct out as [|[m v] out]; [discriminate Eo|]. cbn [map fst snd] in Eo. injection Eo as Em Ev Eo. cbn [map fst] in Nm. injection Nm as En Nm.
        inversion A as [|? ? Au A']; subst. constructor; [|apply IH; [exact A'|intros; apply At; now right|exact Nm|exact Eo]].
        cbn [fst snd] in *. split; [reflexivity|]. rewrite (At (pname p) u (or_introl eq_refl)). unfold survives_at_top in H. cbn [fst snd] in H.
        destruct (String.prefix "logger" (pname p)); [now symmetry|]. destruct (top_value u Au H) as [T1 T2]. rewrite T1. injection Ev as ->. now split.
    - rewrite map_map in I. cbn [fst] in I. rewrite <- Nm. apply in_map_iff in I as ([m w] & <- & I). unfold unlogged in I. apply filter_In in I as [I _]. exact (in_map fst _ _ I). }
  destruct (load_config classes _) as [t|e].
  - destruct SL as (kids & Ek & Bk). rewrite Fv in Ek. injection Ek as <-. congruence.
  - exfalso. exact (SL _ Fv _ B).
Qed.
End Classes.
