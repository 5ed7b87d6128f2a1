(* The loop of _deserialize_config folds the forest: every object is built from its parameters, the deepest ones first. *)
From Coq Require Import String Ascii.
From Verif Require Import PyNum PyList PyMon M_Json S_Objects S_Json L_List L_Text L_Forest.
From Verif Require M_Objects.
Local Open Scope string_scope.
Local Open Scope list_scope.

(* ----- max with a key ----- *)
Section Max.
Context {A : Type} (f : A -> nat).
Let lt (a b : A) : bool := Nat.ltb (f a) (f b).
Lemma max_assoc a b c : max_step lt (max_step lt a b) c = max_step lt a (max_step lt b c).
Proof.
  unfold max_step, lt. destruct (Nat.ltb_spec (f a) (f b)), (Nat.ltb_spec (f b) (f c)).
  - destruct (Nat.ltb_spec (f a) (f c)); [reflexivity|lia].
  - destruct (Nat.ltb_spec (f a) (f b)); [reflexivity|lia].
  - reflexivity.
  - destruct (Nat.ltb_spec (f a) (f c)); [lia|]. destruct (Nat.ltb_spec (f a) (f b)); [lia|reflexivity].
Qed.
Lemma fold_max l a x : fold_left (max_step lt) l (max_step lt a x) = max_step lt a (fold_left (max_step lt) l x).
Proof. revert x. induction l as [|y l IH]; intros x; [reflexivity|]. cbn [fold_left]. rewrite max_assoc. apply IH. Qed.
Lemma pymax_app l1 l2 : pymax lt (l1 ++ l2) =
  match pymax lt l1, pymax lt l2 with
  | None, m => m | m, None => m
  | Some a, Some b => if Nat.ltb (f a) (f b) then Some b else Some a
  end.
Proof.
  destruct l1 as [|a l1]; [reflexivity|]. destruct l2 as [|b l2]; [rewrite app_nil_r; reflexivity|].
  cbn [pymax app]. rewrite fold_left_app. cbn [fold_left]. rewrite fold_max. unfold max_step at 1, lt at 1. set (x := fold_left _ l1 a). set (y := fold_left _ l2 b). fold lt. now destruct (Nat.ltb (f x) (f y)).
Qed.
End Max.
Lemma pymax_map {A B} (g : A -> B) lt l : pymax lt (map g l) = option_map g (pymax (fun a b => lt (g a) (g b)) l).
Proof.
  destruct l as [|x l]; [reflexivity|]. cbn [map pymax option_map]. f_equal. revert x. induction l as [|y l IH]; intros x; [reflexivity|].
  cbn [map fold_left]. rewrite <- IH. unfold max_step. now destruct (lt (g x) (g y)).
Qed.
Lemma pymax_ext {A} (lt lt' : A -> A -> bool) l : (forall a b, In a l -> In b l -> lt a b = lt' a b) -> pymax lt l = pymax lt' l.
Proof.
  destruct l as [|x l]; [reflexivity|]. intros H. cbn [pymax]. f_equal. revert x H. induction l as [|y l IH]; intros x H; [reflexivity|].
  cbn [fold_left]. assert (E : max_step lt x y = max_step lt' x y) by (unfold max_step; rewrite H; [reflexivity|now left|right; now left]).
  rewrite E. apply IH. intros a b Ia Ib. apply H; unfold max_step in Ia, Ib; destruct (lt' x y); cbn [In] in *; tauto.
Qed.

(* ----- the deepest entry ----- *)
Definition longer (e : list string * jv) : nat := length (fst e).
Definition first_max := pymax (fun a b => Nat.ltb (longer a) (longer b)).
Definition is_done (nu : string * ptree) : Prop := exists v, snd nu = Done v.
Lemma first_max_under n l x : first_max l = Some x -> first_max (map (under n) l) = Some (under n x).
Proof.
  intros E. unfold first_max in *. rewrite pymax_map. rewrite (pymax_ext _ (fun a b => Nat.ltb (longer a) (longer b))); [now rewrite E|].
  intros a b _ _. unfold longer, under. cbn [fst length]. destruct (Nat.ltb_spec (length (fst a)) (length (fst b))); [apply Nat.ltb_lt|apply Nat.ltb_ge]; lia.
Qed.
Lemma first_max_len l x : first_max l = Some x -> forall e, In e l -> (longer e <= longer x)%nat.
Proof.
  destruct l as [|y l]; [discriminate|]. unfold first_max. cbn [pymax]. intros [= <-]. revert y.
  induction l as [|z l IH]; intros y e [->|I]; cbn [fold_left] in *.
  - lia.
  - destruct I.
  - specialize (IH (max_step (fun a b => Nat.ltb (longer a) (longer b)) e z) _ (or_introl eq_refl)).
    unfold max_step at 1 in IH. destruct (Nat.ltb_spec (longer e) (longer z)); [|exact IH].
    etransitivity; [|exact IH]. lia.
  - destruct I as [->|I]; [|exact (IH _ _ (or_intror I))].
    specialize (IH (max_step (fun a b => Nat.ltb (longer a) (longer b)) y e) _ (or_introl eq_refl)).
    unfold max_step at 1 in IH. destruct (Nat.ltb_spec (longer y) (longer e)); [exact IH|]. etransitivity; [|exact IH]. lia.
Qed.
(* either everything is final, or the first of the deepest entries is the first parameter of an object with final parameters *)
Definition deepest_at (ps : forest) (x : list string * jv) : Prop :=
  exists K p c n v rest, ctx K p /\ ps = K (Open c ((n, Done v) :: rest)) /\ Forall is_done rest /\ x = (p ++ [n], v).
Lemma first_max_forest ps : (forall nu c qs, In nu ps -> snd nu = Open c qs -> qs <> []) -> ps <> [] ->
  (Forall is_done ps /\ exists n v rest, ps = (n, Done v) :: rest /\ first_max (fent ps) = Some ([n], v)) \/
  (exists A n c qs B y, ps = A ++ (n, Open c qs) :: B /\ first_max (fent qs) = Some y /\ first_max (fent ps) = Some (under n y)).
Proof.
  induction ps as [|[n u] ps IH]; intros Q N; [congruence|].
  assert (Q' : forall nu c qs, In nu ps -> snd nu = Open c qs -> qs <> []) by (intros nu c qs I; apply (Q nu c qs); now right).
  cbn [fent]. change (([n], head u) :: fent ps) with ([([n], head u)] ++ fent ps). rewrite app_assoc.
  assert (Hu : (exists v, u = Done v /\ first_max (map (under n) (entries u) ++ [([n], head u)]) = Some ([n], v)) \/
    (exists c qs y, u = Open c qs /\ first_max (fent qs) = Some y /\ (1 <= longer y)%nat /\ first_max (map (under n) (entries u) ++ [([n], head u)]) = Some (under n y))).
  { destruct u as [v|c qs]; [left; exists v; split; reflexivity|right]. 
    pose proof (Q (n, Open c qs) c qs (or_introl eq_refl) eq_refl) as Nq.
    assert (Y : exists y, first_max (fent qs) = Some y).
    { unfold first_max. destruct qs as [|[m w] qs]; [congruence|]. cbn [fent]. destruct (map (under m) (entries w)); cbn; eexists; reflexivity. }
    destruct Y as [y Ey]. assert (Ly : (1 <= longer y)%nat).
    { unfold first_max in Ey. apply pymax_In in Ey. pose proof (fent_nonempty _ _ Ey). unfold longer. destruct (fst y); [congruence|cbn; lia]. }
    exists c, qs, y. split; [reflexivity|]. split; [exact Ey|]. split; [exact Ly|]. rewrite entries_open. unfold first_max. rewrite pymax_app.
    fold (first_max (map (under n) (fent qs))). rewrite (first_max_under n _ y Ey). cbn [pymax fold_left].
    destruct (Nat.ltb_spec (longer (under n y)) (longer ([n], head (Open c qs)))) as [C|C]; [|reflexivity].
    unfold longer, under in C. cbn [fst length] in C. unfold longer in Ly. lia. }
  unfold first_max in Hu |- *. rewrite pymax_app.
  destruct ps as [|mw ps].
  - cbn [fent pymax]. destruct Hu as [(v & -> & E)|(c & qs & y & -> & Ey & _ & E)].
    + left. split; [repeat constructor; now exists v|]. exists n, v, []. split; [reflexivity|]. now rewrite E.
    + right. exists [], n, c, qs, [], y. split; [reflexivity|]. split; [exact Ey|]. now rewrite E.
  - assert (Nps : mw :: ps <> []) by discriminate. remember (mw :: ps) as ps1 eqn:Eps. clear Eps. destruct (IH Q' Nps) as [(D & m & w & rest & -> & E)|(A & m & c & qs & B & y & -> & Ey & E)]; unfold first_max in E; rewrite E.
    + destruct Hu as [(v & -> & Eu)|(c & qs & y & -> & Ey & Ly & Eu)]; rewrite Eu.
      * left. split; [constructor; [now exists v|exact D]|]. exists n, v, ((m, Done w) :: rest). split; reflexivity.
      * right. exists [], n, c, qs, ((m, Done w) :: rest), y. split; [reflexivity|]. split; [exact Ey|].
        destruct (Nat.ltb_spec (longer (under n y)) (longer ([m], w))) as [C|C]; [|reflexivity]. unfold longer, under in C. cbn [fst length] in C. lia.
    + assert (Ly : (1 <= longer y)%nat).
      { unfold first_max in Ey. apply pymax_In in Ey. pose proof (fent_nonempty _ _ Ey). unfold longer. destruct (fst y); [congruence|cbn; lia]. }
      right. destruct Hu as [(v & -> & Eu)|(c' & qs' & y' & -> & Ey' & Ly' & Eu)]; rewrite Eu.
      * exists ((n, Done v) :: A), m, c, qs, B, y. split; [reflexivity|]. split; [exact Ey|].
        destruct (Nat.ltb_spec (longer ([n], v)) (longer (under m y))) as [C|C]; [reflexivity|]. unfold longer, under in C, Ly. cbn [fst length] in C. lia.
      * destruct (Nat.ltb_spec (longer (under n y')) (longer (under m y))).
        -- exists ((n, Open c' qs') :: A), m, c, qs, B, y. split; [reflexivity|]. split; [exact Ey|reflexivity].
        -- exists [], n, c', qs', (A ++ (m, Open c qs) :: B), y'. split; [reflexivity|]. split; [exact Ey'|reflexivity].
Qed.
Lemma deepest c ps : pwf (Open c ps) -> Forall is_done ps /\ (exists n v rest, ps = (n, Done v) :: rest /\ first_max (fent ps) = Some ([n], v)) \/
  exists x, first_max (fent ps) = Some x /\ deepest_at ps x.
Proof.
  remember (Open c ps) as u eqn:Eu. revert c ps Eu. induction u as [v|c0 ps0 IH] using ptree_ind'; intros c ps [= <- <-] W.
  inversion W as [|? ? D N G F]; subst. destruct (first_max_forest ps0) as [H|(A & n & c' & qs & B & y & -> & Ey & E)].
  - intros nu c' qs I E. rewrite Forall_forall in F. specialize (F _ I). rewrite E in F. now inversion F.
  - exact N.
  - now left.
  - right. exists (under n y). split; [exact E|]. rewrite Forall_app in IH. destruct IH as [_ IH]. inversion IH as [|? ? IHu _]; subst.
    rewrite Forall_app in F. destruct F as [_ F]. inversion F as [|? ? Fu _]; subst. cbn [snd] in *.
    destruct (IHu c' qs eq_refl Fu) as [(Dq & m & v & rest & -> & E')|(x & E' & K & p & c'' & m & v & rest & HK & -> & Dr & ->)].
    + rewrite E' in Ey. injection Ey as <-. exists (fun u => A ++ (n, u) :: B), [n], c', m, v, rest.
      split; [constructor|]. split; [reflexivity|]. split; [now inversion Dq|reflexivity].
    + rewrite E' in Ey. injection Ey as <-. exists (fun u => A ++ (n, Open c' (K u)) :: B), (n :: p), c'', m, v, rest.
      split; [now constructor|]. split; [reflexivity|]. split; [exact Dr|reflexivity].
Qed.

(* ----- reading the parameters of one object ----- *)
Section Classes.
Variable classes : string -> option cinfo.
Definition renew (v : jv) : res jv :=
  match v with JClass c => if String.eqb c "numpy.ndarray" then Ok (JObj TBlank) else let? o := instance classes c in Ok (JObj o) | _ => Ok v end.
Definition kw (v : jv) : res (option tree) :=
  match v with JNone => Ok (Some TNone) | JClass c => let? _ := instance classes c in Ok None | JPrim p => Ok (Some (TPrim p)) | JObj t => Ok (Some t) end.
Fixpoint args (kids : list (string * jv)) : res (list (string * tree)) :=
  match kids with
  | [] => Ok []
  | (n, v) :: kids' => let? a := kw v in let? r := args kids' in Ok (match a with Some t => (n, t) :: r | None => r end)
  end.
Definition finish (c : string) (kids : list (string * jv)) : res tree :=
  match kids with
  | [] => Raise KeyError
  | (n, v) :: rest => let? v' := renew v in let? kws := args ((n, v') :: rest) in build classes c kws
  end.
Lemma assoc_ddel {V} (d : list (string * V)) k k' : k <> k' -> assoc (ddel d k) k' = assoc d k'.
Proof.
  intros N. unfold ddel. induction d as [|[x v] d IH]; [reflexivity|]. cbn [filter fst assoc].
  destruct (String.eqb_spec x k) as [->|E]; cbn [negb].
  - destruct (String.eqb_spec k k'); [congruence|exact IH].
  - cbn [assoc]. now rewrite IH.
Qed.
Lemma dset_new {V} (d : list (string * V)) k v : ~ In k (map fst d) -> dset d k v = d ++ [(k, v)].
Proof. intros N. rewrite <- (app_nil_r d) at 1. rewrite dset_app by exact N. reflexivity. Qed.
Lemma args_names kids r : args kids = Ok r -> forall n, In n (map fst r) -> In n (map fst kids).
Proof.
  revert r. induction kids as [|[n v] kids IH]; intros r E m I; [injection E as <-; exact I|]. cbn [args] in E.
  destruct (kw v) as [a|]; [|discriminate E]. cbn [rbind] in E. destruct (args kids) as [r'|]; [|discriminate E]. injection E as <-.
  destruct a; cbn in I |- *; [destruct I as [->|I]; [now left|right; eauto]|right; eauto].
Qed.
Lemma take_params_spec p (kids : list (string * jv)) params d :
  p <> [] -> Forall (fun nv => plain (fst nv) = true) kids -> NoDup (map fst kids) -> plains p ->
  (forall n, In n (map fst kids) -> ~ In n (map fst params)) ->
  (forall n v, In (n, v) kids -> assoc d (join (p ++ [n])) = Some v) ->
  take_params classes (map (fun nv => join (p ++ [fst nv])) kids) params d =
  let? r := args kids in Ok (params ++ r, fold_left ddel (map (fun nv => join (p ++ [fst nv])) kids) d).
Proof.
  intros Np. revert params d. induction kids as [|[n v] kids IH]; intros params d P N Pp F A; [cbn; now rewrite app_nil_r|].
  inversion P as [|? ? Pn P']; subst. cbn [map fst] in *. inversion N as [|? ? Nn N']; subst.
  cbn [take_params args fold_left]. rewrite (A n v (or_introl eq_refl)). cbn [of_option rbind]. rewrite (param_join p n Pn Np).
  assert (A' : forall m w, In (m, w) kids -> assoc (ddel d (join (p ++ [n]))) (join (p ++ [m])) = Some w).
  { intros m w I. rewrite assoc_ddel; [exact (A m w (or_intror I))|]. intros E. apply join_inj in E.
    - apply app_inj_tail in E as [_ ->]. apply Nn. exact (in_map fst _ _ I).
    - apply Forall_app. split; [exact Pp|now repeat constructor].
    - apply Forall_app. split; [exact Pp|]. repeat constructor. rewrite Forall_forall in P'. exact (P' _ I).
    - destruct p; discriminate.
    - destruct p; discriminate. }
  assert (Fn : ~ In n (map fst params)) by (apply F; now left).
  assert (One : forall t, take_params classes (map (fun nv => join (p ++ [fst nv])) kids) (dset params n t) (ddel d (join (p ++ [n]))) =
    let? r := args kids in Ok (params ++ (n, t) :: r, fold_left ddel (map (fun nv => join (p ++ [fst nv])) kids) (ddel d (join (p ++ [n]))))).
  { intros t. rewrite (IH (dset params n t) _ P' N' Pp); [|intros m I C|exact A'].
    - destruct (args kids); [|reflexivity]. cbn [rbind]. rewrite (dset_new params n t Fn), <- app_assoc. reflexivity.
    - rewrite (dset_new params n t Fn), map_app in C. apply in_app_or in C as [C|[<-|[]]]; [exact (F m (or_intror I) C)|]. contradiction. }
  assert (Zero : take_params classes (map (fun nv => join (p ++ [fst nv])) kids) params (ddel d (join (p ++ [n]))) =
    let? r := args kids in Ok (params ++ r, fold_left ddel (map (fun nv => join (p ++ [fst nv])) kids) (ddel d (join (p ++ [n]))))).
  { apply (IH params _ P' N' Pp); [intros m I; exact (F m (or_intror I))|exact A']. }
  destruct v as [q| |c|t]; cbn [kw rbind].
  - rewrite One. now destruct (args kids).
  - rewrite One. now destruct (args kids).
  - destruct (instance classes c) as [o|e]; [|reflexivity]. cbn [rbind]. rewrite Zero. now destruct (args kids).
  - rewrite One. now destruct (args kids).
Qed.
Lemma fold_ddel {V} ks (d : list (string * V)) : fold_left ddel ks d = filter (fun kv => negb (existsb (String.eqb (fst kv)) ks)) d.
Proof.
  revert d. induction ks as [|k ks IH]; intros d; [symmetry; apply filter_all; reflexivity|]. cbn [fold_left existsb]. rewrite IH. unfold ddel.
  induction d as [|kv d IHd]; [reflexivity|]. cbn [filter]. destruct (String.eqb (fst kv) k); cbn [negb orb filter]; [exact IHd|].
  destruct (existsb (String.eqb (fst kv)) ks); cbn [negb]; [exact IHd|now rewrite IHd].
Qed.
Definition kid (nv : string * jv) : string * ptree := (fst nv, Done (snd nv)).
Lemma kids_fent kids : fent (map kid kids) = map (fun nv => ([fst nv], snd nv)) kids.
Proof. induction kids as [|nv kids IH]; [reflexivity|]. cbn. now rewrite IH. Qed.
Lemma kids_done rest : Forall is_done rest -> exists kids, rest = map kid kids.
Proof.
  induction 1 as [|[n u] rest [v E] _ [kids ->]]; [now exists []|]. cbn in E. subst u. now exists ((n, v) :: kids).
Qed.
Lemma kid_names kids : map fst (map kid kids) = map fst kids.
Proof. now rewrite map_map. Qed.
(* one object *)
Lemma fold_node K p c kids v n : ctx K p -> fwf (K (Open c (map kid ((n, v) :: kids)))) ->
  (let? d := update_longest classes (dict (K (Open c (map kid ((n, v) :: kids))))) (join (p ++ [n])) in
   let? (params, d) := take_params classes (same_base d (join p)) [] d in
   let? v := of_option KeyError (assoc d (join p)) in
   let? c := get_class v in
   let? o := build classes c params in
   Ok (dset d (join p) (JObj o))) =
  let? o := finish c ((n, v) :: kids) in Ok (dict (K (Done (JObj o)))).
Proof.
  intros H W. pose proof (ctx_plains K p _ H W) as Pp. pose proof (ctx_nonempty K p H) as Np.
  pose proof (ctx_pwf K p _ H (proj2 W)) as Wc. inversion Wc as [|? ? Dc _ Gc _]; subst.
  (* the first parameter *)
  pose proof (ctx_snoc K p c [] n (map kid kids) H) as H1. cbn [app] in H1.
  assert (W1 : fwf ((fun u => K (Open c ((n, u) :: map kid kids))) (Done v))) by exact W.
  destruct (ctx_dict _ _ v H1 W1) as [A1 S1]. cbn beta in A1, S1.
  assert (Wv : forall v', fwf (K (Open c (map kid ((n, v') :: kids))))).
  { intros v'. exact (ctx_fwf _ _ _ (Done v') H1 W1 (W_done v') ltac:(discriminate)). }
  assert (U : update_longest classes (dict (K (Open c (map kid ((n, v) :: kids))))) (join (p ++ [n])) =
    let? v' := renew v in Ok (dict (K (Open c (map kid ((n, v') :: kids)))))).
  { unfold update_longest. change (map kid ((n, v) :: kids)) with ((n, Done v) :: map kid kids). rewrite A1. cbn [of_option rbind]. destruct v as [q| |c0|t]; cbn [renew rbind]; try reflexivity.
    destruct (String.eqb c0 "numpy.ndarray"); [cbn [rbind]; now rewrite S1|]. destruct (instance classes c0); [|reflexivity]. cbn [rbind]. now rewrite S1. }
  rewrite U. cbn [finish]. destruct (renew v) as [v'|e]; [|reflexivity]. cbn [rbind]. clear U A1 S1.
  set (all := (n, v') :: kids). specialize (Wv v'). fold all in Wv |- *. set (ps := K (Open c (map kid all))) in *.
  destruct (ctx_filter K p c (map kid all) H Wv) as [F1 F2].
  assert (Keep : forall e, In e (fent ps) -> String.prefix (join p) (fst (named e)) && negb (String.eqb (fst (named e)) (join p)) = inside p (fst e)) by (intros e I; exact (inside_key K p c _ e H Wv I)).
  assert (Keys : same_base (dict ps) (join p) = map (fun nv => join (p ++ [fst nv])) all).
  { unfold same_base, dict. rewrite map_map, filter_map'.
    rewrite (filter_ext_in' _ (fun e => inside p (fst e)) (fent ps)) by exact Keep. unfold ps at 1. rewrite F1, kids_fent, !map_map. reflexivity. }
  rewrite Keys.
  assert (Gn : NoDup (map fst all) /\ Forall (fun nv => plain (fst nv) = true) all).
  { pose proof (ctx_pwf K p _ H (proj2 Wv)) as Wa. assert (Ga : good (map kid all)) by now inversion Wa. destruct Ga as (Pl & Nd & _). rewrite kid_names in Pl, Nd.
    split; [exact Nd|]. unfold plains in Pl. now rewrite Forall_map in Pl. }
  rewrite (take_params_spec p all [] (dict ps) Np (proj2 Gn) (proj1 Gn) Pp).
  2: { intros m _ []. }
  2: { intros m w I. apply in_split in I as (k1 & k2 & Ek).
       pose proof (ctx_snoc K p c (map kid k1) m (map kid k2) H) as H2.
       assert (E2 : ps = K (Open c (map kid k1 ++ (m, Done w) :: map kid k2))) by (unfold ps; rewrite Ek, map_app; reflexivity).
       assert (Wm : fwf (K (Open c (map kid k1 ++ (m, Done w) :: map kid k2)))) by (rewrite <- E2; exact Wv).
       rewrite E2. exact (proj1 (ctx_dict (fun u => K (Open c (map kid k1 ++ (m, u) :: map kid k2))) (p ++ [m]) w H2 Wm)). }
  destruct (args all) as [kws|e]; [|reflexivity]. cbn [rbind app].
  assert (D2 : fold_left ddel (map (fun nv => join (p ++ [fst nv])) all) (dict ps) = dict (K (Done (JClass c)))).
  { rewrite fold_ddel, <- Keys. set (ks := same_base (dict ps) (join p)). unfold dict. rewrite filter_map'. subst ks.
    rewrite (filter_ext_in' _ (fun e => negb (inside p (fst e))) (fent ps)); [f_equal; exact F2|]. intros e I. f_equal. rewrite <- (Keep e I).
    destruct (String.prefix (join p) (fst (named e)) && negb (String.eqb (fst (named e)) (join p))) eqn:B.
    - apply existsb_exists. exists (fst (named e)). split; [|apply String.eqb_refl]. unfold same_base. apply filter_In. split; [|exact B].
      apply in_map. unfold dict. now apply in_map.
    - destruct (existsb _ _) eqn:X; [|reflexivity]. apply existsb_exists in X as (k & Ik & Ek). apply String.eqb_eq in Ek as <-.
      unfold same_base in Ik. apply filter_In in Ik as [_ Ik]. congruence. }
  rewrite D2.
  assert (W3 : fwf (K (Done (JClass c)))) by exact (ctx_fwf K p _ _ H Wv (W_done _) ltac:(discriminate)).
  destruct (ctx_dict K p _ H W3) as [A3 S3]. rewrite A3. cbn [of_option rbind get_class]. rewrite Dc. cbn [rbind].
  destruct (build classes c kws); [|reflexivity]. cbn [rbind]. now rewrite S3.
Qed.
End Classes.
