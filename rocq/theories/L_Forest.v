(* The dictionary of a configuration as a forest that is folded from the leaves, and the loop of _deserialize_config on it. *)
From Coq Require Import String Ascii.
From Verif Require Import PyNum PyList PyMon M_Json S_Objects S_Json L_List L_Text.
From Verif Require M_Objects.
Local Open Scope string_scope.
Local Open Scope list_scope.

(* an entry that is final, or an object whose parameters are entries of their own *)
Inductive ptree : Type := Done (v : jv) | Open (c : string) (ps : list (string * ptree)).
Definition forest := list (string * ptree).
Fixpoint ptree_ind' (P : ptree -> Prop) (HD : forall v, P (Done v)) (HO : forall c ps, Forall (fun nu => P (snd nu)) ps -> P (Open c ps)) (u : ptree) : P u :=
  match u with
  | Done v => HD v
  | Open c ps => HO c ps ((fix all (ps : forest) : Forall (fun nu => P (snd nu)) ps :=
      match ps with [] => Forall_nil _ | nu :: ps' => Forall_cons _ (ptree_ind' P HD HO (snd nu)) (all ps') end) ps)
  end.
Definition head (u : ptree) : jv := match u with Done v => v | Open c _ => JClass c end.
Definition under (n : string) (e : list string * jv) : list string * jv := (n :: fst e, snd e).
Fixpoint entries (u : ptree) : list (list string * jv) :=
  match u with
  | Done _ => []
  | Open c ps => (fix go (ps : forest) := match ps with [] => [] | (n, u) :: ps' => map (under n) (entries u) ++ ([n], head u) :: go ps' end) ps
  end.
Fixpoint fent (ps : forest) : list (list string * jv) :=
  match ps with [] => [] | (n, u) :: ps' => map (under n) (entries u) ++ ([n], head u) :: fent ps' end.
Lemma entries_open c ps : entries (Open c ps) = fent ps.
Proof. cbn. induction ps as [|[n u] ps IH]; [reflexivity|]. cbn [fent]. now rewrite IH. Qed.
Lemma fent_app a b : fent (a ++ b) = fent a ++ fent b.
Proof. induction a as [|[n u] a IH]; [reflexivity|]. cbn [app fent]. rewrite IH, <- app_assoc. reflexivity. Qed.
Definition named (e : list string * jv) : string * jv := (join (fst e), snd e).
Definition dict (ps : forest) : list (string * jv) := map named (fent ps).

(* ----- well-formedness ----- *)
Definition good (ps : forest) : Prop :=
  plains (map fst ps) /\ NoDup (map fst ps) /\
  forall n c qs m, In (n, Open c qs) ps -> In m (map fst ps) -> (exists r, m = (n ++ r)%string) -> m = n.
Inductive pwf : ptree -> Prop :=
| W_done v : pwf (Done v)
| W_open c ps : M_Objects.contains "." c = true -> ps <> [] -> good ps -> Forall (fun nu => pwf (snd nu)) ps -> pwf (Open c ps).
Definition fwf (ps : forest) : Prop := good ps /\ Forall (fun nu => pwf (snd nu)) ps.

Lemma fent_path ps e : In e (fent ps) -> exists n p, fst e = n :: p /\ In n (map fst ps).
Proof.
  induction ps as [|[n u] ps IH]; intros H; [destruct H|]. cbn [fent] in H. apply in_app_or in H as [H|[<-|H]].
  - apply in_map_iff in H as (e' & <- & _). exists n, (fst e'). split; [reflexivity|now left].
  - exists n, []. split; [reflexivity|now left].
  - destruct (IH H) as (m & p & E & I). exists m, p. split; [exact E|now right].
Qed.
Lemma entries_plains u : pwf u -> forall e, In e (entries u) -> plains (fst e).
Proof.
  induction u as [v|c ps IH] using ptree_ind'; intros W e H; [destruct H|]. rewrite entries_open in H. inversion W as [|? ? _ _ G F]; subst.
  destruct G as (P & _). clear W. induction ps as [|[n u] ps IHp]; [destruct H|].
  inversion IH as [|? ? IHu IH']; subst. inversion F as [|? ? Fu F']; subst. inversion P as [|? ? Pn P']; subst.
  cbn [fent] in H. apply in_app_or in H as [H|[<-|H]].
  - apply in_map_iff in H as (e' & <- & H). constructor; [exact Pn|exact (IHu Fu e' H)].
  - repeat constructor. exact Pn.
  - exact (IHp IH' H P' F').
Qed.
Lemma fent_plains ps : fwf ps -> forall e, In e (fent ps) -> plains (fst e).
Proof.
  intros [G F] e H. destruct ps as [|nu ps]; [destruct H|].
  apply (entries_plains (Open "." (nu :: ps))); [|now rewrite entries_open]. constructor; [reflexivity|discriminate|exact G|exact F].
Qed.
Lemma fent_nonempty ps e : In e (fent ps) -> fst e <> [].
Proof. intros H. destruct (fent_path ps e H) as (n & p & -> & _). discriminate. Qed.

(* ----- contexts: a forest with a hole at a path ----- *)
Inductive ctx : (ptree -> forest) -> list string -> Prop :=
| C_here A n B : ctx (fun u => A ++ (n, u) :: B) [n]
| C_down A n c B K p : ctx K p -> ctx (fun u => A ++ (n, Open c (K u)) :: B) (n :: p).
Lemma ctx_snoc K p c A n B : ctx K p -> ctx (fun u => K (Open c (A ++ (n, u) :: B))) (p ++ [n]).
Proof. induction 1 as [A' m B'|A' m c' B' K p H IH]; cbn [app]; [exact (C_down A' m c B' _ _ (C_here A n B))|exact (C_down A' m c' B' _ _ IH)]. Qed.
Lemma ctx_nonempty K p : ctx K p -> p <> [].
Proof. destruct 1; discriminate. Qed.
Lemma ctx_pwf K p u : ctx K p -> Forall (fun nu => pwf (snd nu)) (K u) -> pwf u.
Proof.
  induction 1 as [A n B|A n c B K p H IH]; intros F; apply Forall_app in F as [_ F]; inversion F as [|? ? Fu _]; subst; [exact Fu|].
  inversion Fu as [|? ? _ _ _ F']; subst. auto.
Qed.
Lemma ctx_names K p u u' : ctx K p -> map fst (K u) = map fst (K u').
Proof. destruct 1; now rewrite !map_app. Qed.
(* the node may be replaced: by something final, or by an object *)
Lemma good_swap A n u u' B : good (A ++ (n, u) :: B) -> (forall c qs, u' = Open c qs -> exists c' qs', u = Open c' qs') -> good (A ++ (n, u') :: B).
Proof.
  intros (P & N & C) Q. unfold good. rewrite !map_app in *. split; [exact P|]. split; [exact N|].
  intros m c qs k H I R. apply in_app_or in H as [H|[H|H]].
  - exact (C m c qs k (in_or_app _ _ _ (or_introl H)) I R).
  - injection H as <- ->. destruct (Q c qs eq_refl) as (c' & qs' & ->).
    exact (C n c' qs' k (in_elt _ _ _) I R).
  - refine (C m c qs k _ I R). apply in_or_app. right. now right.
Qed.
Lemma ctx_fwf K p u u' : ctx K p -> fwf (K u) -> pwf u' -> (forall c qs, u' = Open c qs -> exists c' qs', u = Open c' qs') -> fwf (K u').
Proof.
  induction 1 as [A n B|A n c B K p H IH]; intros [G F] W Q; (split; [apply (good_swap A n _ _ B G)|]).
  - exact Q.
  - apply Forall_app in F as [FA F]. inversion F as [|? ? _ FB]; subst. apply Forall_app. split; [exact FA|now constructor].
  - intros c' qs [= <- <-]. now exists c, (K u).
  - apply Forall_app in F as [FA F]. inversion F as [|? ? Fu FB]; subst. apply Forall_app. split; [exact FA|]. constructor; [|exact FB].
    cbn [snd] in *. inversion Fu as [|? ? D N G' F']; subst. destruct (IH (conj G' F') W Q) as [G'' F''].
    constructor; [exact D| |exact G''|exact F'']. intros E. apply (f_equal (map fst)) in E. rewrite (ctx_names K p u' u H) in E. destruct (K u); [congruence|discriminate E].
Qed.

Fixpoint lpre (p q : list string) : bool :=
  match p, q with [], _ => true | a :: p', b :: q' => String.eqb a b && lpre p' q' | _, [] => false end.
Lemma lpre_app p q : lpre p (p ++ q) = true.
Proof. induction p as [|a p IH]; [reflexivity|]. cbn. now rewrite String.eqb_refl. Qed.
Lemma lpre_inv p q : lpre p q = true -> exists r, q = p ++ r.
Proof.
  revert q. induction p as [|a p IH]; intros q E; [now exists q|]. destruct q as [|b q]; [discriminate E|]. cbn in E.
  apply Bool.andb_true_iff in E as [E1 E2]. apply String.eqb_eq in E1 as ->. destruct (IH q E2) as [r ->]. now exists r.
Qed.
Lemma other_names n p ps e : ~ In n (map fst ps) -> In e (fent ps) -> lpre (n :: p) (fst e) = false.
Proof.
  intros N H. destruct (fent_path ps e H) as (m & q & -> & I). cbn. destruct (String.eqb_spec n m) as [->|]; [contradiction|reflexivity].
Qed.
Definition ext (p : list string) (e : list string * jv) : list string * jv := (p ++ fst e, snd e).
(* where the entries of the node are; nothing else starts with its path *)
Lemma ctx_entries K p u : ctx K p -> fwf (K u) ->
  exists E1 E2, (forall u', fent (K u') = E1 ++ map (ext p) (entries u') ++ (p, head u') :: E2) /\
    forall e, In e (E1 ++ E2) -> lpre p (fst e) = false.
Proof.
  induction 1 as [A n B|A n c B K p H IH]; intros [G F].
  - exists (fent A), (fent B). split.
    + intros u'. rewrite fent_app. cbn [fent]. reflexivity.
    + destruct G as (_ & N & _). rewrite map_app in N. cbn [map fst] in N. apply NoDup_remove_2 in N.
      intros e I. apply in_app_or in I as [I|I]; (eapply other_names; [|exact I]); intros C; apply N, in_or_app; auto.
  - apply Forall_app in F as [FA F]. inversion F as [|? ? Fu FB]; subst. cbn [snd] in Fu. inversion Fu as [|? ? D Nk G' F']; subst.
    destruct (IH (conj G' F')) as (E1 & E2 & Ee & L).
    exists (fent A ++ map (under n) E1), (map (under n) E2 ++ ([n], JClass c) :: fent B). split.
    + intros u'. rewrite fent_app. cbn [fent head]. rewrite entries_open, Ee, !map_app. cbn [map]. rewrite map_map. cbn [under fst snd ext].
      rewrite <- !app_assoc. reflexivity.
    + destruct G as (_ & N & _). rewrite map_app in N. cbn [map fst] in N. apply NoDup_remove_2 in N.
      intros e I. rewrite !in_app_iff in I. cbn [In] in I.
      assert (Other : forall ps', (forall x, In x (map fst ps') -> In x (map fst A ++ map fst B)) -> In e (fent ps') -> lpre (n :: p) (fst e) = false).
      { intros ps' S Ie. eapply other_names; [|exact Ie]. intros C. now apply N, S. }
      assert (Inner : forall E', (forall x, In x E' -> In x (E1 ++ E2)) -> In e (map (under n) E') -> lpre (n :: p) (fst e) = false).
      { intros E' S Ie. apply in_map_iff in Ie as (e' & <- & Ie). cbn. rewrite String.eqb_refl. exact (L e' (S _ Ie)). }
      destruct I as [[I|I]|[I|[<-|I]]].
      * apply (Other A); [intros x Hx; apply in_or_app; now left|exact I].
      * apply (Inner E1); [intros x Hx; apply in_or_app; now left|exact I].
      * apply (Inner E2); [intros x Hx; apply in_or_app; now right|exact I].
      * cbn. rewrite String.eqb_refl. pose proof (ctx_nonempty K p H). destruct p; [congruence|reflexivity].
      * apply (Other B); [intros x Hx; apply in_or_app; now right|exact I].
Qed.

(* names of entries and prefixes *)
Lemma starts_nil p : starts p [] -> False.
Proof. destruct p as [|a [|b p]]; exact (fun x => x). Qed.
Lemma in_group A n u B e m q : NoDup (map fst (A ++ (n, u) :: B)) -> In e (fent (A ++ (n, u) :: B)) -> fst e = n :: m :: q ->
  exists e', In e' (entries u) /\ fst e' = m :: q.
Proof.
  intros N I E. rewrite map_app in N. cbn [map fst] in N. apply NoDup_remove_2 in N. rewrite fent_app in I. apply in_app_or in I as [I|I].
  - exfalso. destruct (fent_path A e I) as (k & r & E' & Ik). rewrite E in E'. injection E' as -> _. apply N, in_or_app. now left.
  - cbn [fent] in I. apply in_app_or in I as [I|[<-|I]].
    + apply in_map_iff in I as (e' & <- & I). exists e'. split; [exact I|]. cbn in E. now injection E.
    + discriminate E.
    + exfalso. destruct (fent_path B e I) as (k & r & E' & Ik). rewrite E in E'. injection E' as -> _. apply N, in_or_app. now right.
Qed.
Lemma starts_lpre K p c kids e : ctx K p -> fwf (K (Open c kids)) -> In e (fent (K (Open c kids))) -> starts p (fst e) -> lpre p (fst e) = true.
Proof.
  intros H. revert e. induction H as [A n B|A n c' B K p H IH]; intros e [G F] I S.
  - destruct (fent_path _ e I) as (m & q & E & Im). rewrite E in *. cbn [starts] in S.
    destruct G as (_ & _ & C). rewrite (C n c kids m (in_elt _ _ _) Im S). cbn. now rewrite String.eqb_refl.
  - destruct (fent_path _ e I) as (m & q & E & Im). rewrite E in S. pose proof (ctx_nonempty K p H) as Np.
    assert (S' : n = m /\ starts p q) by (destruct p; [congruence|exact S]). destruct S' as [-> S'].
    destruct q as [|k q]; [destruct (starts_nil _ S')|].
    destruct (in_group A m _ B e k q (proj1 (proj2 G)) I E) as (e' & I' & E').
    apply Forall_app in F as [_ F]. inversion F as [|? ? Fu _]; subst. cbn [snd] in Fu. inversion Fu as [|? ? _ _ G' F']; subst.
    rewrite entries_open in I'. rewrite E. cbn [lpre]. rewrite String.eqb_refl, <- E'. apply IH; [split; assumption|exact I'|now rewrite E'].
Qed.
Lemma lpre_prefix p q : p <> [] -> lpre p q = true -> String.prefix (join p) (join q) = true.
Proof.
  intros N L. apply lpre_inv in L as [r ->]. apply prefix_app. induction p as [|a p IH]; [congruence|].
  destruct p as [|b p].
  - destruct r as [|b r]; [exists ""; cbn; now rewrite app_nil_r'|]. exists ("__" ++ join (b :: r))%string. reflexivity.
  - destruct (IH ltac:(discriminate)) as [s E]. exists s. cbn [app] in E |- *.
    rewrite (join_cons a (b :: p ++ r)) by discriminate. rewrite (join_cons a (b :: p)) by discriminate. rewrite E, !app_assoc'. reflexivity.
Qed.
Lemma prefix_lpre K p c kids e : ctx K p -> plains p -> fwf (K (Open c kids)) -> In e (fent (K (Open c kids))) ->
  String.prefix (join p) (join (fst e)) = lpre p (fst e).
Proof.
  intros H P W I. destruct (lpre p (fst e)) eqn:L.
  - exact (lpre_prefix _ _ (ctx_nonempty _ _ H) L).
  - destruct (String.prefix (join p) (join (fst e))) eqn:E; [|reflexivity]. exfalso. apply prefix_app in E as [r E].
    enough (lpre p (fst e) = true) by congruence. apply (starts_lpre K p c kids e H W I).
    exact (join_starts _ _ r P (fent_plains _ W e I) (ctx_nonempty _ _ H) (fent_nonempty _ _ I) (eq_sym E)).
Qed.
Lemma ctx_plains K p u : ctx K p -> fwf (K u) -> plains p.
Proof.
  intros H W. destruct (ctx_entries K p u H W) as (E1 & E2 & E & _).
  apply (fent_plains (K u) W (p, head u)). rewrite E. apply in_or_app. right. apply in_or_app. right. now left.
Qed.

(* ----- the dictionary ----- *)
Lemma assoc_app {V} (a b : list (string * V)) k : ~ In k (map fst a) -> assoc (a ++ b) k = assoc b k.
Proof.
  induction a as [|[k' v] a IH]; intros N; [reflexivity|]. cbn. destruct (String.eqb_spec k' k) as [->|]; [exfalso; apply N; now left|].
  apply IH. intros C. apply N. now right.
Qed.
Lemma dset_app {V} (a b : list (string * V)) k v : ~ In k (map fst a) -> dset (a ++ b) k v = a ++ dset b k v.
Proof.
  induction a as [|[k' w] a IH]; intros N; [reflexivity|]. cbn. destruct (String.eqb_spec k' k) as [->|]; [exfalso; apply N; now left|].
  f_equal. apply IH. intros C. apply N. now right.
Qed.
Lemma not_named p es : plains p -> p <> [] -> (forall e, In e es -> plains (fst e) /\ fst e <> [] /\ lpre p (fst e) = false) -> ~ In (join p) (map fst (map named es)).
Proof.
  intros P N H C. rewrite map_map in C. apply in_map_iff in C as (e & E & I). cbn [named fst] in E. destruct (H e I) as (Pe & Ne & L).
  apply join_inj in E; [|assumption|exact P|assumption|exact N]. rewrite E in L. rewrite <- (app_nil_r p) in L at 2. now rewrite lpre_app in L.
Qed.
Lemma ctx_dict K p v : ctx K p -> fwf (K (Done v)) ->
  assoc (dict (K (Done v))) (join p) = Some v /\ forall w, dset (dict (K (Done v))) (join p) w = dict (K (Done w)).
Proof.
  intros H W. destruct (ctx_entries K p _ H W) as (E1 & E2 & E & L). pose proof (ctx_plains K p _ H W) as P. pose proof (ctx_nonempty K p H) as N.
  assert (Hn : ~ In (join p) (map fst (map named E1))).
  { apply (not_named p E1 P N). intros e I. assert (Ie : In e (fent (K (Done v)))) by (rewrite E; apply in_or_app; now left).
    split; [exact (fent_plains _ W e Ie)|]. split; [exact (fent_nonempty _ _ Ie)|]. apply L, in_or_app. now left. }
  unfold dict. split.
  - rewrite (E (Done v)). cbn [entries map app head]. rewrite map_app. rewrite assoc_app by exact Hn. cbn. now rewrite String.eqb_refl.
  - intros w. rewrite (E (Done v)), (E (Done w)). cbn [entries map app head]. rewrite !map_app. rewrite dset_app by exact Hn. cbn. now rewrite String.eqb_refl.
Qed.
Lemma filter_none {A} (f : A -> bool) l : (forall x, In x l -> f x = false) -> filter f l = [].
Proof. induction l as [|x l IH]; intros H; [reflexivity|]. cbn. rewrite (H x) by now left. apply IH. intros y I. apply H. now right. Qed.
Lemma filter_all {A} (f : A -> bool) l : (forall x, In x l -> f x = true) -> filter f l = l.
Proof. induction l as [|x l IH]; intros H; [reflexivity|]. cbn. rewrite (H x) by now left. f_equal. apply IH. intros y I. apply H. now right. Qed.
Lemma filter_map' {A B} (f : B -> bool) (g : A -> B) l : filter f (map g l) = map g (filter (fun x => f (g x)) l).
Proof. induction l as [|x l IH]; [reflexivity|]. cbn. destruct (f (g x)); cbn; now rewrite IH. Qed.
Lemma filter_ext_in' {A} (f g : A -> bool) l : (forall x, In x l -> f x = g x) -> filter f l = filter g l.
Proof. induction l as [|x l IH]; intros H; [reflexivity|]. cbn. rewrite (H x) by now left. rewrite IH; [reflexivity|]. intros y I. apply H. now right. Qed.
Definition inside (p : list string) (q : list string) : bool := lpre p q && negb (Nat.eqb (length q) (length p)).
Lemma inside_key K p c kids e : ctx K p -> fwf (K (Open c kids)) -> In e (fent (K (Open c kids))) ->
  String.prefix (join p) (join (fst e)) && negb (String.eqb (join (fst e)) (join p)) = inside p (fst e).
Proof.
  intros H W I. pose proof (ctx_plains K p _ H W) as P. rewrite (prefix_lpre K p c kids e H P W I). unfold inside.
  destruct (lpre p (fst e)) eqn:L; [|reflexivity]. cbn [andb]. f_equal. apply lpre_inv in L as [r Er].
  destruct (String.eqb_spec (join (fst e)) (join p)) as [E|E].
  - apply join_inj in E; [|exact (fent_plains _ W e I)|exact P|exact (fent_nonempty _ _ I)|exact (ctx_nonempty _ _ H)]. rewrite E. symmetry. apply Nat.eqb_refl.
  - symmetry. apply Nat.eqb_neq. intros El. apply E. rewrite Er, app_length in El. destruct r; [|cbn in El; lia]. now rewrite Er, app_nil_r.
Qed.
(* the keys of the node's parameters, and the dictionary without them *)
Lemma ctx_filter K p c kids : ctx K p -> fwf (K (Open c kids)) ->
  filter (fun e => inside p (fst e)) (fent (K (Open c kids))) = map (ext p) (fent kids) /\
  filter (fun e => negb (inside p (fst e))) (fent (K (Open c kids))) = fent (K (Done (JClass c))).
Proof.
  intros H W. destruct (ctx_entries K p _ H W) as (E1 & E2 & E & L).
  assert (Out : forall e, In e (E1 ++ E2) -> inside p (fst e) = false) by (intros e I; unfold inside; now rewrite (L e I)).
  assert (Self : inside p p = false) by (unfold inside; rewrite Nat.eqb_refl; now destruct (lpre p p)).
  assert (In' : forall e, In e (map (ext p) (fent kids)) -> inside p (fst e) = true).
  { intros e I. apply in_map_iff in I as (e' & <- & I). unfold inside, ext. cbn [fst]. rewrite lpre_app, app_length. cbn [andb].
    pose proof (fent_nonempty _ _ I). apply Bool.negb_true_iff, Nat.eqb_neq. destruct (fst e'); [congruence|cbn; lia]. }
  rewrite (E (Open c kids)), (E (Done (JClass c))), entries_open. cbn [entries map app head]. rewrite !filter_app. cbn [filter fst]. rewrite Self. cbn [negb]. split.
  - rewrite (filter_none _ E1), (filter_none _ E2), (filter_all _ (map (ext p) (fent kids))), app_nil_r; [reflexivity|exact In'| |]; intros e I; apply Out, in_or_app; auto.
  - rewrite (filter_all _ E1), (filter_all _ E2), (filter_none _ (map (ext p) (fent kids))); [reflexivity| | |]; intros e I; [now rewrite In'| |]; rewrite Out; try reflexivity; apply in_or_app; auto.
Qed.
