(* Components that come out of their constructors. *)
From Coq Require Import String Lia.
From Verif Require Import PyNum PyList PyMon L_List M_Objects M_Components S_Objects S_Built L_Objects L_Clone L_Params L_Representation L_Prepare L_Prepared.
Local Open Scope string_scope.

Section World.
Variable classes : string -> classinfo.
Variable builtins : atom -> list string.
Notation getattr := (getattr classes builtins). Notation setattr := (setattr classes builtins). Notation meets := (meets classes builtins). Notation follow := (follow classes builtins).
Notation param_names := (param_names classes). Notation clone_value := (clone_value classes builtins). Notation clone := (clone classes builtins). Notation component_at := (component_at classes builtins).

(* as the constructor of its class leaves it *)
Definition built (h : heap) (x : nat) : Prop := exists o, nth_error h x = Some o /\
  (forall d f n, In (d, (f, n)) (derived (classes (cls o))) -> exists w u, getattr h (Ref x) n = Ok w /\ compute f w = Ok u /\ getattr h (Ref x) d = Ok u) /\
  (forall d, In d (demands (classes (cls o))) -> meets h (Ref x) d = Ok tt).
Lemma follow_ext h h' : ext h h' -> forall path v w, follow h v path = Ok w -> follow h' v path = Ok w.
Proof.
  intros HE. induction path as [|n path IH]; intros v w H; cbn [M_Objects.follow] in *; [exact H|]. destruct (getattr h v n) as [u|e] eqn:EG; cbn [rbind] in H; [|discriminate].
  rewrite (getattr_ext _ _ _ _ _ _ _ HE EG). cbn [rbind]. exact (IH _ _ H).
Qed.
(* a demand only reads attributes *)
Lemma meets_reads h h' o d : (forall n w, getattr h o n = Ok w -> In n (match d with Comparable n => [n] | Below only small _ large => large :: match only with Some (n, _) => [n] | None => [] end end) -> getattr h' o n = Ok w) ->
  (forall w, match d with Comparable _ => True | Below _ small _ _ => follow h o small = Ok w -> follow h' o small = Ok w end) -> meets h o d = Ok tt -> meets h' o d = Ok tt.
Proof.
  intros HG HF. destruct d as [n|only small plus large]; cbn [M_Objects.meets].
  - destruct (getattr h o n) as [w|e] eqn:E; cbn [rbind]; [|discriminate]. rewrite (HG n w E) by (left; reflexivity). cbn [rbind]. auto.
  - intros H. assert (HD : exists due, match only with None => Ok true | Some (n, s) => let? w := getattr h o n in Ok (match w with Prim (AStr t) => String.eqb t s | _ => false end) end = Ok due /\
      match only with None => Ok true | Some (n, s) => let? w := getattr h' o n in Ok (match w with Prim (AStr t) => String.eqb t s | _ => false end) end = Ok due).
    { destruct only as [[n s]|]; [|exists true; auto]. destruct (getattr h o n) as [w|e] eqn:E; cbn [rbind] in H |- *; [|discriminate]. rewrite (HG n w E) by (right; left; reflexivity). cbn [rbind]. eexists. split; reflexivity. }
    destruct HD as (due & E1 & E2). rewrite E1 in H. rewrite E2. cbn [rbind] in *. destruct due; [|reflexivity].
    destruct (follow h o small) as [a|e] eqn:EA; cbn [rbind] in H; [|discriminate]. rewrite (HF a eq_refl). cbn [rbind]. destruct (number a) as [x|e]; cbn [rbind] in *; [|discriminate].
    destruct (getattr h o large) as [b|e] eqn:EB; cbn [rbind] in H; [|discriminate]. rewrite (HG large b EB) by (left; reflexivity). cbn [rbind]. exact H.
Qed.
Lemma built_ext h h' x : ext h h' -> built h x -> built h' x.
Proof.
  intros HE (o & EO & HD & HM). exists o. split; [exact (ext_nth _ _ _ _ HE EO)|]. split.
  - intros d f n HI. destruct (HD d f n HI) as (w & u & H1 & H2 & H3). exists w, u. split; [exact (getattr_ext _ _ _ _ _ _ _ HE H1)|]. split; [exact H2|exact (getattr_ext _ _ _ _ _ _ _ HE H3)].
  - intros d HI. apply (meets_reads h h'); [intros n w H _; exact (getattr_ext _ _ _ _ _ _ _ HE H)| |exact (HM d HI)]. intros w. destruct d; [exact I|]. apply follow_ext. exact HE.
Qed.
(* all the way down *)
Inductive proper (h : heap) : val -> Prop :=
| Proper_leaf v : valid h v -> param_names h v = None -> proper h v
| Proper_node x ns : param_names h (Ref x) = Some ns -> built h x -> (forall n, In n ns -> exists w, getattr h (Ref x) n = Ok w) -> (forall n w, In n ns -> getattr h (Ref x) n = Ok w -> proper h w) -> proper h (Ref x).
Lemma proper_valid h v : proper h v -> valid h v.
Proof. intros [v0 H _|x ns HP _ _ _]; [exact H|]. cbn in *. destruct (nth_error h x) eqn:E; [|discriminate]. apply nth_error_Some. congruence. Qed.
Lemma proper_ext h h' v : ext h h' -> proper h v -> proper h' v.
Proof.
  intros HE HP. induction HP as [v HV HN|x ns HN HB HW HP IH].
  - apply Proper_leaf; [exact (valid_ext _ _ _ HE HV)|]. rewrite (names_back _ _ _ _ HE HV). exact HN.
  - assert (HV : valid h (Ref x)) by (cbn in *; destruct (nth_error h x) eqn:E; [apply nth_error_Some; congruence|discriminate]).
    apply (Proper_node _ _ ns); [rewrite (names_back _ _ _ _ HE HV); exact HN|exact (built_ext _ _ _ HE HB)| |].
    + intros n HI. destruct (HW n HI) as (w & H). exists w. exact (getattr_ext _ _ _ _ _ _ _ HE H).
    + intros n w HI H. rewrite (getattr_back _ _ _ _ _ _ HE HV) in H. exact (IH n w HI H).
Qed.

(* no attribute is computed from another computed one, and none is the representation *)
Definition orderly : Prop := forall c d f n, In (d, (f, n)) (derived (classes c)) -> d <> "matching_type" /\ ~ In n (map fst (derived (classes c))) /\ NoDup (map fst (derived (classes c))).
Hypothesis Horderly : orderly.
Lemma checks_hold o : forall ds h u h', miter (fun d => let* h := get in lift (meets h o d)) ds h = (Ok u, h') -> h' = h /\ forall d, In d ds -> meets h o d = Ok tt.
Proof.
  induction ds as [|d ds IH]; intros h u h' H; cbn [miter] in H; [injection H as <- <-; split; [reflexivity|intros d []]|]. unfold bind, get, lift in H. destruct (meets h o d) as [[]|e] eqn:EM; [|discriminate].
  destruct (IH h u h' H) as [-> HF]. split; [reflexivity|]. intros d' [<-|HI]; [exact EM|exact (HF d' HI)].
Qed.
Lemma derived_hold q : forall l h u h', NoDup (map fst l) -> (forall d f n, In (d, (f, n)) l -> d <> "matching_type" /\ ~ In n (map fst l)) ->
  miter (fun dn => let* h := get in let* w := lift (getattr h (Ref q) (snd (snd dn))) in let* u := lift (compute (fst (snd dn)) w) in setattr (Ref q) (fst dn) u) l h = (Ok u, h') ->
  (forall p o, nth_error h p = Some o -> exists o', nth_error h' p = Some o' /\ cls o' = cls o) /\
  (forall n, ~ In n (map fst l) -> stored h' q n = stored h q n) /\
  forall d f n, In (d, (f, n)) l -> exists w v, getattr h' (Ref q) n = Ok w /\ compute f w = Ok v /\ getattr h' (Ref q) d = Ok v.
Proof.
  induction l as [|[d [f n]] l IH]; intros h u h' HN HO H; cbn [miter] in H.
  - injection H as <- <-. split; [intros p o E; exists o; auto|]. split; [reflexivity|intros d f n []].
  - unfold bind at 1 2, get in H. cbn [fst snd] in H. unfold bind at 1, lift in H. destruct (getattr h (Ref q) n) as [w|e] eqn:EG; [|discriminate]. unfold bind at 1, lift in H. destruct (compute f w) as [v|e] eqn:EC; [|discriminate].
    destruct (nth_error h q) as [o|] eqn:EO; [|rewrite getattr_stored, EO in EG; discriminate].
    destruct (HO d f n (or_introl eq_refl)) as [Hd Hn]. rewrite (setattr_plain _ _ _ _ _ _ _ EO) in H by (apply String.eqb_neq; exact Hd).
    cbn [map fst] in HN. inversion HN as [|? ? HNd HN']; subst.
    destruct (IH (write h q d v) u h' HN') as (HS & HK & HD); [intros d' f' n' HI; destruct (HO d' f' n' (or_intror HI)) as [A B]; split; [exact A|intros HX; apply B; right; exact HX]|exact H|].
    assert (EQ : nth_error (write h q d v) q = Some (mkObject (cls o) (set_field (fields o) d v))) by (rewrite write_nth, Nat.eqb_refl, EO; reflexivity).
    destruct (HS q _ EQ) as (o' & EO' & EC').
    split; [|split].
    + intros p o1 E1. destruct (shape_write h q d v) as [_ HSh]. destruct (HSh p o1 E1) as (o2 & E2 & C2). destruct (HS p o2 E2) as (o3 & E3 & C3). exists o3. split; [exact E3|congruence].
    + intros m HM. cbn [map fst] in HM. rewrite HK by (intros HX; apply HM; right; exact HX). rewrite write_stored, Nat.eqb_refl. cbn [andb]. destruct (String.eqb d m) eqn:ED; [|reflexivity].
      apply String.eqb_eq in ED. subst m. exfalso. apply HM. left. reflexivity.
    + intros d' f' n' [E|HI]; [|exact (HD d' f' n' HI)]. injection E as <- <- <-. exists w, v.
      assert (HL : Nat.ltb q (length h) = true) by (apply Nat.ltb_lt, nth_error_Some; congruence).
      assert (S1 : stored h' q d = Some v) by (rewrite HK by exact HNd; rewrite write_stored, Nat.eqb_refl, String.eqb_refl; cbn [andb]; rewrite HL; reflexivity).
      assert (S2 : stored h' q n = stored h q n).
      { rewrite HK by (intros HX; apply Hn; right; exact HX). rewrite write_stored, Nat.eqb_refl. cbn [andb]. destruct (String.eqb d n) eqn:ED; [|reflexivity]. apply String.eqb_eq in ED. subst n. exfalso. apply Hn. left. reflexivity. }
      split; [|split; [exact EC|rewrite getattr_stored, EO', S1; reflexivity]]. rewrite getattr_stored, EO', S2. rewrite getattr_stored, EO in EG. rewrite EC'. cbn [cls]. exact EG.
Qed.
Lemma construct_built c ps h v h' : construct classes builtins c ps h = (Ok v, h') -> exists q, v = Ref q /\ built h' q.
Proof.
  intros HE. pose proof (construct_keeps _ _ _ _ _ _ _ HE) as (-> & (o & EO & EC) & _). exists (length h). split; [reflexivity|].
  unfold construct in HE. cbv zeta in HE. apply bind_inv in HE as (q & h1 & E1 & HE). unfold alloc in E1. injection E1 as <- <-.
  apply bind_inv in HE as (u2 & h2 & _ & HE). apply bind_inv in HE as (u3 & h3 & _ & HE). apply bind_inv in HE as (u4 & h4 & E4 & HE). apply bind_inv in HE as (u5 & h5 & E5 & HE). unfold ret in HE. injection HE as <-.
  destruct (checks_hold _ _ _ _ _ E5) as [-> HC]. exists o. split; [exact EO|]. rewrite EC. split; [|exact HC].
  destruct (derived (classes c)) as [|[d0 [f0 n0]] l] eqn:ED; [intros d f n []|]. rewrite <- ED in E4 |- *.
  assert (H0 : In (d0, (f0, n0)) (derived (classes c))) by (rewrite ED; left; reflexivity).
  apply derived_hold in E4 as (_ & _ & HD); [exact HD|exact (proj2 (proj2 (Horderly _ _ _ _ H0)))|]. intros d f n HI. destruct (Horderly _ _ _ _ HI) as (A & B & _). split; assumption.
Qed.
Lemma proper_params f v : (forall w h w' h', clone_value f w h = (Ok w', h') -> proper h' w') -> forall ns h ps h',
  mmap (fun n => let* h := get in let* w := lift (getattr h v n) in let* w' := clone_value f w in ret (n, w')) ns h = (Ok ps, h') ->
  ext h h' /\ (forall n, In n ns -> exists w', In (n, w') ps) /\ forall n w', In (n, w') ps -> proper h' w'.
Proof.
  intros HD. induction ns as [|m ns IH]; intros h ps h' HM.
  - cbn in HM. injection HM as <- <-. split; [apply ext_refl|]. split; [intros n []|intros n w' []].
  - apply mmap_cons_inv in HM as (b & h1 & ps' & H1 & H2 & ->). unfold bind, ret, get, lift in H1. destruct (getattr h v m) as [w|e] eqn:EG; [|discriminate].
    destruct (clone_value f w h) as [[w'|e] h2] eqn:EC; [|discriminate]. injection H1 as <- <-.
    assert (HX : ext h h2) by (pose proof (clone_value_ext classes builtins f w h) as HX; rewrite EC in HX; exact HX).
    destruct (IH h2 ps' h' H2) as (HX2 & HI & HP). split; [exact (ext_trans _ _ _ HX HX2)|]. split.
    + intros n [<-|HN]; [exists w'; left; reflexivity|]. destruct (HI n HN) as (x & Hx). exists x. right. exact Hx.
    + intros n x [E|HN]; [injection E as <- <-; exact (proper_ext _ _ _ HX2 (HD _ _ _ _ EC))|exact (HP n x HN)].
Qed.
Lemma clone_value_proper : forall f v h v' h', clone_value f v h = (Ok v', h') -> proper h' v'.
Proof.
  induction f as [|f IH]; intros v h v' h' HE; cbn [M_Objects.clone_value] in HE; [discriminate|]. unfold bind at 1, get in HE.
  assert (HD : param_names h v = None -> deepcopy (S f) v h = (Ok v', h') -> proper h' v').
  { intros HN HDc. destruct (deepcopy_class classes _ _ _ _ _ HDc) as (H1 & H2 & _). apply Proper_leaf; [exact H1|rewrite H2; exact HN]. }
  destruct v as [a|p]; [apply HD; [reflexivity|exact HE]|]. destruct (param_names h (Ref p)) as [ns|] eqn:EP; [|apply HD; [reflexivity|exact HE]].
  unfold bind at 1, lift, lookup in HE. destruct (nth_error h p) as [o|] eqn:EN; cbn [of_option] in HE; [|discriminate].
  assert (ENS : names (classes (cls o)) = Some ns) by (cbn in EP; rewrite EN in EP; exact EP).
  apply bind_inv in HE as (ps & h1 & EM & HE). destruct (proper_params f (Ref p) IH _ _ _ _ EM) as (HX & HI & HP).
  apply bind_inv in HE as (new & h2 & EC & HE). destruct (construct_built _ _ _ _ _ EC) as (q & EQ & HB). destruct (construct_keeps _ _ _ _ _ _ _ EC) as (-> & (o2 & EO2 & EC2) & HX2). injection EQ as <-.
  apply bind_inv in HE as (u & h3 & EI & HE). destruct (checked_params _ _ _ _ _ _ _ EI) as [-> HC]. unfold ret in HE. injection HE as <- <-.
  apply (Proper_node _ _ ns); [cbn; rewrite EO2, EC2; exact ENS|exact HB| |].
  - intros n HN. destruct (HI n HN) as (w' & Hw). exists w'. exact (HC n w' Hw).
  - intros n w HN HG. destruct (HI n HN) as (w' & Hw). rewrite (HC n w' Hw) in HG. injection HG as <-. exact (proper_ext _ _ _ HX2 (HP n w' Hw)).
Qed.
Lemma clone_proper f v h v' h' : clone f v h = (Ok v', h') -> proper h' v'.
Proof. unfold M_Objects.clone, bind, get. destruct (param_names h v); [apply clone_value_proper|discriminate]. Qed.

(* ----- what fit does afterwards ----- *)
Definition lasting (n : string) : Prop := ~ In n assigned /\ ends_with "bounds" n = false.
Definition lasting_classes : Prop := forall c,
  (forall d f n, In (d, (f, n)) (derived (classes c)) -> lasting d /\ lasting n) /\
  (forall d, In d (demands (classes c)) -> match d with Comparable n => lasting n | Below only small _ large => lasting large /\ Forall lasting small /\ match only with Some (n, _) => lasting n | None => True end end).
Hypothesis Hlasting : lasting_classes.
Lemma getattr_kept h h' v n : kept h h' -> valid h v -> lasting n -> getattr h' v n = getattr h v n.
Proof.
  intros HK HV [HA HB]. destruct v as [a|p]; [reflexivity|]. cbn in HV. destruct (nth_error h p) as [o|] eqn:E; [|apply nth_error_None in E; lia]. destruct (HK p o E) as (o' & E' & EC & HF).
  rewrite !getattr_stored, E, E', EC. destruct (HF n HA) as [-> |[_ HX]]; [reflexivity|congruence].
Qed.
Lemma getattr_ok_valid h v n w : getattr h v n = Ok w -> valid h v.
Proof. destruct v as [a|p]; [intros _; exact I|]. rewrite getattr_stored. destruct (nth_error h p) eqn:E; [|discriminate]. intros _. cbn. apply nth_error_Some. congruence. Qed.
Lemma follow_kept h h' : kept h h' -> forall path v w, Forall lasting path -> follow h v path = Ok w -> follow h' v path = Ok w.
Proof.
  intros HK. induction path as [|n path IH]; intros v w HL H; cbn [M_Objects.follow] in *; [exact H|]. inversion HL as [|? ? H1 H2]; subst.
  destruct (getattr h v n) as [u|e] eqn:EG; cbn [rbind] in H; [|discriminate]. rewrite (getattr_kept h h' v n HK (getattr_ok_valid _ _ _ _ EG) H1), EG. cbn [rbind]. exact (IH u w H2 H).
Qed.
Lemma built_kept h h' x : kept h h' -> built h x -> built h' x.
Proof.
  intros HK (o & EO & HD & HM). destruct (HK x o EO) as (o' & EO' & EC & _). exists o'. split; [exact EO'|]. rewrite EC. assert (HV : valid h (Ref x)) by (cbn; apply nth_error_Some; congruence). destruct (Hlasting (cls o)) as [L1 L2]. split.
  - intros d f n HI. destruct (HD d f n HI) as (w & u & H1 & H2 & H3). destruct (L1 d f n HI) as [A B]. exists w, u. rewrite !(getattr_kept h h' (Ref x)) by assumption. auto.
  - intros d HI. specialize (L2 d HI). apply (meets_reads h h'); [| |exact (HM d HI)].
    + intros n w HG HN. rewrite (getattr_kept h h' (Ref x)); [exact HG|exact HK|exact HV|]. destruct d as [m|only small plus large]; [destruct HN as [<-|[]]; exact L2|]. destruct L2 as (La & _ & Lo).
      destruct HN as [<-|HN]; [exact La|]. destruct only as [[m t]|]; [destruct HN as [<-|[]]; exact Lo|destruct HN].
    + intros w. destruct d as [m|only small plus large]; [exact I|]. apply follow_kept; [exact HK|exact (proj1 (proj2 L2))].
Qed.
Lemma component_built h h' : kept h h' -> forall v key x, component_at h' v key x -> proper h v -> (forall n, In n key -> lasting n) -> built h' x.
Proof.
  intros HK v key x HC. induction HC as [x ns HN|v ns n w key x HN HI HG HC IH]; intros HP HL.
  - inversion HP as [v HV HL0 EV|y ns' HN' HB _ _ EY].
    + exfalso. cbn in HV. destruct (nth_error h x) as [o|] eqn:E; [|apply nth_error_None in E; lia]. destruct (HK x o E) as (o' & E' & EC & _). cbn in HN, HL0. rewrite E', EC in HN. rewrite E in HL0. congruence.
    + exact (built_kept _ _ _ HK HB).
  - assert (HV : valid h v) by exact (proper_valid _ _ HP). assert (HLn : lasting n) by (apply HL; left; reflexivity). rewrite (getattr_kept h h' v n HK HV HLn) in HG.
    assert (EN : param_names h v = Some ns).
    { destruct v as [a|p]; [discriminate HN|]. cbn in HV. destruct (nth_error h p) as [o|] eqn:E; [|apply nth_error_None in E; lia]. destruct (HK p o E) as (o' & E' & EC & _). cbn in HN |- *. rewrite E', EC in HN. rewrite E. exact HN. }
    apply IH; [|intros m HM; apply HL; right; exact HM]. destruct HP as [v HV' HL0|y ns' HN' HB HW HP]; [congruence|]. rewrite EN in HN'. injection HN' as <-. exact (HP n w HI HG).
Qed.
End World.
