(* Loading a configuration: the loop as evaluation from the leaves; termination. *)
From Coq Require Import String Ascii.
From Verif Require Import PyNum PyList PyMon M_Json S_Objects S_Json L_List L_Text L_Forest L_Fold.
From Verif Require M_Objects.
Local Open Scope string_scope.
Local Open Scope list_scope.

Section Classes.
Variable classes : string -> option cinfo.
Notation finish := (finish classes).
Notation collapse := (collapse classes).
Notation deserialize := (deserialize classes).

Lemma all_done ps : Forall is_done ps -> exists kids, ps = map kid kids.
Proof. apply kids_done. Qed.
Lemma longest_key ps x : fwf ps -> first_max (fent ps) = Some x ->
  pymax (fun a b => Nat.ltb (M_Objects.count_us a) (M_Objects.count_us b)) (map fst (dict ps)) = Some (join (fst x)).
Proof.
  intros W E. unfold dict. rewrite map_map. rewrite pymax_map.
  rewrite (pymax_ext _ (fun a b => Nat.ltb (longer a) (longer b))); [fold (first_max (fent ps)); now rewrite E|].
  intros a b Ia Ib. cbn [named fst]. rewrite !count_join by (apply (fent_plains ps W); assumption). unfold longer.
  pose proof (fent_nonempty _ _ Ia). pose proof (fent_nonempty _ _ Ib).
  destruct (fst a) as [|x1 l1]; [congruence|]. destruct (fst b) as [|x2 l2]; [congruence|]. cbn [length]. 
  destruct (Nat.ltb_spec (S (length l1)) (S (length l2))); [apply Nat.ltb_lt|apply Nat.ltb_ge]; lia.
Qed.
Lemma deepest_forest ps : fwf ps -> ps <> [] -> Forall is_done ps \/ exists x, first_max (fent ps) = Some x /\ deepest_at ps x.
Proof.
  intros [G F] N. destruct (deepest "." ps) as [[D _]|H]; [constructor; [reflexivity|exact N|exact G|exact F]|now left|now right].
Qed.
(* one round *)
Lemma round ps : fwf ps -> ~ Forall is_done ps -> exists K p c kids, ctx K p /\ ps = K (Open c (map kid kids)) /\
  collapse (dict ps) = let? o := finish c kids in Ok (dict (K (Done (JObj o)))).
Proof.
  intros W N. destruct (deepest_forest ps W) as [D|(x & E & K & p & c & n & v & rest & H & -> & Dr & ->)].
  - intros ->. apply N. constructor.
  - contradiction.
  - destruct (kids_done rest Dr) as [kids ->]. exists K, p, c, ((n, v) :: kids). split; [exact H|]. split; [reflexivity|].
    rewrite <- (fold_node classes K p c kids v n H W). unfold M_Json.collapse.
    rewrite (longest_key _ _ W E). cbn [of_option rbind fst].
    assert (P : plains (p ++ [n])).
    { apply (fent_plains _ W (p ++ [n], v)). unfold first_max in E. exact (pymax_In _ _ _ E). }
    rewrite (base_join p n P (ctx_nonempty K p H)). reflexivity.
Qed.

(* ----- evaluation ----- *)
Definition of_res {A} (r : res A) : option A := match r with Ok a => Some a | Raise _ => None end.
Fixpoint peval (u : ptree) : option jv :=
  match u with
  | Done v => Some v
  | Open c ps =>
      match (fix go (ps : forest) : option (list (string * jv)) :=
        match ps with
        | [] => Some []
        | (n, u) :: ps' => match peval u, go ps' with Some v, Some r => Some ((n, v) :: r) | _, _ => None end
        end) ps with
      | Some kids => match finish c kids with Ok o => Some (JObj o) | Raise _ => None end
      | None => None
      end
  end.
Fixpoint fval (ps : forest) : option (list (string * jv)) :=
  match ps with
  | [] => Some []
  | (n, u) :: ps' => match peval u, fval ps' with Some v, Some r => Some ((n, v) :: r) | _, _ => None end
  end.
Lemma peval_open c ps : peval (Open c ps) = match fval ps with Some kids => match finish c kids with Ok o => Some (JObj o) | Raise _ => None end | None => None end.
Proof. reflexivity. Qed.
Lemma fval_app a b : fval (a ++ b) = match fval a, fval b with Some x, Some y => Some (x ++ y) | _, _ => None end.
Proof.
  induction a as [|[n u] a IH]; cbn [app fval]; [now destruct (fval b)|]. rewrite IH.
  destruct (peval u), (fval a), (fval b); reflexivity.
Qed.
Lemma ctx_eval K p u u' : ctx K p -> peval u = peval u' -> fval (K u) = fval (K u').
Proof.
  intros H E. induction H as [A n B|A n c B K p H IH]; rewrite !fval_app; cbn [fval]; [now rewrite E|]. now rewrite !peval_open, IH.
Qed.
Lemma ctx_fails K p u : ctx K p -> peval u = None -> fval (K u) = None.
Proof.
  intros H E. induction H as [A n B|A n c B K p H IH]; rewrite !fval_app; cbn [fval]; [rewrite E|rewrite peval_open, IH]; now destruct (fval A).
Qed.
Lemma fval_kids kids : fval (map kid kids) = Some kids.
Proof. induction kids as [|[n v] kids IH]; [reflexivity|]. cbn [map kid fst snd fval peval]. now rewrite IH. Qed.
Fixpoint opens (u : ptree) : nat :=
  match u with
  | Done _ => 0
  | Open c ps => S ((fix go (ps : forest) := match ps with [] => O | (_, u) :: ps' => (opens u + go ps')%nat end) ps)
  end.
Fixpoint fopens (ps : forest) : nat := match ps with [] => O | (_, u) :: ps' => (opens u + fopens ps')%nat end.
Lemma opens_open c ps : opens (Open c ps) = S (fopens ps).
Proof. reflexivity. Qed.
Lemma fopens_app a b : fopens (a ++ b) = (fopens a + fopens b)%nat.
Proof. induction a as [|[n u] a IH]; [reflexivity|]. cbn [app fopens]. lia. Qed.
Lemma ctx_opens K p c qs v : ctx K p -> (fopens (K (Done v)) < fopens (K (Open c qs)))%nat.
Proof.
  intros H. induction H as [A n B|A n c' B K p H IH]; rewrite !fopens_app; cbn [fopens]; [rewrite opens_open; cbn [opens]; lia|]. rewrite !opens_open. lia.
Qed.
Lemma opens_size u : (opens u <= S (length (entries u)))%nat.
Proof.
  induction u as [v|c ps IH] using ptree_ind'; [cbn; lia|]. rewrite opens_open, entries_open. apply le_n_S.
  induction IH as [|[n u] ps Hu _ IHp]; [cbn; lia|]. cbn [fopens fent snd] in *. rewrite app_length, map_length. cbn [length]. lia.
Qed.
Lemma fopens_size ps : (fopens ps <= length (dict ps))%nat.
Proof.
  unfold dict. rewrite map_length. induction ps as [|[n u] ps IH]; [cbn; lia|]. cbn [fopens fent]. rewrite app_length, map_length. cbn [length].
  pose proof (opens_size u). lia.
Qed.
Lemma done_dec ps : Forall is_done ps \/ ~ Forall is_done ps.
Proof.
  induction ps as [|[n [v|c qs]] ps [IH|IH]]; [left; constructor|left; constructor; [now exists v|exact IH]|right|right|right]; intros H; inversion H as [|? ? H1 H2]; subst; try contradiction;
  destruct H1 as [w Hw]; discriminate Hw.
Qed.
Lemma not_done_sep ps : fwf ps -> ~ Forall is_done ps -> M_Objects.contains "__" (String.concat "" (map fst (dict ps))) = true.
Proof.
  intros W N. assert (X : exists e a b q, In e (fent ps) /\ fst e = a :: b :: q).
  { destruct W as [_ F]. clear - N F. induction ps as [|[n u] ps IH]; [exfalso; apply N; constructor|]. inversion F as [|? ? Fu F']; subst. cbn [snd] in Fu.
    destruct u as [v|c qs].
    - destruct IH as (e & a & b & q & I & E); [exact F'|intros D; apply N; constructor; [now exists v|exact D]|].
      exists e, a, b, q. split; [|exact E]. cbn [fent]. apply in_or_app. right. now right.
    - inversion Fu as [|? ? _ Nq _ _]; subst. destruct qs as [|[m w] qs]; [congruence|].
      exists (under n ([m], head w)), n, m, []. split; [|reflexivity]. cbn [fent]. apply in_or_app. left. rewrite entries_open. cbn [fent].
      apply in_map, in_elt. }
  destruct X as (e & a & b & q & I & E).
  assert (Ik : In (join (fst e)) (map fst (dict ps))) by (unfold dict; rewrite map_map; exact (in_map (fun e => join (fst e)) _ _ I)).
  destruct (concat_app_in _ _ Ik) as (x & y & ->). apply contains_app, contains_appl. rewrite E.
  rewrite join_cons by discriminate. apply contains_sep.
Qed.
Lemma done_no_sep kids : plains (map fst kids) -> M_Objects.contains "__" (String.concat "" (map fst (dict (map kid kids)))) = false.
Proof.
  intros P. unfold dict. rewrite kids_fent, !map_map. cbn [named fst]. apply concat_plain. exact P.
Qed.
(* the loop *)
Lemma loop k ps : fwf ps -> (fopens ps <= k)%nat ->
  match deserialize k (dict ps) with Ok d => fval ps = Some d | Raise _ => fval ps = None end.
Proof.
  revert ps. induction k as [|k IH]; intros ps W L; destruct (done_dec ps) as [D|D].
  - destruct (all_done ps D) as [kids ->]. destruct W as [(P & _) _]. rewrite kid_names in P. cbn [M_Json.deserialize]. rewrite done_no_sep by exact P.
    rewrite fval_kids. unfold dict. rewrite kids_fent, map_map. cbn [named fst snd]. f_equal. symmetry. erewrite map_ext; [apply map_id|]. now intros [n v].
  - exfalso. apply D. clear - L. induction ps as [|[n u] ps IHp]; constructor; cbn [fopens] in L.
    + destruct u as [v|c qs]; [now exists v|]. rewrite opens_open in L. lia.
    + apply IHp. lia.
  - destruct (all_done ps D) as [kids ->]. destruct W as [(P & _) _]. rewrite kid_names in P. cbn [M_Json.deserialize]. rewrite done_no_sep by exact P.
    rewrite fval_kids. unfold dict. rewrite kids_fent, map_map. cbn [named fst snd]. f_equal. symmetry. erewrite map_ext; [apply map_id|]. now intros [n v].
  - cbn [M_Json.deserialize]. rewrite not_done_sep by assumption. destruct (round ps W D) as (K & p & c & kids & H & -> & ->).
    assert (E : peval (Open c (map kid kids)) = match finish c kids with Ok o => Some (JObj o) | Raise _ => None end) by (rewrite peval_open, fval_kids; reflexivity).
    destruct (finish c kids) as [o|e]; cbn [rbind].
    + rewrite (ctx_eval K p _ (Done (JObj o)) H E). apply IH; [exact (ctx_fwf K p _ _ H W (W_done _) ltac:(discriminate))|].
      pose proof (ctx_opens K p c (map kid kids) (JObj o) H). lia.
    + exact (ctx_fails K p _ H E).
Qed.
Lemma load_forest ps : fwf ps ->
  match load_config classes (dict ps) with
  | Ok t => exists kids, fval ps = Some kids /\ build classes "suprb.suprb.SupRB" (map (fun kv => (fst kv, as_value (snd kv))) kids) = Ok t
  | Raise _ => forall kids, fval ps = Some kids -> forall t, build classes "suprb.suprb.SupRB" (map (fun kv => (fst kv, as_value (snd kv))) kids) <> Ok t
  end.
Proof.
  intros W. unfold load_config. pose proof (loop (length (dict ps)) ps W (fopens_size ps)) as L.
  destruct (deserialize (length (dict ps)) (dict ps)) as [d|e]; cbn [rbind].
  - destruct (build classes _ _) as [t|e] eqn:B; [exists d; split; assumption|]. intros kids E t C. congruence.
  - intros kids E. congruence.
Qed.

(* ----- termination ----- *)
Lemma dset_same {V} (d : list (string * V)) k v w : assoc d k = Some w -> length (dset d k v) = length d.
Proof.
  induction d as [|[k' v'] d IH]; [discriminate|]. cbn [assoc dset]. destruct (String.eqb k' k); [reflexivity|]. intros E. cbn [length]. now rewrite IH.
Qed.
Lemma dset_keys {V} (d : list (string * V)) k v w : assoc d k = Some w -> map fst (dset d k v) = map fst d.
Proof.
  induction d as [|[k' v'] d IH]; [discriminate|]. cbn [assoc dset]. destruct (String.eqb k' k); [reflexivity|]. intros E. cbn [map fst]. now rewrite IH.
Qed.
Lemma ddel_le {V} (d : list (string * V)) k : (length (ddel d k) <= length d)%nat.
Proof. unfold ddel. induction d as [|kv d IH]; [cbn; lia|]. cbn [filter]. destruct (negb _); cbn [length]; lia. Qed.
Lemma take_le keys params d r : take_params classes keys params d = Ok r -> (length (snd r) <= length d)%nat.
Proof.
  revert params d. induction keys as [|k keys IH]; intros params d E; cbn [take_params] in E; [injection E as <-; cbn; lia|].
  destruct (assoc d k) as [v|]; [|discriminate E]. cbn [of_option rbind] in E.
  assert (X : exists params', take_params classes keys params' (ddel d k) = Ok r).
  { destruct v as [q| |c|t]; cbn [rbind] in E; try (eexists; exact E). destruct (instance classes c); [eexists; exact E|discriminate E]. }
  destruct X as [params' X]. etransitivity; [exact (IH _ _ X)|apply ddel_le].
Qed.
Lemma take_lt k keys params d r : In k (map fst d) -> take_params classes (k :: keys) params d = Ok r -> (length (snd r) < length d)%nat.
Proof.
  intros I E. cbn [take_params] in E. destruct (assoc d k) as [v|]; [|discriminate E]. cbn [of_option rbind] in E.
  assert (X : exists params', take_params classes keys params' (ddel d k) = Ok r).
  { destruct v as [q| |c|t]; cbn [rbind] in E; try (eexists; exact E). destruct (instance classes c); [eexists; exact E|discriminate E]. }
  destruct X as [params' X]. apply take_le in X. eapply Nat.le_lt_trans; [exact X|]. clear - I. unfold ddel.
  induction d as [|[k' v] d IH]; [destruct I|]. cbn [filter fst]. destruct (String.eqb_spec k' k) as [->|N]; cbn [negb].
  - cbn [length]. apply Nat.lt_succ_r. apply (ddel_le d k).
  - destruct I as [E|I]; [cbn in E; congruence|]. cbn [length]. specialize (IH I). lia.
Qed.
Lemma cut_prefix s b : cut s = Some b -> exists r, s = (b ++ "__" ++ r)%string.
Proof.
  remember (String.length s) as n eqn:En. revert s b En. induction n as [n IH] using (well_founded_induction lt_wf). intros s b -> E.
  destruct s as [|a s]; [discriminate E|].
  assert (Other : (match cut s with Some b => Some (String a b) | None => None end = Some b) -> exists r, String a s = (b ++ "__" ++ r)%string).
  { destruct (cut s) as [b'|] eqn:E'; [|discriminate]. intros [= <-]. destruct (IH (String.length s) ltac:(cbn; lia) s b' eq_refl E') as [r ->]. now exists r. }
  destruct (ascii_dec a "_") as [->|Na].
  - destruct s as [|a' s]; [exact (Other E)|]. destruct (ascii_dec a' "_") as [->|Na'].
    + cbn [cut] in E. destruct (cut s) as [b'|] eqn:E'.
      * injection E as <-. destruct (IH (String.length s) ltac:(cbn; lia) s b' eq_refl E') as [r ->]. now exists r.
      * injection E as <-. now exists s.
    + apply Other. rewrite <- E. destruct a' as [[|] [|] [|] [|] [|] [|] [|] [|]]; try reflexivity. congruence.
  - apply Other. rewrite <- E. destruct a as [[|] [|] [|] [|] [|] [|] [|] [|]]; try reflexivity. congruence.
Qed.
Lemma build_fuel c kws : build classes c kws <> Raise OutOfFuel.
Proof.
  unfold build. destruct (classes c) as [i|]; [|discriminate]. destruct (negb _); [discriminate|].
  match goal with |- (let? ps := rmap ?f ?l in _) <> _ => assert (X : rmap f l <> Raise OutOfFuel) end.
  { induction (cparams i) as [|p l IH]; [discriminate|]. cbn [rmap]. 
    destruct (match assoc kws (pname p) with Some v => Ok v | None => of_option TypeError (pdefault p) end) as [v|e] eqn:Ev; cbn [rbind].
    - match goal with |- (let? bs := ?r in _) <> _ => destruct r; cbn [rbind]; [discriminate|exact IH] end.
    - destruct (assoc kws (pname p)); [discriminate Ev|]. destruct (pdefault p); [discriminate Ev|]. injection Ev as <-. discriminate. }
  match goal with |- (let? ps := ?r in _) <> _ => destruct r as [ps|e]; cbn [rbind] end; [|congruence]. destruct (cguard i ps); discriminate.
Qed.
Lemma get_class_fuel v : get_class v <> Raise OutOfFuel.
Proof. destruct v as [[| | |s]| |c|]; cbn; try discriminate; destruct (M_Objects.contains _ _); discriminate. Qed.
Lemma instance_fuel c : instance classes c <> Raise OutOfFuel.
Proof.
  unfold instance. pose proof (get_class_fuel (JClass c)). destruct (get_class (JClass c)); cbn [rbind]; [apply build_fuel|congruence].
Qed.
Lemma take_fuel keys params d : take_params classes keys params d <> Raise OutOfFuel.
Proof.
  revert params d. induction keys as [|k keys IH]; intros params d; cbn [take_params]; [discriminate|].
  destruct (assoc d k) as [v|]; [|discriminate]. cbn [of_option rbind]. destruct v as [q| |c|t]; cbn [rbind]; try apply IH.
  pose proof (instance_fuel c). destruct (instance classes c); cbn [rbind]; [apply IH|congruence].
Qed.
Lemma collapse_fuel d : collapse d <> Raise OutOfFuel.
Proof.
  unfold M_Json.collapse. destruct (pymax _ _) as [k|]; [|discriminate]. cbn [of_option rbind].
  unfold update_longest. destruct (assoc d k) as [v|]; [|discriminate]. cbn [of_option rbind].
  match goal with |- rbind ?r _ <> _ => assert (X : r <> Raise OutOfFuel) end.
  { destruct v as [q| |c|t]; try discriminate. destruct (String.eqb _ _); [discriminate|]. pose proof (instance_fuel c). destruct (instance classes c); cbn [rbind]; [discriminate|congruence]. }
  match goal with |- rbind ?r _ <> _ => destruct r as [d1|e]; cbn [rbind]; [|congruence] end.
  pose proof (take_fuel (same_base d1 (base_of k)) [] d1) as T. destruct (take_params _ _ _ _) as [[params d2]|e]; cbn [rbind]; [|congruence].
  destruct (assoc d2 _) as [w|]; [|discriminate]. cbn [of_option rbind]. pose proof (get_class_fuel w). destruct (get_class w) as [c|]; cbn [rbind]; [|congruence].
  pose proof (build_fuel c params). destruct (build classes c params); cbn [rbind]; [discriminate|congruence].
Qed.
Lemma concat_empty ks : (forall k, In k ks -> k = ""%string) -> String.concat "" ks = ""%string.
Proof.
  induction ks as [|k ks IH]; intros H; [reflexivity|]. rewrite (H k (or_introl eq_refl)) in *. 
  assert (E : String.concat "" ks = ""%string) by (apply IH; intros x I; apply H; now right). destruct ks; [reflexivity|]. cbn [String.concat] in *. now rewrite E.
Qed.
Lemma collapse_lt d d' : M_Objects.contains "__" (String.concat "" (map fst d)) = true -> collapse d = Ok d' -> (length d' < length d)%nat.
Proof.
  intros Sep. unfold M_Json.collapse. destruct (pymax _ _) as [k|] eqn:Ek; [|discriminate]. cbn [of_option rbind].
  pose proof (pymax_In _ _ _ Ek) as Ik. unfold update_longest. destruct (assoc d k) as [v|] eqn:Ev; [|discriminate]. cbn [of_option rbind].
  match goal with |- rbind ?r _ = _ -> _ => destruct r as [d1|e] eqn:E1; cbn [rbind]; [|discriminate] end.
  assert (K1 : map fst d1 = map fst d).
  { destruct v as [q| |c|t]; try (injection E1 as <-; reflexivity). destruct (String.eqb _ _); [injection E1 as <-; exact (dset_keys _ _ _ _ Ev)|].
    destruct (instance classes c); [|discriminate E1]. injection E1 as <-. exact (dset_keys _ _ _ _ Ev). }
  assert (L1 : length d1 = length d) by (rewrite <- (map_length fst d1), K1; apply map_length).
  assert (X : exists k', In k' (same_base d1 (base_of k))).
  { unfold base_of. destruct (cut k) as [b|] eqn:Eb.
    - destruct (cut_prefix k b Eb) as [r ->]. exists (b ++ "__" ++ r)%string. unfold same_base. apply filter_In. rewrite K1. split; [exact Ik|].
      assert (P : String.prefix b (b ++ "__" ++ r) = true) by (apply prefix_app; eexists; reflexivity). rewrite P. cbn [andb]. apply Bool.negb_true_iff, String.eqb_neq.
      intros C. apply (f_equal String.length) in C. clear - C. induction b as [|a b IH]; [discriminate C|]. cbn [String.append String.length] in C. injection C as C. auto.
    - destruct (existsb (fun x => negb (String.eqb x "")) (map fst d)) eqn:Ex.
      + apply existsb_exists in Ex as (x & I & Nx). exists x. unfold same_base. apply filter_In. rewrite K1. split; [exact I|]. rewrite prefix_nil. exact Nx.
      + exfalso. rewrite concat_empty in Sep; [discriminate Sep|]. intros x I. destruct (String.eqb_spec x "") as [E|N]; [exact E|exfalso].
        assert (C : existsb (fun x => negb (String.eqb x "")) (map fst d) = true) by (apply existsb_exists; exists x; split; [exact I|now apply Bool.negb_true_iff, String.eqb_neq]). congruence. }
  destruct X as [k' Ik']. destruct (same_base d1 (base_of k)) as [|k1 ks] eqn:Es; [destruct Ik'|].
  destruct (take_params _ _ _ _) as [[params d2]|e] eqn:Et; cbn [rbind]; [|discriminate].
  assert (I1 : In k1 (map fst d1)).
  { assert (I : In k1 (same_base d1 (base_of k))) by (rewrite Es; now left). unfold same_base in I. now apply filter_In in I as [I _]. }
  pose proof (take_lt k1 ks [] d1 _ I1 Et) as L. cbn [snd] in L.
  destruct (assoc d2 (base_of k)) as [w|] eqn:Ew; [|discriminate]. cbn [of_option rbind]. destruct (get_class w) as [c|]; cbn [rbind]; [|discriminate].
  destruct (build classes c params); cbn [rbind]; [|discriminate]. intros [= <-]. rewrite (dset_same _ _ _ _ Ew). lia.
Qed.
Lemma deserialize_fuel k d : (length d <= k)%nat -> deserialize k d <> Raise OutOfFuel.
Proof.
  revert d. induction k as [|k IH]; intros d L; cbn [M_Json.deserialize].
  - destruct d; [discriminate|cbn in L; lia].
  - destruct (M_Objects.contains _ _) eqn:Sep; [|discriminate]. pose proof (collapse_fuel d) as C. destruct (collapse d) as [d'|e] eqn:E; cbn [rbind]; [|congruence].
    apply IH. pose proof (collapse_lt d d' Sep E). lia.
Qed.
Lemma load_fuel d : load_config classes d <> Raise OutOfFuel.
Proof.
  unfold load_config. pose proof (deserialize_fuel (length d) d ltac:(lia)) as D. destruct (deserialize _ _); cbn [rbind]; [apply build_fuel|congruence].
Qed.
End Classes.
