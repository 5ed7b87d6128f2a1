(* Parameters: where a key leads, and what setting it changes. *)
From Coq Require Import String Lia.
From Verif Require Import PyNum PyList PyMon L_List M_Objects S_Objects L_Objects L_Clone.

Definition hook (k : kind) (c : string) : option (string * string) :=
  match k with
  | Plain => None
  | Operator => if String.eqb c "OrderedBound" then Some ("execute", "ordered_bound")%string else if String.eqb c "UnorderedBound" then Some ("execute", "unordered_bound")%string
                else if String.eqb c "CenterSpread" then Some ("execute", "center_spread")%string else if String.eqb c "MinPercentage" then Some ("execute", "min_percentage")%string else None
  | Initializer => if String.eqb c "OrderedBound" then Some ("generate_matching_function", "ordered_bound")%string else if String.eqb c "UnorderedBound" then Some ("generate_matching_function", "unordered_bound")%string
                else if String.eqb c "CenterSpread" then Some ("generate_matching_function", "centre_spread")%string else if String.eqb c "MinPercentage" then Some ("generate_matching_function", "min_percentage")%string else None
  end.

Section World.
Variable classes : string -> classinfo.
Variable builtins : atom -> list string.
Notation getattr := (getattr classes builtins). Notation setattr := (setattr classes builtins). Notation configured := (configured classes builtins). Notation parameter := (parameter classes builtins).
Notation param_names := (param_names classes). Notation get_params := (get_params classes builtins). Notation set_params := (set_params classes builtins).

Lemma setattr_effect x n v h o : nth_error h x = Some o -> snd (setattr (Ref x) n v h) =
  if String.eqb n "matching_type" then match hook (ckind (classes (cls o))) (class_of h v) with Some (hn, hm) => write (write h x n v) x hn (Prim (AMember hm)) | None => write h x n v end
  else write h x n v.
Proof.
  intros E. cbn [M_Objects.setattr]. unfold bind at 1, get. unfold bind at 1, lift, lookup. rewrite E. cbn [of_option]. unfold bind at 1, setfield. destruct (String.eqb n "matching_type"); [|reflexivity].
  unfold hook. destruct (ckind (classes (cls o))); [reflexivity| |].
  - cbv zeta. destruct (String.eqb _ _); [reflexivity|]. destruct (String.eqb _ _); [reflexivity|]. destruct (String.eqb _ _); [|destruct (String.eqb _ _); [|reflexivity]];
    unfold bind at 1, setfield; unfold bind at 1, lift; destruct (getattr h (Ref x) "sigma"); reflexivity.
  - cbv zeta. destruct (String.eqb _ _); [reflexivity|]. destruct (String.eqb _ _); [reflexivity|]. destruct (String.eqb _ _); [reflexivity|]. destruct (String.eqb _ _); reflexivity.
Qed.
Lemma setattr_plain x n v h o : nth_error h x = Some o -> String.eqb n "matching_type" = false -> setattr (Ref x) n v h = (Ok tt, write h x n v).
Proof. intros E EM. cbn [M_Objects.setattr]. unfold bind at 1, get. unfold bind at 1, lift, lookup. rewrite E. cbn [of_option]. unfold bind at 1, setfield. rewrite EM. reflexivity. Qed.

Inductive loc (h : heap) : val -> list string -> nat -> string -> Prop :=
| Loc_here x ns n : param_names h (Ref x) = Some ns -> In n ns -> loc h (Ref x) [n] x n
| Loc_deep v ns n w ms key x m : param_names h v = Some ns -> In n ns -> getattr h v n = Ok w -> param_names h w = Some ms -> loc h w key x m -> loc h v (n :: key) x m.
Lemma loc_nonempty h v key x m : loc h v key x m -> key <> [].
Proof. intros HL. destruct HL; discriminate. Qed.
Lemma loc_last h v key x m : loc h v key x m -> last key ""%string = m.
Proof. intros HL. induction HL as [|v ns n w ms key x m _ _ _ _ HL IH]; [reflexivity|]. pose proof (loc_nonempty _ _ _ _ _ HL). destruct key; [congruence|exact IH]. Qed.
Lemma loc_names h v key x m : loc h v key x m -> exists ns, param_names h (Ref x) = Some ns /\ In m ns.
Proof. intros HL. induction HL as [x ns n HP HI|]; [exists ns; auto|assumption]. Qed.
Lemma loc_functional h v key x m : loc h v key x m -> forall x' m', loc h v key x' m' -> x' = x /\ m' = m.
Proof.
  intros HL. induction HL as [x ns n HP HI|v ns n w ms key x m HP HI HG HW HL IH]; intros x' m' HL'.
  - inversion HL' as [|v0 ns0 n0 w0 ms0 key0 x0 m0 _ _ _ _ HL0]; subst; [auto|]. apply loc_nonempty in HL0. congruence.
  - inversion HL' as [x0 ns0 n0 HP0 HI0 E1 E2|v0 ns0 n0 w0 ms0 key0 x0 m0 HP0 HI0 HG0 HW0 HL0]; subst; [exfalso; apply loc_nonempty in HL; congruence|].
    rewrite HG in HG0. injection HG0 as <-. exact (IH _ _ HL0).
Qed.
Lemma loc_configured h v key x m u : loc h v key x m -> getattr h (Ref x) m = Ok u -> configured h v key u.
Proof.
  intros HL HG. induction HL as [x ns n HP HI|v ns n w ms key x m HP HI HG' HW HL IH].
  - eapply Configured_param; [exact HP|exact HI|exact HG|constructor].
  - eapply Configured_param; [exact HP|exact HI|exact HG'|exact (IH HG)].
Qed.
Lemma loc_parameter h v key x m u : loc h v key x m -> getattr h (Ref x) m = Ok u -> parameter h v key u.
Proof.
  intros HL HG. induction HL as [x ns n HP HI|v ns n w ms key x m HP HI HG' HW HL IH].
  - eapply Param_here; [exact HP|exact HI|exact HG].
  - eapply Param_deep; [exact HP|exact HI|exact HG'|exact (IH HG)].
Qed.
Lemma parameter_names h v key u : parameter h v key u -> exists ns, param_names h v = Some ns.
Proof. intros HP. destruct HP; eauto. Qed.
Lemma parameter_loc h v key u : parameter h v key u -> exists x m, loc h v key x m /\ getattr h (Ref x) m = Ok u.
Proof.
  intros HP. induction HP as [v ns n w HP HI HG|v ns n w key u HP HI HG HL (x & m & IH & IG)].
  - destruct v as [a|p]; [discriminate HP|]. exists p, n. split; [exact (Loc_here _ _ _ _ HP HI)|exact HG].
  - destruct (parameter_names _ _ _ _ HL) as (ms & HM). exists x, m. split; [exact (Loc_deep _ _ _ _ _ _ _ _ _ HP HI HG HM IH)|exact IG].
Qed.
Lemma rmap_inv {A B} (f : A -> res B) l bs : rmap f l = Ok bs -> Forall2 (fun a b => f a = Ok b) l bs.
Proof.
  revert bs. induction l as [|a l IH]; intros bs H; cbn in H; [injection H as <-; constructor|]. destruct (f a) as [b|e] eqn:E; [|discriminate]. destruct (rmap f l) as [bs'|e]; [|discriminate].
  injection H as <-. constructor; [exact E|apply IH; reflexivity].
Qed.
Lemma get_params_loc : forall f h v ps, get_params f h v = Ok ps -> forall key u, In (key, u) ps -> exists x m, loc h v key x m /\ getattr h (Ref x) m = Ok u.
Proof.
  induction f as [|f IH]; intros h v ps H key u HI; cbn [M_Objects.get_params] in H; [discriminate|]. destruct (param_names h v) as [ns|] eqn:EP; cbn [of_option rbind] in H; [|discriminate].
  match type of H with context [rmap ?g ns] => destruct (rmap g ns) as [parts|e] eqn:ER end; [|discriminate]. injection H as <-. apply rmap_inv in ER.
  apply in_concat in HI as (part & HPt & HI). 
  assert (HX : exists n, In n ns /\ (let? w := getattr h v n in let? deep := match param_names h w with Some _ => get_params f h w | None => Ok [] end in Ok (map (fun kv => (n :: fst kv, snd kv)) deep ++ [([n], w)])) = Ok part).
  { clear HI EP. induction ER as [|n p ns' ps' E ER IHR]; [destruct HPt|]. destruct HPt as [<-|HPt]; [exists n; split; [left; reflexivity|exact E]|]. destruct (IHR HPt) as (n' & HI' & E'). exists n'. split; [right; exact HI'|exact E']. }
  destruct HX as (n & HN & HE). destruct (getattr h v n) as [w|e] eqn:EG; [|discriminate]. cbn in HE.
  destruct v as [a|p]; [cbn in EP; discriminate|].
  destruct (param_names h w) as [ms|] eqn:EW.
  - destruct (get_params f h w) as [deep|e] eqn:ED; [|discriminate]. injection HE as <-. apply in_app_or in HI as [HI|[E|[]]].
    + apply in_map_iff in HI as ([k' u'] & E & HI). cbn in E. injection E as <- <-. destruct (IH _ _ _ ED _ _ HI) as (x & m & HL & HG). exists x, m. split; [|exact HG]. exact (Loc_deep _ _ _ _ _ _ _ _ _ EP HN EG EW HL).
    + injection E as <- <-. exists p, n. split; [exact (Loc_here _ _ _ _ EP HN)|exact EG].
  - injection HE as <-. destruct HI as [E|[]]. injection E as <- <-. exists p, n. split; [exact (Loc_here _ _ _ _ EP HN)|exact EG].
Qed.
Lemma loc_get_params : forall f h v ps, get_params f h v = Ok ps -> forall key u x m, loc h v key x m -> getattr h (Ref x) m = Ok u -> In (key, u) ps.
Proof.
  induction f as [|f IH]; intros h v ps H key u x m HL HG; cbn [M_Objects.get_params] in H; [discriminate|]. destruct (param_names h v) as [ns|] eqn:EP; cbn [of_option rbind] in H; [|discriminate].
  match type of H with context [rmap ?g ns] => destruct (rmap g ns) as [parts|e] eqn:ER end; [|discriminate]. injection H as <-. apply rmap_inv in ER.
  assert (HX : forall n, In n ns -> exists part, In part parts /\ (let? w := getattr h v n in let? deep := match param_names h w with Some _ => get_params f h w | None => Ok [] end in Ok (map (fun kv => (n :: fst kv, snd kv)) deep ++ [([n], w)])) = Ok part).
  { clear EP. induction ER as [|n p ns' ps' E ER IHR]; intros n' [].
    - subst n'. exists p. split; [left; reflexivity|exact E].
    - destruct (IHR n' H) as (part & HI & E'). exists part. split; [right; exact HI|exact E']. }
  inversion HL as [x0 ns0 n HP HI E1 E2|v0 ns0 n w ms key0 x0 m0 HP HI HA HW HL0 E1 E2]; subst.
  - rewrite EP in HP. injection HP as <-. destruct (HX m HI) as (part & HPt & HE). apply in_concat. exists part. split; [exact HPt|]. rewrite HG in HE. cbn in HE.
    destruct (match param_names h u with Some _ => get_params f h u | None => Ok [] end) as [deep|e]; [|discriminate]. injection HE as <-. apply in_or_app. right. left. reflexivity.
  - rewrite EP in HP. injection HP as <-. destruct (HX n HI) as (part & HPt & HE). apply in_concat. exists part. split; [exact HPt|]. rewrite HA in HE. cbn in HE. rewrite HW in HE.
    destruct (get_params f h w) as [deep|e] eqn:ED; [|discriminate]. injection HE as <-. apply in_or_app. left. apply in_map_iff. exists (key0, u). split; [reflexivity|]. exact (IH _ _ _ ED _ _ _ _ HL0 HG).
Qed.
Lemma existsb_In n ns : In n ns -> existsb (String.eqb n) ns = true.
Proof. intros HI. apply existsb_exists. exists n. split; [exact HI|apply String.eqb_refl]. Qed.
Lemma set_params_loc h v key x m w : loc h v key x m -> set_params v key w h = setattr (Ref x) m w h.
Proof.
  intros HL. induction HL as [x ns n HP HI|v ns n u ms key x m HP HI HG HW HL IH]; cbn [M_Objects.set_params]; unfold bind at 1, get; unfold bind at 1, lift; rewrite HP; cbn [of_option]; rewrite existsb_In by exact HI; cbn [negb]; [reflexivity|].
  pose proof (loc_nonempty _ _ _ _ _ HL) as HN. destruct key as [|k key]; [congruence|]. unfold bind at 1, lift. rewrite HG. exact IH.
Qed.
Lemma loc_exists h v key x m : loc h v key x m -> exists o, nth_error h x = Some o.
Proof. intros HL. apply loc_names in HL as (ns & HP & _). cbn in HP. destruct (nth_error h x) as [o|]; [exists o; reflexivity|discriminate]. Qed.

(* ----- relations between heaps under which keys lead to the same place ----- *)
Definition shape (h h' : heap) : Prop := length h' = length h /\ forall p o, nth_error h p = Some o -> exists o', nth_error h' p = Some o' /\ cls o' = cls o.
Lemma shape_refl h : shape h h. Proof. split; [reflexivity|]. intros p o E. exists o. auto. Qed.
Lemma shape_trans h1 h2 h3 : shape h1 h2 -> shape h2 h3 -> shape h1 h3.
Proof. intros [L1 H1] [L2 H2]. split; [congruence|]. intros p o E. destruct (H1 p o E) as (o1 & E1 & C1). destruct (H2 p o1 E1) as (o2 & E2 & C2). exists o2. split; congruence. Qed.
Lemma shape_write h x n v : shape h (write h x n v).
Proof. split; [apply write_length|]. intros p o E. rewrite write_nth. destruct (Nat.eqb x p) eqn:EQ; [apply Nat.eqb_eq in EQ; subst p; rewrite E; cbn; eexists; split; reflexivity|exists o; auto]. Qed.
Lemma shape_back h h' p o' : shape h h' -> nth_error h' p = Some o' -> exists o, nth_error h p = Some o /\ cls o' = cls o.
Proof.
  intros [HL HS] E. destruct (nth_error h p) as [o|] eqn:EO; [|apply nth_error_None in EO; assert ((p < length h')%nat) by (apply nth_error_Some; congruence); lia].
  destruct (HS p o EO) as (o1 & E1 & C1). exists o. split; [reflexivity|congruence].
Qed.
Lemma shape_names h h' v : shape h h' -> param_names h' v = param_names h v.
Proof.
  intros HS. destruct v as [a|p]; cbn; [reflexivity|]. destruct (nth_error h p) as [o|] eqn:E.
  - destruct HS as [_ HS]. destruct (HS p o E) as (o1 & E1 & C1). rewrite E1, C1. reflexivity.
  - assert (E1 : nth_error h' p = None) by (apply nth_error_None; destruct HS as [-> _]; apply nth_error_None; exact E). rewrite E1. reflexivity.
Qed.
Lemma shape_class h h' v : shape h h' -> class_of h' v = class_of h v.
Proof.
  intros HS. destruct v as [a|p]; cbn; [reflexivity|]. destruct (nth_error h p) as [o|] eqn:E.
  - destruct HS as [_ HS]. destruct (HS p o E) as (o1 & E1 & C1). rewrite E1, C1. reflexivity.
  - assert (E1 : nth_error h' p = None) by (apply nth_error_None; destruct HS as [-> _]; apply nth_error_None; exact E). rewrite E1. reflexivity.
Qed.
Lemma getattr_stored h p n : getattr h (Ref p) n = match nth_error h p with None => Raise Dangling | Some o => match stored h p n with Some w => Ok w | None => if existsb (String.eqb n) (members (classes (cls o))) then Ok (Prim (AMember n)) else Raise AttributeError end end.
Proof. cbn [M_Objects.getattr]. unfold lookup, stored. destruct (nth_error h p); reflexivity. Qed.
Lemma getattr_same h h' p n : shape h h' -> stored h' p n = stored h p n -> getattr h' (Ref p) n = getattr h (Ref p) n.
Proof.
  intros HS E. rewrite !getattr_stored, E. destruct (nth_error h p) as [o|] eqn:EO.
  - destruct HS as [_ HS]. destruct (HS p o EO) as (o1 & E1 & C1). rewrite E1, C1. reflexivity.
  - assert (E1 : nth_error h' p = None) by (apply nth_error_None; destruct HS as [-> _]; apply nth_error_None; exact EO). rewrite E1. reflexivity.
Qed.

(* ----- bounds ----- *)
Definition filled (b : nat) (h h' : heap) : Prop := shape h h' /\ forall p m, stored h' p m = stored h p m \/
  (stored h p m = Some (Prim ANone) /\ ends_with "bounds" m = true /\ stored h' p m = Some (Ref b)).
Lemma filled_refl b h : filled b h h. Proof. split; [apply shape_refl|]. intros p m. left. reflexivity. Qed.
Lemma filled_trans b h1 h2 h3 : filled b h1 h2 -> filled b h2 h3 -> filled b h1 h3.
Proof.
  intros [S1 F1] [S2 F2]. split; [exact (shape_trans _ _ _ S1 S2)|]. intros p m. destruct (F2 p m) as [E2|(N2 & B2 & E2)]; destruct (F1 p m) as [E1|(N1 & B1 & E1)].
  - left. congruence.
  - right. split; [exact N1|]. split; [exact B1|congruence].
  - right. split; [congruence|]. split; [exact B2|exact E2].
  - exfalso. congruence.
Qed.
Hypothesis arrays : names (classes "ndarray"%string) = None.
Lemma filled_loc b ob h h' v key x m : filled b h h' -> nth_error h b = Some ob -> cls ob = "ndarray"%string -> loc h v key x m <-> loc h' v key x m.
Proof.
  intros [HS HF] HB HC. assert (HNB : param_names h (Ref b) = None) by (cbn; rewrite HB, HC; exact arrays). split; intros HL.
  - induction HL as [x ns n HP HI|v ns n w ms key x m HP HI HG HW HL IH].
    + eapply Loc_here; [rewrite (shape_names _ _ _ HS); exact HP|exact HI].
    + eapply (Loc_deep _ _ ns n w ms); [rewrite (shape_names _ _ _ HS); exact HP|exact HI| |rewrite (shape_names _ _ _ HS); exact HW|exact IH].
      destruct v as [a|p]; [exact HG|]. destruct (HF p n) as [E|(EN & _ & _)]; [rewrite (getattr_same _ _ _ _ HS E); exact HG|].
      rewrite getattr_stored, EN in HG. destruct (nth_error h p); [|discriminate]. injection HG as <-. cbn in HW. discriminate.
  - induction HL as [x ns n HP HI|v ns n w ms key x m HP HI HG HW HL IH].
    + eapply Loc_here; [rewrite <- (shape_names _ _ _ HS); exact HP|exact HI].
    + rewrite (shape_names _ _ _ HS) in HP. rewrite (shape_names _ _ _ HS) in HW. eapply (Loc_deep _ _ ns n w ms); [exact HP|exact HI| |exact HW|exact IH].
      destruct v as [a|p]; [exact HG|]. destruct (HF p n) as [E|(_ & _ & EN)]; [rewrite <- (getattr_same _ _ _ _ HS E); exact HG|].
      rewrite getattr_stored, EN in HG. destruct (nth_error h' p); [|discriminate]. injection HG as <-. congruence.
Qed.
Lemma ends_bounds_matching m : ends_with "bounds" m = true -> String.eqb m "matching_type" = false.
Proof. intros H. destruct (String.eqb m "matching_type") eqn:E; [|reflexivity]. apply String.eqb_eq in E. subst m. vm_compute in H. discriminate. Qed.
Lemma fill_loop b rd h0 ob : nth_error h0 b = Some ob -> cls ob = "ndarray"%string -> forall l h, filled b h0 h ->
  (forall key u, In (key, u) l -> exists x m, loc h0 rd key x m /\ getattr h0 (Ref x) m = Ok u) ->
  exists h', miter (fun kv => if bounds_key (fst kv) && is_none (snd kv) then set_params rd (fst kv) (Ref b) else ret tt) l h = (Ok tt, h') /\ filled b h0 h' /\ filled b h h' /\
    (forall p m, stored h' p m = stored h p m \/ exists key u, In (key, u) l /\ is_none u = true /\ loc h0 rd key p m) /\
    forall key u, In (key, u) l -> bounds_key key = true -> is_none u = true -> forall x m, loc h0 rd key x m -> stored h' x m = Some (Ref b).
Proof.
  intros HB HC. induction l as [|[key u] l IH]; intros h HF HL.
  - exists h. split; [reflexivity|]. split; [exact HF|]. split; [apply filled_refl|]. split; [left; reflexivity|]. intros key u [].
  - cbn [miter]. cbn [fst snd]. destruct (bounds_key key && is_none u) eqn:EK.
    + apply andb_prop in EK as [EK EU]. destruct (HL key u (or_introl eq_refl)) as (x & m & HLx & HG).
      assert (HLh : loc h rd key x m) by (apply (filled_loc b ob h0 h); assumption). destruct (loc_exists _ _ _ _ _ HLh) as (o & HO).
      assert (EM : ends_with "bounds" m = true) by (rewrite <- (loc_last _ _ _ _ _ HLx); exact EK).
      assert (HS : set_params rd key (Ref b) h = (Ok tt, write h x m (Ref b))) by (rewrite (set_params_loc _ _ _ _ _ _ HLh); apply (setattr_plain _ _ _ _ _ HO); apply ends_bounds_matching; exact EM).
      assert (HN : stored h0 x m = Some (Prim ANone)).
      { rewrite getattr_stored in HG. destruct (nth_error h0 x); [|discriminate]. destruct u as [[]|]; try discriminate. destruct (stored h0 x m); [congruence|]. destruct (existsb _ _); discriminate. }
      assert (HLX : (x < length h)%nat) by (apply nth_error_Some; congruence).
      assert (HF0 : filled b h0 (write h x m (Ref b))).
      { destruct HF as [HSh HFf]. split; [exact (shape_trans _ _ _ HSh (shape_write _ _ _ _))|]. intros p n. rewrite write_stored. destruct (Nat.eqb x p && String.eqb m n) eqn:E; [|apply HFf].
        apply andb_prop in E as [E1 E2]. apply Nat.eqb_eq in E1. apply String.eqb_eq in E2. subst p n. apply Nat.ltb_lt in HLX. rewrite HLX. right. auto. }
      destruct (IH (write h x m (Ref b)) HF0) as (h' & HM & HF1 & HF2 & HCh & HAll); [intros k w HI; apply HL; right; exact HI|].
      exists h'. split; [unfold bind; rewrite HS; exact HM|]. split; [exact HF1|].
      assert (HW : stored (write h x m (Ref b)) x m = Some (Ref b)) by (rewrite write_stored, Nat.eqb_refl, String.eqb_refl; cbn [andb]; apply Nat.ltb_lt in HLX; rewrite HLX; reflexivity).
      assert (HWx : stored h' x m = Some (Ref b)) by (destruct HF2 as [_ HF2]; destruct (HF2 x m) as [E|(E & _ & _)]; congruence).
      split; [|split].
      * destruct HF2 as [HS2 HF2]. split; [exact (shape_trans _ _ _ (shape_write _ _ _ _) HS2)|]. intros p n. destruct (HF2 p n) as [E|(E1 & E2 & E3)]; rewrite write_stored in *.
        -- rewrite E. destruct (Nat.eqb x p && String.eqb m n) eqn:EE; [|left; reflexivity]. apply andb_prop in EE as [E1 E2]. apply Nat.eqb_eq in E1. apply String.eqb_eq in E2. subst p n.
           destruct HF as [_ HF]. destruct (HF x m) as [E'|(E' & E'' & E''')]; [right; rewrite E', HN; apply Nat.ltb_lt in HLX; rewrite HLX; auto|left]. rewrite E'''. apply Nat.ltb_lt in HLX. rewrite HLX. reflexivity.
        -- destruct (Nat.eqb x p && String.eqb m n) eqn:EE; [apply Nat.ltb_lt in HLX; rewrite HLX in E1; discriminate|]. right. auto.
      * intros p n. destruct (HCh p n) as [E|(k & w & HI & HW' & HLk)]; [|right; exists k, w; split; [right; exact HI|auto]]. rewrite write_stored in E.
        destruct (Nat.eqb x p && String.eqb m n) eqn:EE; [|left; exact E]. right. apply andb_prop in EE as [E1 E2]. apply Nat.eqb_eq in E1. apply String.eqb_eq in E2. subst p n. exists key, u. split; [left; reflexivity|auto].
      * intros k w [E|HI] HK HU y n HLy; [|exact (HAll k w HI HK HU y n HLy)]. injection E as <- <-. destruct (loc_functional _ _ _ _ _ HLx _ _ HLy) as [-> ->]. exact HWx.
    + destruct (IH h HF) as (h' & HM & HF1 & HF2 & HCh & HAll); [intros k w HI; apply HL; right; exact HI|]. exists h'. split; [unfold bind, ret; exact HM|]. split; [exact HF1|]. split; [exact HF2|].
      split; [intros p n; destruct (HCh p n) as [E|(k & w & HI & HW & HLk)]; [left; exact E|right; exists k, w; split; [right; exact HI|auto]]|].
      intros k w [E|HI] HK HU y n HLy; [injection E as <- <-; rewrite HK, HU in EK; discriminate|exact (HAll k w HI HK HU y n HLy)].
Qed.
(* keys lead to the same place in a heap with more objects *)
Lemma loc_ext h h' v key x m : ext h h' -> loc h v key x m -> loc h' v key x m.
Proof.
  intros HE HL. induction HL as [x ns n HP HI|v ns n w ms key x m HP HI HG HW HL IH]; [eapply Loc_here; [exact (param_names_ext _ _ _ _ _ HE HP)|exact HI]|].
  exact (Loc_deep _ _ _ _ _ _ _ _ _ (param_names_ext _ _ _ _ _ HE HP) HI (getattr_ext _ _ _ _ _ _ _ HE HG) (param_names_ext _ _ _ _ _ HE HW) IH).
Qed.
Lemma bounds_filled f rd data h u h' : init_bounds classes builtins f rd data h = (Ok u, h') ->
  nth_error h' (length h) = Some (mkObject "ndarray" [("data"%string, Prim (AData data))]) /\
  (forall p o, nth_error h p = Some o -> exists o', nth_error h' p = Some o' /\ cls o' = cls o) /\
  (forall p m, (p < length h)%nat -> stored h' p m = stored h p m \/
     (stored h p m = Some (Prim ANone) /\ ends_with "bounds" m = true /\ stored h' p m = Some (Ref (length h)) /\
      exists key, last key ""%string = m /\ configured (h ++ [mkObject "ndarray" [("data"%string, Prim (AData data))]]) rd key (Prim ANone))) /\
  (forall key v, parameter h' rd key v -> bounds_key key = true -> v <> Prim ANone) /\
  (forall key, parameter h rd key (Prim ANone) -> bounds_key key = true -> parameter h' rd key (Ref (length h))) /\
  filled (length h) (h ++ [mkObject "ndarray" [("data"%string, Prim (AData data))]]) h'.
Proof.
  intros HE. unfold init_bounds in HE. unfold bind at 1, alloc in HE. unfold bind at 1, get in HE. unfold bind at 1, lift in HE. set (ob := mkObject "ndarray" [("data"%string, Prim (AData data))]) in *. set (h0 := h ++ [ob]) in *.
  destruct (get_params f h0 rd) as [ps|e] eqn:EP; [|discriminate].
  assert (HB : nth_error h0 (length h) = Some ob) by (unfold h0; rewrite nth_error_app2 by lia; rewrite Nat.sub_diag; reflexivity).
  destruct (fill_loop (length h) rd h0 ob HB eq_refl ps h0 (filled_refl _ _) (fun key u HI => get_params_loc _ _ _ _ EP key u HI)) as (h1 & HM & HF & _ & HCh & HAll).
  rewrite HM in HE. injection HE as _ <-. 
  assert (HB1 : stored h1 (length h) "data" = Some (Prim (AData data))).
  { destruct HF as [_ HF]. destruct (HF (length h) "data"%string) as [E|(E & _ & _)]; unfold stored in E |- *; rewrite HB in E; [exact E|discriminate]. }
  split; [|split; [|split; [|split; [|split; [|exact HF]]]]].
  - (* the new array has no parameters: nothing was written to it *)
    assert (HX : forall l hh, (forall key u, In (key, u) l -> exists x m, loc h0 rd key x m /\ getattr h0 (Ref x) m = Ok u) -> filled (length h) h0 hh -> nth_error hh (length h) = Some ob ->
        nth_error (snd (miter (fun kv => if bounds_key (fst kv) && is_none (snd kv) then set_params rd (fst kv) (Ref (length h)) else ret tt) l hh)) (length h) = Some ob).
    { induction l as [|[key u'] l IH]; intros hh HL HFh HN; [exact HN|]. cbn [miter fst snd].
      destruct (fill_loop (length h) rd h0 ob HB eq_refl [(key, u')] hh HFh) as (h2 & HM2 & HF2 & _); [intros k w [E|[]]; injection E as <- <-; apply HL; left; reflexivity|]. cbn [miter fst snd] in HM2.
      destruct (bounds_key key && is_none u') eqn:EK; [|unfold bind, ret; apply IH; [intros k w HI; apply HL; right; exact HI|exact HFh|exact HN]].
      destruct (HL key u' (or_introl eq_refl)) as (x & m & HLx & HG). assert (HLh : loc hh rd key x m) by (apply (filled_loc (length h) ob h0 hh); auto).
      destruct (loc_exists _ _ _ _ _ HLh) as (o & HO). assert (EM : ends_with "bounds" m = true) by (apply andb_prop in EK as [EK _]; rewrite <- (loc_last _ _ _ _ _ HLx); exact EK).
      unfold bind in HM2 |- *. rewrite (set_params_loc _ _ _ _ _ _ HLh), (setattr_plain _ _ _ _ _ HO (ends_bounds_matching _ EM)) in HM2 |- *.
      unfold ret in HM2. injection HM2 as <-. apply IH; [intros k w HI; apply HL; right; exact HI|exact HF2|]. rewrite write_nth. destruct (Nat.eqb x (length h)) eqn:EQ; [|exact HN].
      apply Nat.eqb_eq in EQ. subst x. apply loc_names in HLx as (ns & HPn & _). cbn in HPn. rewrite HB in HPn. cbn [cls ob] in HPn. rewrite arrays in HPn. discriminate. }
    specialize (HX ps h0 (fun key u HI => get_params_loc _ _ _ _ EP key u HI) (filled_refl _ _) HB). rewrite HM in HX. exact HX.
  - intros p o E. destruct HF as [[_ HS] _]. apply HS. unfold h0. rewrite nth_error_app1; [exact E|]. apply nth_error_Some. congruence.
  - intros p m Hp. assert (E0 : stored h0 p m = stored h p m) by (unfold stored, h0; rewrite nth_error_app1 by exact Hp; reflexivity). rewrite <- E0.
    destruct HF as [_ HF]. destruct (HF p m) as [E|(E1 & E2 & E3)]; [left; exact E|]. right. split; [exact E1|]. split; [exact E2|]. split; [exact E3|].
    destruct (HCh p m) as [E|(key & w & HI & HW & HLk)]; [congruence|]. exists key. split; [exact (loc_last _ _ _ _ _ HLk)|]. apply (loc_configured _ _ _ _ _ _ HLk). rewrite getattr_stored, E1.
    destruct (loc_exists _ _ _ _ _ HLk) as (o & ->). reflexivity.
  - intros key v HPr HK HV. subst v. destruct (parameter_loc _ _ _ _ HPr) as (x & m & HL & HA). assert (HL0 : loc h0 rd key x m) by (apply (filled_loc (length h) ob h0 h1); auto).
    destruct HF as [HS HF]. destruct (HF x m) as [E|(_ & _ & E)].
    + rewrite (getattr_same _ _ _ _ HS E) in HA. pose proof (loc_get_params _ _ _ _ EP _ _ _ _ HL0 HA) as HI0. specialize (HAll key (Prim ANone) HI0 HK eq_refl x m HL0).
      rewrite getattr_stored in HA. destruct (nth_error h0 x); [|discriminate]. rewrite <- E, HAll in HA. discriminate.
    + rewrite getattr_stored, E in HA. destruct (nth_error h1 x); discriminate.
  - intros key HPr HK. destruct (parameter_loc _ _ _ _ HPr) as (x & m & HL & HA). assert (HX : ext h h0) by (split; [unfold h0; rewrite app_length; lia|intros p Hp; unfold h0; apply nth_error_app1; exact Hp]).
    pose proof (loc_ext _ _ _ _ _ _ HX HL) as HL0. pose proof (getattr_ext _ _ _ _ _ _ _ HX HA) as HA0. pose proof (loc_get_params _ _ _ _ EP _ _ _ _ HL0 HA0) as HI0.
    specialize (HAll key (Prim ANone) HI0 HK eq_refl x m HL0). assert (HL1 : loc h1 rd key x m) by (apply (filled_loc (length h) ob h0 h1); auto). apply (loc_parameter _ _ _ _ _ _ HL1).
    destruct (loc_exists _ _ _ _ _ HL1) as (o & EO). rewrite getattr_stored, EO, HAll. reflexivity.
Qed.
End World.
