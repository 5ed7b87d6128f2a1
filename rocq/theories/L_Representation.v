(* The matching type reaches every component. *)
From Coq Require Import String Lia.
From Verif Require Import PyNum PyList PyMon L_List M_Objects S_Objects L_Objects L_Clone L_Params.

Lemma contains_refl s : contains s s = true.
Proof. destruct s as [|c s]; [reflexivity|]. cbn [contains]. assert (H : forall t, String.prefix t t = true) by (induction t as [|d t IH]; cbn; [reflexivity|]; destruct (Ascii.ascii_dec d d); [exact IH|congruence]). rewrite H. reflexivity. Qed.

Section World.
Variable classes : string -> classinfo.
Variable builtins : atom -> list string.
Notation getattr := (getattr classes builtins). Notation setattr := (setattr classes builtins). Notation configured := (configured classes builtins). Notation parameter := (parameter classes builtins).
Notation param_names := (param_names classes). Notation get_params := (get_params classes builtins). Notation set_params := (set_params classes builtins). Notation loc := (loc classes builtins).

Hypothesis hooks_free : forall c ns, names (classes c) = Some ns -> ~ In "execute"%string ns /\ ~ In "generate_matching_function"%string ns.

Definition hooked (c : string) (h h' : heap) (mt : val) : Prop := shape h h' /\ forall p m, stored h' p m = stored h p m \/ (m = "matching_type"%string /\ stored h' p m = Some mt) \/
  exists o hm, nth_error h p = Some o /\ hook (ckind (classes (cls o))) c = Some (m, hm) /\ stored h' p m = Some (Prim (AMember hm)).
Lemma hook_name k c hn hm : hook k c = Some (hn, hm) -> hn = "execute"%string \/ hn = "generate_matching_function"%string.
Proof.
  unfold hook. destruct k; [discriminate| |]; intros H; repeat match type of H with (if ?b then _ else _) = _ => destruct b end; inversion H; auto.
Qed.
Lemma hooked_refl c h mt : hooked c h h mt. Proof. split; [apply shape_refl|]. intros p m. left. reflexivity. Qed.
Lemma hooked_trans c h1 h2 h3 mt : hooked c h1 h2 mt -> hooked c h2 h3 mt -> hooked c h1 h3 mt.
Proof.
  intros [S1 F1] [S2 F2]. split; [exact (shape_trans _ _ _ S1 S2)|]. intros p m. destruct (F2 p m) as [E2|[(N2 & E2)|(o & hm & EO & EH & E2)]].
  - destruct (F1 p m) as [E1|[(N1 & E1)|(o & hm & EO & EH & E1)]]; [left; congruence|right; left; split; [exact N1|congruence]|right; right; exists o, hm; split; [exact EO|]; split; [exact EH|congruence]].
  - right. left. auto.
  - right. right. destruct (shape_back _ _ _ _ S1 EO) as (o1 & EO1 & EC). exists o1, hm. split; [exact EO1|]. split; [congruence|exact E2].
Qed.
(* one assignment of matching_type *)
Lemma set_hooked x mt h o c : nth_error h x = Some o -> class_of h mt = c -> 
  hooked c h (snd (setattr (Ref x) "matching_type" mt h)) mt /\ stored (snd (setattr (Ref x) "matching_type" mt h)) x "matching_type" = Some mt /\
  forall hn hm, hook (ckind (classes (cls o))) c = Some (hn, hm) -> stored (snd (setattr (Ref x) "matching_type" mt h)) x hn = Some (Prim (AMember hm)).
Proof.
  intros HO HC. rewrite (setattr_effect classes builtins x "matching_type" mt h o HO). rewrite HC. cbn [String.eqb Ascii.eqb Bool.eqb]. 
  assert (HX : (x < length h)%nat) by (apply nth_error_Some; congruence). pose proof HX as HX'. apply Nat.ltb_lt in HX'.
  assert (HW : forall q m, stored (write h x "matching_type" mt) q m = if Nat.eqb x q && String.eqb "matching_type" m then Some mt else stored h q m) by (intros q m; rewrite write_stored, HX'; reflexivity).
  destruct (hook (ckind (classes (cls o))) c) as [[hn hm]|] eqn:EH.
  - assert (HN : String.eqb hn "matching_type" = false) by (destruct (hook_name _ _ _ _ EH) as [-> | ->]; reflexivity).
    assert (HW2 : forall q m, stored (write (write h x "matching_type" mt) x hn (Prim (AMember hm))) q m = if Nat.eqb x q && String.eqb hn m then Some (Prim (AMember hm)) else stored (write h x "matching_type" mt) q m)
      by (intros q m; rewrite write_stored, write_length, HX'; reflexivity).
    split; [split|split].
    + exact (shape_trans _ _ _ (shape_write _ _ _ _) (shape_write _ _ _ _)).
    + intros p m. rewrite HW2, HW. destruct (Nat.eqb x p) eqn:E; cbn [andb]; [|left; reflexivity]. apply Nat.eqb_eq in E. subst p. destruct (String.eqb hn m) eqn:E1.
      * apply String.eqb_eq in E1. subst m. right. right. exists o, hm. auto.
      * destruct (String.eqb "matching_type" m) eqn:E2; [|left; reflexivity]. apply String.eqb_eq in E2. subst m. right. left. auto.
    + rewrite HW2, HW, HN, Nat.eqb_refl. cbn [andb]. rewrite String.eqb_refl. reflexivity.
    + intros hn' hm' E. injection E as <- <-. rewrite HW2, Nat.eqb_refl, String.eqb_refl. reflexivity.
  - split; [split|split].
    + apply shape_write.
    + intros p m. rewrite HW. destruct (Nat.eqb x p && String.eqb "matching_type" m) eqn:E; [|left; reflexivity]. apply andb_prop in E as [_ E2]. apply String.eqb_eq in E2. subst m. right. left. auto.
    + rewrite HW, Nat.eqb_refl, String.eqb_refl. reflexivity.
    + discriminate.
Qed.
(* keys that do not go through a matching type lead to the same place before and after *)
Lemma hooked_loc c h h' mt v key x m : hooked c h h' mt -> matching_key (removelast key) = false -> loc h v key x m <-> loc h' v key x m.
Proof.
  intros [HS HF]. assert (HG : forall v ns n w, param_names h v = Some ns -> In n ns -> contains "matching_type" n = false -> getattr h v n = Ok w <-> getattr h' v n = Ok w).
  { intros u ns n w HP HI HC. destruct u as [a|p]; [reflexivity|]. destruct (HF p n) as [E|[(E & _)|(o & hm & EO & EH & _)]].
    - rewrite (getattr_same _ _ _ _ _ _ HS E). reflexivity.
    - subst n. rewrite contains_refl in HC. discriminate.
    - cbn in HP. rewrite EO in HP. destruct (hooks_free _ _ HP) as [H1 H2]. destruct (hook_name _ _ _ _ EH) as [-> | ->]; contradiction. }
  intros HK. split; intros HL.
  - induction HL as [x ns n HP HI|v ns n w ms key x m HP HI HA HW HL IH].
    + eapply Loc_here; [rewrite (shape_names _ _ _ _ HS); exact HP|exact HI].
    + pose proof (loc_nonempty _ _ _ _ _ _ _ HL) as HN. destruct key as [|k key]; [congruence|]. cbn [removelast] in HK. unfold matching_key in HK. cbn [existsb] in HK. apply Bool.orb_false_iff in HK as [HK1 HK2].
      eapply (Loc_deep _ _ _ _ ns n w ms); [rewrite (shape_names _ _ _ _ HS); exact HP|exact HI|apply (HG _ ns); assumption|rewrite (shape_names _ _ _ _ HS); exact HW|apply IH; exact HK2].
  - induction HL as [x ns n HP HI|v ns n w ms key x m HP HI HA HW HL IH].
    + eapply Loc_here; [rewrite <- (shape_names _ _ _ _ HS); exact HP|exact HI].
    + pose proof (loc_nonempty _ _ _ _ _ _ _ HL) as HN. destruct key as [|k key]; [congruence|]. cbn [removelast] in HK. unfold matching_key in HK. cbn [existsb] in HK. apply Bool.orb_false_iff in HK as [HK1 HK2].
      rewrite (shape_names _ _ _ _ HS) in HP. rewrite (shape_names _ _ _ _ HS) in HW. eapply (Loc_deep _ _ _ _ ns n w ms); [exact HP|exact HI|apply (HG _ ns); assumption|exact HW|apply IH; exact HK2].
Qed.
Lemma type_loop mt rd h0 c : class_of h0 mt = c -> forall l h u h', hooked c h0 h mt ->
  (forall key w, In (key, w) l -> exists x m, loc h0 rd key x m /\ getattr h0 (Ref x) m = Ok w) ->
  (forall key w, In (key, w) l -> matching_key key = true -> last key ""%string = "matching_type"%string /\ matching_key (removelast key) = false) ->
  miter (fun kv => if matching_key (fst kv) then set_params rd (fst kv) mt else ret tt) l h = (Ok u, h') ->
  hooked c h0 h' mt /\ hooked c h h' mt /\ forall key w, In (key, w) l -> matching_key key = true -> forall x m, loc h0 rd key x m ->
     stored h' x "matching_type" = Some mt /\ forall o hn hm, nth_error h0 x = Some o -> hook (ckind (classes (cls o))) c = Some (hn, hm) -> stored h' x hn = Some (Prim (AMember hm)).
Proof.
  intros HC. induction l as [|[key w] l IH]; intros h u h' HF HL HK HM; cbn [miter fst snd] in HM.
  - injection HM as _ <-. split; [exact HF|]. split; [apply hooked_refl|]. intros key w [].
  - apply bind_inv in HM as ([] & h1 & H1 & H2). cbn [fst] in H1. destruct (matching_key key) eqn:EK.
    + destruct (HL key w (or_introl eq_refl)) as (x & m & HLx & HG). destruct (HK key w (or_introl eq_refl) EK) as [HLast HPre].
      assert (HLh : loc h rd key x m) by (apply (hooked_loc c h0 h mt); assumption). destruct (loc_exists _ _ _ _ _ _ _ HLh) as (o & HO).
      assert (EM : m = "matching_type"%string) by (rewrite <- (loc_last _ _ _ _ _ _ _ HLx); exact HLast). subst m.
      rewrite (set_params_loc _ _ _ _ _ _ _ _ HLh) in H1. assert (HCh : class_of h mt = c) by (rewrite (shape_class _ _ _ (proj1 HF)); exact HC).
      destruct (set_hooked x mt h o c HO HCh) as (S1 & S2 & S3). rewrite H1 in S1, S2, S3. cbn [snd] in S1, S2, S3.
      destruct (IH h1 u h' (hooked_trans _ _ _ _ _ HF S1)) as (K1 & K2 & K3); [intros k v HI; apply HL; right; exact HI|intros k v HI; apply HK with (w := v); right; exact HI|exact H2|].
      split; [exact K1|]. split; [exact (hooked_trans _ _ _ _ _ S1 K2)|]. intros k v [E|HI] HKk y n HLy; [|exact (K3 k v HI HKk y n HLy)].
      injection E as <- <-. destruct (loc_functional _ _ _ _ _ _ _ HLx _ _ HLy) as [-> ->].
      destruct K2 as [KS KF]. destruct (shape_back _ _ _ _ (proj1 HF) HO) as (o0 & HO0 & HCo). split.
      * destruct (KF x "matching_type"%string) as [E|[(_ & E)|(o' & hm & _ & EH & _)]]; [congruence|exact E|]. destruct (hook_name _ _ _ _ EH) as [X|X]; discriminate X.
      * intros o1 hn hm E1 EH. rewrite HO0 in E1. injection E1 as <-. rewrite <- HCo in EH. pose proof (S3 _ _ EH) as E3.
        destruct (KF x hn) as [E|[(X & _)|(o' & hm' & EO' & EH' & E)]]; [congruence| |].
        -- subst hn. destruct (hook_name _ _ _ _ EH) as [X|X]; discriminate X.
        -- destruct S1 as [SS _]. destruct (shape_back _ _ _ _ SS EO') as (oo & EOo & ECo). rewrite HO in EOo. injection EOo as <-. rewrite <- ECo in EH. rewrite EH in EH'. injection EH' as <-. exact E.
    + unfold ret in H1. injection H1 as <-. destruct (IH h u h' HF) as (K1 & K2 & K3); [intros k v HI; apply HL; right; exact HI|intros k v HI; apply HK with (w := v); right; exact HI|exact H2|].
      split; [exact K1|]. split; [exact K2|]. intros k v [E|HI] HKk y n HLy; [injection E as <- <-; congruence|exact (K3 k v HI HKk y n HLy)].
Qed.
Lemma matching_key_last key : last key ""%string = "matching_type"%string -> key <> [] -> matching_key key = true.
Proof.
  intros HL HN. unfold matching_key. apply existsb_exists. exists "matching_type"%string. split; [|apply contains_refl]. rewrite <- HL. destruct (exists_last HN) as (l & a & ->). rewrite last_last. apply in_or_app. right. left. reflexivity.
Qed.
Lemma matching_type_reaches f rd mt h u h' : init_matching_type classes builtins f rd mt h = (Ok u, h') ->
  (forall key w, parameter h rd key w -> matching_key key = true -> last key ""%string = "matching_type"%string /\ matching_key (removelast key) = false) ->
  hooked (class_of h mt) h h' mt /\
  forall key w, parameter h' rd key w -> last key ""%string = "matching_type"%string -> matching_key (removelast key) = false ->
    w = mt /\ exists x o, loc h' rd key x "matching_type"%string /\ nth_error h' x = Some o /\
      forall hn hm, hook (ckind (classes (cls o))) (class_of h' mt) = Some (hn, hm) -> stored h' x hn = Some (Prim (AMember hm)).
Proof.
  intros HE HK. unfold init_matching_type in HE. unfold bind at 1, get in HE. unfold bind at 1, lift in HE. destruct (get_params f h rd) as [ps|e] eqn:EP; [|discriminate].
  assert (HK' : forall key w, In (key, w) ps -> matching_key key = true -> last key ""%string = "matching_type"%string /\ matching_key (removelast key) = false).
  { intros key w HI. destruct (get_params_loc _ _ _ _ _ _ EP _ _ HI) as (x & m & HL & HG). exact (HK _ _ (loc_parameter _ _ _ _ _ _ _ _ HL HG)). }
  destruct (type_loop mt rd h _ eq_refl ps h u h' (hooked_refl _ _ _) (fun key w HI => get_params_loc _ _ _ _ _ _ EP key w HI) HK' HE) as (HF & _ & HA).
  split; [exact HF|].
  - intros key w HPr HLast HPre. destruct (parameter_loc _ _ _ _ _ _ HPr) as (x & m & HL & HG). pose proof (loc_last _ _ _ _ _ _ _ HL) as EM. rewrite HLast in EM. subst m.
    assert (HL0 : loc h rd key x "matching_type"%string) by (apply (hooked_loc _ h h' mt _ _ _ _ HF HPre); exact HL).
    assert (HKey : matching_key key = true) by (apply matching_key_last; [exact HLast|exact (loc_nonempty _ _ _ _ _ _ _ HL)]).
    (* the key was among the parameters before *)
    assert (HG0 : exists w0, getattr h (Ref x) "matching_type" = Ok w0).
    { destruct (loc_names _ _ _ _ _ _ _ HL0) as (ns & HPn & HIn). clear - EP HL0. revert ps EP. generalize f as g. induction HL0 as [x ns n HP HI|v ns n w ms k x m HP HI HA HW HL IH]; intros g ps EP.
      - destruct g as [|g]; [discriminate|]. cbn [M_Objects.get_params] in EP. rewrite HP in EP. cbn [of_option rbind] in EP.
        match type of EP with context [rmap ?ff ns] => destruct (rmap ff ns) as [parts|e] eqn:ER end; [|discriminate]. clear EP HP. apply rmap_inv in ER. induction ER as [|a b ns' ps' E ER IHR]; [destruct HI|].
        destruct HI as [->|HI]; [|exact (IHR HI)]. destruct (getattr h (Ref x) n) as [w0|e]; [exists w0; reflexivity|discriminate].
      - destruct g as [|g]; [discriminate|]. cbn [M_Objects.get_params] in EP. rewrite HP in EP. cbn [of_option rbind] in EP.
        match type of EP with context [rmap ?ff ns] => destruct (rmap ff ns) as [parts|e] eqn:ER end; [|discriminate]. clear EP HP. apply rmap_inv in ER. induction ER as [|a b ns' ps' E ER IHR]; [destruct HI|].
        destruct HI as [->|HI]; [|exact (IHR HI)]. rewrite HA in E. cbn [rbind] in E. rewrite HW in E. destruct (get_params g h w) as [deep|e] eqn:ED; [|discriminate]. exact (IH g deep ED). }
    destruct HG0 as (w0 & HG0). pose proof (loc_get_params _ _ _ _ _ _ EP _ _ _ _ HL0 HG0) as HI0. destruct (HA key w0 HI0 HKey x _ HL0) as [HS HH]. split.
    + rewrite getattr_stored, HS in HG. destruct (nth_error h' x); [|discriminate]. injection HG as <-. reflexivity.
    + destruct (loc_exists _ _ _ _ _ _ _ HL) as (o & HO). exists x, o. split; [exact HL|]. split; [exact HO|]. intros hn hm EH. rewrite (shape_class _ _ _ (proj1 HF)) in EH.
      destruct (shape_back _ _ _ _ (proj1 HF) HO) as (o0 & HO0 & HCo). rewrite HCo in EH. exact (HH o0 hn hm HO0 EH).
Qed.
End World.
