(* The preparation of the components as a whole. *)
From Coq Require Import String Lia.
From Verif Require Import PyNum PyList PyMon L_List M_Objects S_Objects L_Objects L_Clone L_Params L_Representation.

Section World.
Variable classes : string -> classinfo.
Variable builtins : atom -> list string.
Notation getattr := (getattr classes builtins). Notation setattr := (setattr classes builtins). Notation configured := (configured classes builtins). Notation parameter := (parameter classes builtins).
Notation param_names := (param_names classes). Notation get_params := (get_params classes builtins). Notation set_params := (set_params classes builtins). Notation loc := (loc classes builtins).
Notation clone_value := (clone_value classes builtins). Notation clone := (clone classes builtins). Notation chosen := (chosen classes builtins).

(* ----- keys in clones ----- *)
Definition closed (h : heap) (v : val) : Prop := valid h v /\ forall key x m w, loc h v key x m -> getattr h (Ref x) m = Ok w -> valid h w.
Lemma valid_ext h h' v : ext h h' -> valid h v -> valid h' v.
Proof. intros [HL _]. destruct v; cbn; [auto|lia]. Qed.
Lemma names_back h1 h2 v : ext h1 h2 -> valid h1 v -> param_names h2 v = param_names h1 v.
Proof. intros [_ HS] HV. destruct v as [a|p]; cbn in *; [reflexivity|]. rewrite HS by exact HV. reflexivity. Qed.
Lemma getattr_back h1 h2 v n : ext h1 h2 -> valid h1 v -> getattr h2 v n = getattr h1 v n.
Proof. intros [_ HS] HV. destruct v as [a|p]; cbn in HV |- *; [reflexivity|]. unfold lookup. rewrite HS by exact HV. reflexivity. Qed.
Lemma loc_here_any h v ns n w : param_names h v = Some ns -> In n ns -> getattr h v n = Ok w -> exists x, v = Ref x /\ loc h v [n] x n.
Proof. intros HP HI HG. destruct v as [a|x]; [discriminate HP|]. exists x. split; [reflexivity|]. exact (Loc_here _ _ _ _ _ _ HP HI). Qed.
Lemma closed_step h v ns n w ms : closed h v -> param_names h v = Some ns -> In n ns -> getattr h v n = Ok w -> param_names h w = Some ms -> closed h w.
Proof.
  intros [HV HC] HP HI HG HW. split.
  - destruct (loc_here_any _ _ _ _ _ HP HI HG) as (x & -> & HL). exact (HC _ _ _ _ HL HG).
  - intros key x m u HL HA. exact (HC (n :: key) x m u (Loc_deep _ _ _ _ _ _ _ _ _ _ _ HP HI HG HW HL) HA).
Qed.
Lemma loc_ext_back h1 h2 v key x m : ext h1 h2 -> loc h2 v key x m -> closed h1 v -> loc h1 v key x m.
Proof.
  intros HE HL. induction HL as [x ns n HP HI|v ns n w ms key x m HP HI HG HW HL IH]; intros HC.
  - eapply Loc_here; [rewrite <- (names_back _ _ _ HE (proj1 HC)); exact HP|exact HI].
  - rewrite (names_back _ _ _ HE (proj1 HC)) in HP. rewrite (getattr_back _ _ _ _ HE (proj1 HC)) in HG.
    assert (HVw : valid h1 w) by (destruct (loc_here_any _ _ _ _ _ HP HI HG) as (y & -> & HL'); exact (proj2 HC _ _ _ _ HL' HG)).
    rewrite (names_back _ _ _ HE HVw) in HW. eapply Loc_deep; [exact HP|exact HI|exact HG|exact HW|]. apply IH. exact (closed_step _ _ _ _ _ _ HC HP HI HG HW).
Qed.
Lemma loc_valid h v key x m : loc h v key x m -> (x < length h)%nat.
Proof. intros HL. destruct (loc_exists _ _ _ _ _ _ _ HL) as (o & E). apply nth_error_Some. congruence. Qed.
Lemma closed_ext h1 h2 v : ext h1 h2 -> closed h1 v -> closed h2 v.
Proof.
  intros HE HC. split; [exact (valid_ext _ _ _ HE (proj1 HC))|]. intros key x m w HL HG. pose proof (loc_ext_back _ _ _ _ _ _ HE HL HC) as HL1.
  rewrite (getattr_back _ _ _ _ HE) in HG by (cbn; exact (loc_valid _ _ _ _ _ HL1)). exact (valid_ext _ _ _ HE (proj2 HC _ _ _ _ HL1 HG)).
Qed.
Lemma parameter_ext h1 h2 v key u : ext h1 h2 -> parameter h1 v key u -> parameter h2 v key u.
Proof. intros HE HP. destruct (parameter_loc _ _ _ _ _ _ HP) as (x & m & HL & HG). exact (loc_parameter _ _ _ _ _ _ _ _ (loc_ext _ _ _ _ _ _ _ _ HE HL) (getattr_ext _ _ _ _ _ _ _ HE HG)). Qed.
(* h0: the configuration; w: a part of it; w': its copy in h1 *)
Definition mirror (h0 : heap) (w : val) (h1 : heap) (w' : val) : Prop :=
  closed h1 w' /\ (forall key x m, loc h1 w' key x m -> exists u, parameter h0 w key u) /\ (forall key a, parameter h0 w key (Prim a) -> parameter h1 w' key (Prim a)) /\ (forall a, w = Prim a -> w' = Prim a).
Lemma mirror_ext h0 w h1 w' h2 : ext h1 h2 -> mirror h0 w h1 w' -> mirror h0 w h2 w'.
Proof.
  intros HE (HC & HB & HF & HA). split; [exact (closed_ext _ _ _ HE HC)|]. split; [intros key x m HL; exact (HB key x m (loc_ext_back _ _ _ _ _ _ HE HL HC))|]. split; [|exact HA].
  intros key a HP. exact (parameter_ext _ _ _ _ _ HE (HF key a HP)).
Qed.
Lemma mirror_nothing h0 w h1 w' : valid h1 w' -> param_names h0 w = None -> param_names h1 w' = None -> (forall a, w = Prim a -> w' = Prim a) -> mirror h0 w h1 w'.
Proof.
  intros HV H0 H1 HA. assert (HN : forall key x m, loc h1 w' key x m -> False) by (intros key x m HL; destruct HL; congruence).
  split; [split; [exact HV|intros key x m u HL; destruct (HN _ _ _ HL)]|]. split; [intros key x m HL; destruct (HN _ _ _ HL)|]. split; [|exact HA]. intros key a HP. destruct (parameter_names _ _ _ _ _ _ HP). congruence.
Qed.
Lemma deepcopy_class f v h v' h' : deepcopy f v h = (Ok v', h') -> valid h' v' /\ param_names h' v' = param_names h v /\ forall a, v = Prim a -> v' = Prim a.
Proof.
  destruct f as [|f]; cbn [deepcopy]; [discriminate|]. destruct v as [a|p]; [intros H; injection H as <- <-; split; [exact I|]; split; [reflexivity|auto]|]. intros HE.
  unfold bind at 1, get in HE. unfold bind at 1, lift, lookup in HE. destruct (nth_error h p) as [o|] eqn:EN; cbn [of_option] in HE; [|discriminate].
  apply bind_inv in HE as (fs & h1 & EM & HE). unfold alloc in HE. injection HE as <- <-. split; [cbn; rewrite app_length; cbn; lia|]. split; [|discriminate].
  cbn. rewrite nth_error_app2 by lia. rewrite Nat.sub_diag, EN. reflexivity.
Qed.
Section Clones.
Variable h0 : heap.
Hypothesis HS0 : sound h0.
Lemma getattr_valid v n w : valid h0 v -> getattr h0 v n = Ok w -> valid h0 w.
Proof.
  intros HV HG. destruct v as [a|p]; cbn [M_Objects.getattr] in HG.
  - destruct (existsb _ _); [|discriminate]. injection HG as <-. exact I.
  - unfold lookup in HG. destruct (nth_error h0 p) as [o|] eqn:EN; cbn in HG; [|discriminate]. destruct (field (fields o) n) as [w0|] eqn:EF.
    + injection HG as <-. destruct w0 as [a|q]; [exact I|]. exact (HS0 _ _ _ _ EN EF).
    + destruct (existsb _ _); [|discriminate]. injection HG as <-. exact I.
Qed.
Lemma mirrored_params f v : (forall w h w' h', ext h0 h -> valid h0 w -> clone_value f w h = (Ok w', h') -> mirror h0 w h' w') -> valid h0 v -> forall ns h ps h', ext h0 h ->
  mmap (fun n => let* h := get in let* w := lift (getattr h v n) in let* w' := clone_value f w in ret (n, w')) ns h = (Ok ps, h') ->
  ext h h' /\ forall n, In n ns -> exists w w', getattr h0 v n = Ok w /\ In (n, w') ps /\ mirror h0 w h' w'.
Proof.
  intros HD HV. induction ns as [|m ns IH]; intros h ps h' HE HM.
  - cbn in HM. injection HM as <- <-. split; [apply ext_refl|]. intros n [].
  - apply mmap_cons_inv in HM as (b & h1 & ps' & H1 & H2 & ->). unfold bind, ret, get, lift in H1. destruct (getattr h v m) as [w|e] eqn:EG; [|discriminate].
    rewrite (getattr_back _ _ _ _ HE HV) in EG. destruct (clone_value f w h) as [[w'|e] h2] eqn:EC; [|discriminate]. injection H1 as <- <-.
    assert (HX : ext h h2) by (pose proof (clone_value_ext classes builtins f w h) as HX; rewrite EC in HX; exact HX).
    destruct (IH h2 ps' h' (ext_trans _ _ _ HE HX) H2) as [HX2 HF]. split; [exact (ext_trans _ _ _ HX HX2)|]. intros n [<-|HI].
    + exists w, w'. split; [exact EG|]. split; [left; reflexivity|]. exact (mirror_ext _ _ _ _ _ HX2 (HD _ _ _ _ HE (getattr_valid _ _ _ HV EG) EC)).
    + destruct (HF n HI) as (x & x' & Hx & Hx' & HC). exists x, x'. split; [exact Hx|]. split; [right; exact Hx'|exact HC].
Qed.
Lemma clone_value_mirror : forall f v h v' h', ext h0 h -> valid h0 v -> clone_value f v h = (Ok v', h') -> mirror h0 v h' v'.
Proof.
  induction f as [|f IH]; intros v h v' h' HE0 HV HE; cbn [M_Objects.clone_value] in HE; [discriminate|]. unfold bind at 1, get in HE.
  assert (HD : param_names h0 v = None -> deepcopy (S f) v h = (Ok v', h') -> mirror h0 v h' v').
  { intros HN HDc. destruct (deepcopy_class _ _ _ _ _ HDc) as (H1 & H2 & H3). apply mirror_nothing; [exact H1|exact HN|rewrite H2, (names_back _ _ _ HE0 HV); exact HN|exact H3]. }
  destruct v as [a|p]; [apply HD; [reflexivity|exact HE]|]. rewrite (names_back _ _ _ HE0 HV) in HE. destruct (param_names h0 (Ref p)) as [ns|] eqn:EP; [|apply HD; [reflexivity|exact HE]].
  unfold bind at 1, lift, lookup in HE. destruct (nth_error h p) as [o|] eqn:EN; cbn [of_option] in HE; [|discriminate].
  assert (EN0 : nth_error h0 p = Some o) by (destruct HE0 as [_ HE0]; rewrite <- HE0 by exact HV; exact EN).
  assert (ENS : names (classes (cls o)) = Some ns) by (cbn in EP; rewrite EN0 in EP; exact EP).
  apply bind_inv in HE as (ps & h1 & EM & HE). destruct (mirrored_params f (Ref p) IH HV _ _ _ _ HE0 EM) as [HX HF].
  apply bind_inv in HE as (new & h2 & EC & HE). destruct (construct_keeps _ _ _ _ _ _ _ EC) as (-> & (o2 & EO2 & EC2) & HX2).
  apply bind_inv in HE as (u & h3 & EI & HE). destruct (checked_params _ _ _ _ _ _ _ EI) as [-> HC]. unfold ret in HE. injection HE as <- <-.
  assert (HPn : param_names h2 (Ref (length h1)) = Some ns) by (cbn; rewrite EO2, EC2; exact ENS).
  assert (HM : forall n, In n ns -> exists w w', getattr h0 (Ref p) n = Ok w /\ getattr h2 (Ref (length h1)) n = Ok w' /\ mirror h0 w h2 w').
  { intros n HI. destruct (HF n HI) as (w & w' & H1 & H2 & H3). exists w, w'. split; [exact H1|]. split; [exact (HC _ _ H2)|exact (mirror_ext _ _ _ _ _ HX2 H3)]. }
  split; [split|split; [|split]].
  - cbn. apply nth_error_Some. congruence.
  - intros key x m w HL HG. inversion HL as [x0 ns0 n HP HI E1 E2|v0 ns0 n w0 ms key0 x0 m0 HP HI HG0 HW HL0 E1 E2]; subst.
    + rewrite HPn in HP. injection HP as <-. destruct (HM m HI) as (w1 & w' & _ & HG' & HMi). rewrite HG in HG'. injection HG' as <-. exact (proj1 (proj1 HMi)).
    + rewrite HPn in HP. injection HP as <-. destruct (HM n HI) as (w1 & w' & _ & HG' & HMi). rewrite HG0 in HG'. injection HG' as <-. exact (proj2 (proj1 HMi) _ _ _ _ HL0 HG).
  - intros key x m HL. inversion HL as [x0 ns0 n HP HI E1 E2|v0 ns0 n w0 ms key0 x0 m0 HP HI HG0 HW HL0 E1 E2]; subst.
    + rewrite HPn in HP. injection HP as <-. destruct (HM m HI) as (w1 & w' & HA & _ & _). exists w1. exact (Param_here _ _ _ _ _ _ _ EP HI HA).
    + rewrite HPn in HP. injection HP as <-. destruct (HM n HI) as (w1 & w' & HA & HG' & HMi). rewrite HG0 in HG'. injection HG' as <-. destruct HMi as (_ & HB & _). destruct (HB _ _ _ HL0) as (u1 & HU).
      exists u1. exact (Param_deep _ _ _ _ _ _ _ _ _ EP HI HA HU).
  - intros key a HP. inversion HP as [v0 ns0 n w HP0 HI HG E1 E2|v0 ns0 n w key0 u0 HP0 HI HG HPr E1 E2]; subst.
    + rewrite EP in HP0. injection HP0 as <-. destruct (HM n HI) as (w1 & w' & HA & HG' & HMi). rewrite HG in HA. injection HA as <-. destruct HMi as (_ & _ & _ & HPm). rewrite (HPm a eq_refl) in HG'.
      exact (Param_here _ _ _ _ _ _ _ HPn HI HG').
    + rewrite EP in HP0. injection HP0 as <-. destruct (HM n HI) as (w1 & w' & HA & HG' & HMi). rewrite HG in HA. injection HA as <-. destruct HMi as (_ & _ & HFw & _).
      exact (Param_deep _ _ _ _ _ _ _ _ _ HPn HI HG' (HFw _ _ HPr)).
  - discriminate.
Qed.
Lemma clone_mirror f v v' h' : clone f v h0 = (Ok v', h') -> mirror h0 v h' v'.
Proof.
  unfold M_Objects.clone, bind, get. destruct (param_names h0 v) eqn:EP; [|discriminate]. apply clone_value_mirror; [apply ext_refl|]. destruct v as [a|p]; [exact I|]. cbn in EP |- *.
  destruct (nth_error h0 p) eqn:E; [|discriminate]. apply nth_error_Some. congruence.
Qed.
End Clones.

(* ----- what later steps leave as it is ----- *)
Definition kept (h h' : heap) : Prop := forall p o, nth_error h p = Some o -> exists o', nth_error h' p = Some o' /\ cls o' = cls o /\
  forall m, ~ In m assigned -> stored h' p m = stored h p m \/ (stored h p m = Some (Prim ANone) /\ ends_with "bounds" m = true).
Lemma kept_refl h : kept h h. Proof. intros p o E. exists o. split; [exact E|]. split; [reflexivity|]. left. reflexivity. Qed.
Lemma kept_trans h1 h2 h3 : kept h1 h2 -> kept h2 h3 -> kept h1 h3.
Proof.
  intros H1 H2 p o E. destruct (H1 p o E) as (o1 & E1 & C1 & F1). destruct (H2 p o1 E1) as (o2 & E2 & C2 & F2). exists o2. split; [exact E2|]. split; [congruence|]. intros m HM.
  destruct (F1 m HM) as [G1|G1]; [|right; exact G1]. destruct (F2 m HM) as [G2|[G2 G3]]; [left; congruence|right]. split; [congruence|exact G3].
Qed.
Lemma kept_ext h h' : ext h h' -> kept h h'.
Proof. intros HE p o E. exists o. pose proof (ext_nth _ _ _ _ HE E) as E'. split; [exact E'|]. split; [reflexivity|]. intros m _. left. unfold stored. rewrite E, E'. reflexivity. Qed.
Lemma kept_write h x n v : In n assigned -> kept h (write h x n v).
Proof.
  intros HI p o E. destruct (shape_write h x n v) as [_ HS]. destruct (HS p o E) as (o' & E' & C'). exists o'. split; [exact E'|]. split; [exact C'|]. intros m HM. left. rewrite write_stored.
  destruct (Nat.eqb x p && String.eqb n m) eqn:EE; [|reflexivity]. apply andb_prop in EE as [_ EE]. apply String.eqb_eq in EE. subst m. contradiction.
Qed.
Lemma kept_hooked c h h' mt : hooked classes c h h' mt -> kept h h'.
Proof.
  intros [[_ HS] HF] p o E. destruct (HS p o E) as (o' & E' & C'). exists o'. split; [exact E'|]. split; [exact C'|]. intros m HM. left.
  destruct (HF p m) as [G|[(G & _)|(o1 & hm & _ & EH & _)]]; [exact G| |]; exfalso; apply HM.
  - subst m. cbn. auto 10.
  - destruct (hook_name _ _ _ _ EH) as [-> | ->]; cbn; auto 10.
Qed.
Lemma kept_filled b h h' : filled b h h' -> kept h h'.
Proof. intros [[_ HS] HF] p o E. destruct (HS p o E) as (o' & E' & C'). exists o'. split; [exact E'|]. split; [exact C'|]. intros m _. destruct (HF p m) as [G|(G1 & G2 & _)]; auto. Qed.
Lemma configured_kept h h' v path a : kept h h' -> configured h v path (Prim a) -> (forall n, In n path -> ~ In n assigned) -> (a = ANone -> ends_with "bounds" (last path ""%string) = false) -> configured h' v path (Prim a).
Proof.
  intros HK HC. remember (Prim a) as u eqn:EU. revert a EU. induction HC as [v|v ns n w path u HP HI HG HC IH|p o n w path u HN HO HF HC IH]; intros a EU HA HB; [constructor| |].
  - destruct v as [b|p]; [discriminate HP|]. cbn in HP. destruct (nth_error h p) as [o|] eqn:EN; [|discriminate]. destruct (HK p o EN) as (o' & EN' & EC & HFd).
    assert (HS : stored h' p n = stored h p n).
    { destruct (HFd n (HA n (or_introl eq_refl))) as [G|[G1 G2]]; [exact G|]. exfalso. rewrite getattr_stored, EN, G1 in HG. injection HG as <-.
      inversion HC as [v0 E1 E2 E3|v0 ns0 n0 w0 path0 u0 HP0 _ _ _ E1 E2 E3|]; subst; [|discriminate HP0]. injection E3 as <-. specialize (HB eq_refl). cbn [last] in HB. congruence. }
    eapply Configured_param; [cbn; rewrite EN', EC; exact HP|exact HI| |].
    + rewrite getattr_stored, EN', HS, EC. rewrite getattr_stored, EN in HG. exact HG.
    + apply (IH a EU); [intros m HM; apply HA; right; exact HM|]. intros E. specialize (HB E). destruct path as [|k path]; [reflexivity|exact HB].
  - destruct (HK p o HN) as (o' & EN' & EC & HFd). assert (HS0 : stored h p n = Some w) by (unfold stored; rewrite HN; exact HF).
    assert (HS : stored h' p n = stored h p n).
    { destruct (HFd n (HA n (or_introl eq_refl))) as [G|[G1 G2]]; [exact G|]. exfalso. rewrite HS0 in G1. injection G1 as ->.
      inversion HC as [v0 E1 E2 E3|v0 ns0 n0 w0 path0 u0 HP0 _ _ _ E1 E2 E3|]; subst; [|discriminate HP0]. injection E3 as <-. specialize (HB eq_refl). cbn [last] in HB. congruence. }
    eapply Configured_field; [exact EN'|rewrite EC; exact HO|unfold stored in HS; rewrite EN', HN in HS; rewrite HS; exact HF|].
    apply (IH a EU); [intros m HM; apply HA; right; exact HM|]. intros E. specialize (HB E). destruct path as [|k path]; [reflexivity|exact HB].
Qed.
Lemma class_kept h h' v : valid h v -> kept h h' -> class_of h' v = class_of h v.
Proof.
  intros HV HK. destruct v as [a|p]; cbn in *; [reflexivity|]. destruct (nth_error h p) as [o|] eqn:E; [|apply nth_error_None in E; lia]. destruct (HK p o E) as (o' & -> & EC & _). exact EC.
Qed.
Lemma valid_kept h h' v : kept h h' -> valid h v -> valid h' v.
Proof. intros HK. destruct v as [a|p]; cbn; [auto|]. intros HP. destruct (nth_error h p) as [o|] eqn:E; [|apply nth_error_None in E; lia]. destruct (HK p o E) as (o' & E' & _). apply nth_error_Some. congruence. Qed.
End World.
