(* Clones carry the same configuration. *)
From Coq Require Import String Lia.
From Verif Require Import PyNum PyList PyMon L_List M_Objects S_Objects L_Objects.

Lemma q_eqb_eq x y : q_eqb x y = true -> x = y.
Proof. destruct x as [a b], y as [c d]. unfold q_eqb. cbn. intros H. apply andb_prop in H as [H1 H2]. apply Z.eqb_eq in H1. apply Pos.eqb_eq in H2. congruence. Qed.
Lemma list_eqb_eq {A} (f : A -> A -> bool) : (forall x y, f x y = true -> x = y) -> forall a b, list_eqb f a b = true -> a = b.
Proof.
  intros HF. induction a as [|x a IH]; intros [|y b]; cbn; try discriminate; [reflexivity|]. intros H. apply andb_prop in H as [H1 H2]. rewrite (HF _ _ H1), (IH _ H2). reflexivity.
Qed.
Lemma atom_eqb_eq a b : atom_eqb a b = true -> a = b.
Proof.
  destruct a as [|x|x|x|x|x|x], b as [|y|y|y|y|y|y]; cbn; try discriminate; try (destruct x; discriminate); intros H.
  - reflexivity.
  - apply Bool.eqb_prop in H. congruence.
  - apply Z.eqb_eq in H. congruence.
  - destruct x as [q| | |], y as [q'| | |]; try discriminate; try reflexivity. rewrite (q_eqb_eq _ _ H). reflexivity.
  - apply String.eqb_eq in H. congruence.
  - apply String.eqb_eq in H. congruence.
  - rewrite (list_eqb_eq _ (list_eqb_eq _ q_eqb_eq) _ _ H). reflexivity.
Qed.
Lemma same_object_eq v w : same_object v w = true -> v = w.
Proof. destruct v as [a|p], w as [b|q]; cbn; try discriminate; intros H; [rewrite (atom_eqb_eq _ _ H)|apply Nat.eqb_eq in H; rewrite H]; reflexivity. Qed.

Definition ext (h h' : heap) : Prop := (length h <= length h')%nat /\ same_below (length h) h h'.
Lemma ext_refl h : ext h h. Proof. split; [lia|intros p _; reflexivity]. Qed.
Lemma ext_trans h1 h2 h3 : ext h1 h2 -> ext h2 h3 -> ext h1 h3.
Proof. intros [L1 S1] [L2 S2]. split; [lia|]. intros p Hp. rewrite S2, S1 by lia. reflexivity. Qed.
Lemma okh_all h : okh (length h) h.
Proof. split; [lia|]. intros p o Hp E. assert ((p < length h)%nat) by (apply nth_error_Some; congruence). lia. Qed.
Lemma safe_ext {A} (P : nat -> A -> Prop) (m : St heap A) h : (forall N, safe N (P N) m) -> ext h (snd (m h)).
Proof. intros HS. destruct (HS (length h) h (okh_all h)) as ([HL _] & HB & _). split; assumption. Qed.
Lemma ext_nth h h' p o : ext h h' -> nth_error h p = Some o -> nth_error h' p = Some o.
Proof. intros [_ HS] E. rewrite HS; [exact E|]. apply nth_error_Some. congruence. Qed.

Lemma bind_inv {S A B} (m : St S A) (k : A -> St S B) s b s2 : bind m k s = (Ok b, s2) -> exists a s1, m s = (Ok a, s1) /\ k a s1 = (Ok b, s2).
Proof. unfold bind. destruct (m s) as [[a|e] s1]; [|discriminate]. intros H. eauto. Qed.

Section World.
Variable classes : string -> classinfo.
Variable builtins : atom -> list string.
Notation getattr := (getattr classes builtins). Notation setattr := (setattr classes builtins). Notation configured := (configured classes builtins).
Notation clone_value := (clone_value classes builtins).

Lemma getattr_ext h h' v n w : ext h h' -> getattr h v n = Ok w -> getattr h' v n = Ok w.
Proof.
  intros HE. destruct v as [a|p]; cbn [M_Objects.getattr]; [exact (fun H => H)|]. unfold lookup. destruct (nth_error h p) as [o|] eqn:E; [|discriminate].
  rewrite (ext_nth _ _ _ _ HE E). exact (fun H => H).
Qed.
Lemma param_names_ext h h' v ns : ext h h' -> param_names classes h v = Some ns -> param_names classes h' v = Some ns.
Proof. intros HE. destruct v as [a|p]; cbn; [discriminate|]. destruct (nth_error h p) as [o|] eqn:E; [|discriminate]. rewrite (ext_nth _ _ _ _ HE E). exact (fun H => H). Qed.
Lemma configured_ext h h' v path u : ext h h' -> configured h v path u -> configured h' v path u.
Proof.
  intros HE HC. induction HC as [v|v ns n w path u HP HI HG HC IH|p o n w path u HN HO HF HC IH].
  - constructor.
  - exact (Configured_param _ _ _ _ _ _ _ _ _ (param_names_ext _ _ _ _ HE HP) HI (getattr_ext _ _ _ _ _ HE HG) IH).
  - exact (Configured_field _ _ _ _ _ _ _ _ _ (ext_nth _ _ _ _ HE HN) HO HF IH).
Qed.
Definition copies (h : heap) (w : val) (h' : heap) (w' : val) : Prop := forall path a, configured h w path (Prim a) -> configured h' w' path (Prim a).
Lemma copies_ext h0 h w h1 w' h2 : ext h0 h -> copies h w h1 w' -> ext h1 h2 -> copies h0 w h2 w'.
Proof. intros HE HC HE2 path a H. exact (configured_ext _ _ _ _ _ HE2 (HC path a (configured_ext _ _ _ _ _ HE H))). Qed.
Lemma deepcopy_ext f v h : ext h (snd (deepcopy f v h)).
Proof. apply (safe_ext fresh). intros N. apply safe_deepcopy. Qed.
Lemma clone_value_ext f v h : ext h (snd (clone_value f v h)).
Proof. apply (safe_ext fresh). intros N. apply safe_clone_value. Qed.

Lemma mmap_cons_inv {S A B} (f : A -> St S B) a l s bs s' : mmap f (a :: l) s = (Ok bs, s') ->
  exists b s1 bs', f a s = (Ok b, s1) /\ mmap f l s1 = (Ok bs', s') /\ bs = b :: bs'.
Proof.
  cbn [mmap]. unfold bind, ret. destruct (f a s) as [[b|e] s1]; [|discriminate]. destruct (mmap f l s1) as [[bs'|e] s2] eqn:E; [|discriminate]. intros H. injection H as <- <-.
  exists b, s1, bs'. auto.
Qed.
Lemma deepcopy_fields f h0 : (forall v h v' h', deepcopy f v h = (Ok v', h') -> copies h v h' v') -> forall fds h fs h', ext h0 h ->
  mmap (fun nv => let* w := deepcopy f (snd nv) in ret (fst nv, w)) fds h = (Ok fs, h') ->
  ext h h' /\ forall n, match field fds n with Some w => exists w', field fs n = Some w' /\ copies h0 w h' w' | None => field fs n = None end.
Proof.
  intros HD. induction fds as [|[m w] fds IH]; intros h fs h' HE HM.
  - cbn in HM. injection HM as <- <-. split; [apply ext_refl|]. intros n. reflexivity.
  - apply mmap_cons_inv in HM as (b & h1 & fs' & H1 & H2 & ->). unfold bind, ret in H1. cbn [fst snd] in H1. destruct (deepcopy f w h) as [[w'|e] h2] eqn:ED; [|discriminate]. injection H1 as <- <-.
    assert (HX : ext h h2) by (pose proof (deepcopy_ext f w h) as HX; rewrite ED in HX; exact HX).
    destruct (IH h2 fs' h' (ext_trans _ _ _ HE HX) H2) as [HX2 HF]. split; [exact (ext_trans _ _ _ HX HX2)|]. intros n. cbn [field]. destruct (String.eqb m n); [|apply HF].
    exists w'. split; [reflexivity|]. exact (copies_ext _ _ _ _ _ _ HE (HD _ _ _ _ ED) HX2).
Qed.
Lemma copies_prim h a h' : copies h (Prim a) h' (Prim a).
Proof.
  intros path b HC. inversion HC as [v0 E1 E2 E3|v0 ns n w path0 u HP HI HG HC' E1 E2 E3|]; subst; [constructor|]. cbn in HP. discriminate.
Qed.
Lemma deepcopy_copies : forall f v h v' h', deepcopy f v h = (Ok v', h') -> copies h v h' v'.
Proof.
  induction f as [|f IH]; intros v h v' h' HE; cbn [deepcopy] in HE; [discriminate|]. destruct v as [a|p]; [injection HE as <- <-; apply copies_prim|].
  unfold bind at 1, get in HE. unfold bind at 1, lift, lookup in HE. destruct (nth_error h p) as [o|] eqn:EN; cbn [of_option] in HE; [|discriminate].
  unfold bind at 1 in HE. match type of HE with context [mmap ?g ?l h] => destruct (mmap g l h) as [[fs|e] h1] eqn:EM end; [|discriminate].
  destruct (deepcopy_fields f h IH _ _ _ _ (ext_refl h) EM) as [HX HF]. unfold alloc in HE. injection HE as <- <-.
  assert (HX2 : ext h1 (h1 ++ [mkObject (cls o) fs])) by (split; [rewrite app_length; lia|intros q Hq; apply nth_error_app1; exact Hq]).
  assert (HN : nth_error (h1 ++ [mkObject (cls o) fs]) (length h1) = Some (mkObject (cls o) fs)) by (rewrite nth_error_app2 by lia; rewrite Nat.sub_diag; reflexivity).
  intros path a HC. inversion HC as [|v0 ns n w path0 u HP HI HG HC' E1 E2 E3|q o' n w path0 u HQ HO HFd HC' E1 E2 E3]; subst.
  - cbn in HP. rewrite EN in HP. cbn [M_Objects.getattr] in HG. unfold lookup in HG. rewrite EN in HG. cbn in HG. specialize (HF n).
    destruct (field (fields o) n) as [w0|] eqn:EF.
    + injection HG as <-. destruct HF as (w' & HFn & HCp). eapply Configured_param; [cbn; rewrite HN; exact HP|exact HI|cbn [M_Objects.getattr]; unfold lookup; rewrite HN; cbn; rewrite HFn; reflexivity|].
      apply (configured_ext _ _ _ _ _ HX2). apply HCp. exact HC'.
    + destruct (existsb _ _) eqn:EB; [|discriminate]. injection HG as <-. eapply Configured_param; [cbn; rewrite HN; exact HP|exact HI|cbn [M_Objects.getattr]; unfold lookup; rewrite HN; cbn; rewrite HF, EB; reflexivity|].
      exact (copies_prim _ _ _ path0 a HC').
  - rewrite EN in HQ. injection HQ as <-. specialize (HF n). rewrite HFd in HF. destruct HF as (w' & HFn & HCp).
    eapply Configured_field; [exact HN|exact HO|exact HFn|]. apply (configured_ext _ _ _ _ _ HX2). apply HCp. exact HC'.
Qed.
Lemma clone_params f v h0 : (forall v h v' h', clone_value f v h = (Ok v', h') -> copies h v h' v') -> forall ns h ps h', ext h0 h ->
  (forall n w, getattr h0 v n = Ok w -> forall h1, ext h0 h1 -> getattr h1 v n = Ok w) -> (exists p o, v = Ref p /\ nth_error h0 p = Some o) ->
  mmap (fun n => let* h := get in let* w := lift (getattr h v n) in let* w' := clone_value f w in ret (n, w')) ns h = (Ok ps, h') ->
  ext h h' /\ forall n, In n ns -> exists w w', getattr h0 v n = Ok w /\ In (n, w') ps /\ copies h0 w h' w'.
Proof.
  intros HD. induction ns as [|m ns IH]; intros h ps h' HE HG HV HM.
  - cbn in HM. injection HM as <- <-. split; [apply ext_refl|]. intros n [].
  - apply mmap_cons_inv in HM as (b & h1 & ps' & H1 & H2 & ->). unfold bind, ret, get, lift in H1. destruct (getattr h v m) as [w|e] eqn:EG; [|discriminate].
    assert (EG0 : getattr h0 v m = Ok w). { destruct HV as (p & o & -> & HO). cbn [M_Objects.getattr] in EG |- *. unfold lookup in EG |- *. rewrite HO. rewrite (ext_nth _ _ _ _ HE HO) in EG. exact EG. }
    destruct (clone_value f w h) as [[w'|e] h2] eqn:EC; [|discriminate]. injection H1 as <- <-.
    assert (HX : ext h h2) by (pose proof (clone_value_ext f w h) as HX; rewrite EC in HX; exact HX).
    destruct (IH h2 ps' h' (ext_trans _ _ _ HE HX) HG HV H2) as [HX2 HF]. split; [exact (ext_trans _ _ _ HX HX2)|]. intros n [<-|HI].
    + exists w, w'. split; [exact EG0|]. split; [left; reflexivity|]. exact (copies_ext _ _ _ _ _ _ HE (HD _ _ _ _ EC) HX2).
    + destruct (HF n HI) as (x & x' & Hx & Hx' & HC). exists x, x'. split; [exact Hx|]. split; [right; exact Hx'|exact HC].
Qed.
Lemma checked_params new : forall ps h u h', miter (fun nw => let* h := get in let* w := lift (getattr h new (fst nw)) in if same_object (snd nw) w then ret tt else raise RuntimeError) ps h = (Ok u, h') ->
  h' = h /\ forall n w, In (n, w) ps -> getattr h new n = Ok w.
Proof.
  induction ps as [|[m x] ps IH]; intros h u h' H; cbn [miter] in H; [injection H as <- <-; split; [reflexivity|intros n w []]|].
  unfold bind, get, lift in H. cbn [fst snd] in H. destruct (getattr h new m) as [y|e] eqn:EG; [|discriminate]. destruct (same_object x y) eqn:ES; [|discriminate]. unfold ret in H at 1.
  apply same_object_eq in ES. subst y. destruct (IH _ _ _ H) as [-> HF]. split; [reflexivity|]. intros n w [E|HI]; [injection E as <- <-; exact EG|exact (HF n w HI)].
Qed.
Lemma construct_keeps c ps h v h' : construct classes builtins c ps h = (Ok v, h') ->
  v = Ref (length h) /\ (exists o, nth_error h' (length h) = Some o /\ cls o = c) /\ ext h h'.
Proof.
  set (q := length h).
  set (kp := fun (h1 h2 : heap) => forall p o, nth_error h1 p = Some o -> exists o', nth_error h2 p = Some o' /\ cls o' = cls o /\ (p <> q -> o' = o)).
  set (keeps := fun (m : St heap unit) => forall h1, kp h1 (snd (m h1))).
  assert (KID : forall h1, kp h1 h1) by (intros h1 p o E; exists o; auto).
  assert (KTR : forall h1 h2 h3, kp h1 h2 -> kp h2 h3 -> kp h1 h3).
  { intros h1 h2 h3 H1 H2 p o E. destruct (H1 p o E) as (o1 & E1 & C1 & S1). destruct (H2 p o1 E1) as (o2 & E2 & C2 & S2). exists o2. split; [exact E2|]. split; [congruence|]. intros HQ. rewrite S2, S1 by exact HQ. reflexivity. }
  assert (KR : forall r, keeps (lift r)) by (intros r h1; apply KID).
  assert (KB : forall A (m : St heap A) k, (forall h1, kp h1 (snd (m h1))) -> (forall a, keeps (k a)) -> keeps (bind m k)).
  { intros A m k HM HK h1. specialize (HM h1). unfold bind. destruct (m h1) as [[a|e] h2]; cbn [snd] in *; [|exact HM]. exact (KTR _ _ _ HM (HK a h2)). }
  assert (KF : forall n w, keeps (setfield q n w)).
  { intros n w h1 p o E. unfold setfield. cbn [snd]. rewrite write_nth. destruct (Nat.eqb q p) eqn:EQ; [|exists o; auto]. apply Nat.eqb_eq in EQ. subst p. rewrite E. cbn. eexists. split; [reflexivity|]. split; [reflexivity|]. congruence. }
  assert (KG : forall k, (forall h1, keeps (k h1)) -> keeps (bind get k)) by (intros k HK h1; unfold bind, get; exact (HK h1 h1)).
  assert (KL : forall A (r : res A) k, (forall a, keeps (k a)) -> keeps (bind (lift r) k)) by (intros A r k HK; apply KB; [intros h1; apply KID|exact HK]).
  assert (KT : keeps (ret tt)) by (intros h1; apply KID).
  assert (KS : forall n w, keeps (setattr (Ref q) n w)).
  { intros n w. cbn [M_Objects.setattr]. apply KG. intros h1. apply KL. intros ob. apply KB; [apply KF|]. intros _.
    destruct (String.eqb n "matching_type"); [|exact KT]. destruct (ckind (classes (cls ob))); [exact KT| |].
    - cbv zeta. assert (HC : forall m, keeps (setfield q "execute" (Prim (AMember m)) ;; let* s := lift (getattr h1 (Ref q) "sigma") in lift (assert_ (two_rows h1 s)))).
      { intros m. apply KB; [apply KF|]. intros _. apply KL. intros s. apply KR. }
      destruct (String.eqb _ _); [apply KF|]. destruct (String.eqb _ _); [apply KF|]. destruct (String.eqb _ _); [apply HC|]. destruct (String.eqb _ _); [apply HC|]. exact KT.
    - cbv zeta. destruct (String.eqb _ _); [apply KF|]. destruct (String.eqb _ _); [apply KF|]. destruct (String.eqb _ _); [apply KF|]. destruct (String.eqb _ _); [apply KF|]. exact KT. }
  assert (KI : forall A (f : A -> St heap unit) l, (forall a, keeps (f a)) -> keeps (miter f l)).
  { intros A f l HF. induction l as [|a l IH]; [exact KT|]. cbn [miter]. apply KB; [intros h1; apply HF|]. intros _. exact IH. }
  assert (KA : forall o h1, kp h1 (snd (alloc o h1))).
  { intros ob h1 p o E. unfold alloc. cbn [snd]. exists o. split; [|auto]. rewrite nth_error_app1; [exact E|]. apply nth_error_Some. congruence. }
  intros HE. unfold M_Objects.construct in HE. cbv zeta in HE. unfold bind at 1, alloc in HE. fold q in HE.
  unfold bind at 1 in HE. match type of HE with context [miter ?g ?l ?h1] => assert (H1 : keeps (miter g l)); [|pose proof (H1 h1) as H1'; destruct (miter g l h1) as [[u|e] h2]; [|discriminate]] end.
  { apply KI. intros n. destruct (field ps n); [apply KS|exact KT]. }
  apply bind_inv in HE as (u2 & h3 & EM & HE). match type of EM with ?m h2 = _ => assert (H2 : keeps m); [|pose proof (H2 h2) as H2'; rewrite EM in H2'] end.
  { apply KI. intros nc. apply KG. intros h5. apply KL. intros w. destruct (is_none w); [|exact KT].
    apply KB; [intros h4; apply KA|intros d; apply KS]. }
  apply bind_inv in HE as (u3 & h4 & EM3 & HE). match type of EM3 with ?m h3 = _ => assert (H3 : keeps m); [|pose proof (H3 h3) as H3'; rewrite EM3 in H3'] end.
  { apply KI. intros dn. apply KG. intros h5. apply KL. intros w. apply KL. intros w'. apply KS. }
  apply bind_inv in HE as (u4 & h6 & EM4 & HE). match type of EM4 with ?m h4 = _ => assert (H4 : keeps m); [|pose proof (H4 h4) as H4'; rewrite EM4 in H4'] end.
  { apply KI. intros d. apply KG. intros h5. apply KR. }
  unfold ret in HE. injection HE as <- <-. cbn [snd] in *. pose proof (KTR _ _ _ (KTR _ _ _ (KTR _ _ _ H1' H2') H3') H4') as HK. split; [reflexivity|]. split.
  - destruct (HK q (mkObject c (map (fun na => (fst na, Prim (snd na))) (presets (classes c))))) as (o & EO & EC & _); [rewrite nth_error_app2 by (unfold q; lia); unfold q; rewrite Nat.sub_diag; reflexivity|].
    exists o. auto.
  - assert (HP : same_below (length h) h h6).
    { intros p Hp. destruct (nth_error h p) as [o|] eqn:E; [|apply nth_error_None in E; lia]. destruct (HK p o) as (o' & EO & _ & ES); [rewrite nth_error_app1 by exact Hp; exact E|]. rewrite EO, ES; [reflexivity|unfold q; lia]. }
    split; [|exact HP]. destruct (HK q (mkObject c (map (fun na => (fst na, Prim (snd na))) (presets (classes c))))) as (o & EO & _); [rewrite nth_error_app2 by (unfold q; lia); unfold q; rewrite Nat.sub_diag; reflexivity|].
    assert ((q < length h6)%nat) by (apply nth_error_Some; congruence). unfold q in *. lia.
Qed.
Lemma clone_value_copies : forall f v h v' h', clone_value f v h = (Ok v', h') -> copies h v h' v'.
Proof.
  induction f as [|f IH]; intros v h v' h' HE; cbn [M_Objects.clone_value] in HE; [discriminate|]. unfold bind at 1, get in HE.
  destruct v as [a|p]; [exact (deepcopy_copies _ _ _ _ _ HE)|]. destruct (param_names classes h (Ref p)) as [ns|] eqn:EP; [|exact (deepcopy_copies _ _ _ _ _ HE)].
  unfold bind at 1, lift, lookup in HE. destruct (nth_error h p) as [o|] eqn:EN; cbn [of_option] in HE; [|discriminate].
  assert (ENS : names (classes (cls o)) = Some ns) by (cbn in EP; rewrite EN in EP; exact EP).
  unfold bind at 1 in HE. match type of HE with context [mmap ?g ?l h] => destruct (mmap g l h) as [[ps|e] h1] eqn:EM end; [|discriminate].
  apply (clone_params f (Ref p) h IH) in EM; [|apply ext_refl|intros n w HG h2 HX; exact (getattr_ext _ _ _ _ _ HX HG)|exists p, o; auto]. destruct EM as [HX HF].
  unfold bind at 1 in HE. destruct (construct classes builtins (cls o) ps h1) as [[new|e] h2] eqn:EC; [|discriminate].
  destruct (construct_keeps _ _ _ _ _ EC) as (-> & (o2 & EO2 & EC2) & HX2).
  unfold bind at 1 in HE. match type of HE with context [miter ?g ?l h2] => destruct (miter g l h2) as [[u|e] h3] eqn:EI end; [|discriminate].
  destruct (checked_params _ _ _ _ _ EI) as [-> HC]. unfold ret in HE. injection HE as <- <-.
  intros path a HG. inversion HG as [|v0 ns0 n w path0 u0 HP HI HA HG' E1 E2 E3|q o' n w path0 u0 HQ HO HFd HG' E1 E2 E3]; subst.
  - rewrite EP in HP. injection HP as <-. destruct (HF n HI) as (w0 & w' & HA' & HIn & HCp). rewrite HA in HA'. injection HA' as <-.
    eapply Configured_param; [cbn; rewrite EO2, EC2; exact ENS|exact HI|exact (HC n w' HIn)|]. apply (configured_ext _ _ _ _ _ HX2). apply HCp. exact HG'.
  - rewrite EN in HQ. injection HQ as <-. congruence.
Qed.
Lemma clone_copies f v h v' h' : clone classes builtins f v h = (Ok v', h') -> copies h v h' v'.
Proof. unfold clone, bind, get. destruct (param_names classes h v); [apply clone_value_copies|discriminate]. Qed.
(* the clone is of the same class *)
Lemma clone_class f v h v' h' : clone classes builtins f v h = (Ok v', h') -> class_of h' v' = class_of h v /\ exists p, v' = Ref p /\ (length h <= p < length h')%nat.
Proof.
  unfold clone, bind at 1, get. destruct (param_names classes h v) as [ns|] eqn:EP; [|discriminate]. destruct f as [|f]; cbn [M_Objects.clone_value]; [discriminate|]. unfold bind at 1, get.
  destruct v as [a|p]; [cbn in EP; discriminate|]. rewrite EP. unfold bind at 1, lift, lookup. destruct (nth_error h p) as [o|] eqn:EN; cbn [of_option]; [|discriminate]. intros HE.
  unfold bind at 1 in HE. match type of HE with context [mmap ?g ?l h] => assert (HX : ext h (snd (mmap g l h))); [|destruct (mmap g l h) as [[ps|e] h1] eqn:EM; [|discriminate]] end.
  { apply (safe_ext (fun _ _ => True)). intros N. eapply safe_weaken; [apply (safe_mmap N (fun _ => True))|auto]. intros n _. apply safe_get. intros h1 _. eapply safe_bind; [apply safe_lift; intros w _; exact I|]. intros w _.
    eapply safe_bind; [apply safe_clone_value|]. intros w' _. apply safe_ret. exact I. }
  unfold bind at 1 in HE. destruct (construct classes builtins (cls o) ps h1) as [[new|e] h2] eqn:EC; [|discriminate].
  destruct (construct_keeps _ _ _ _ _ EC) as (-> & (o2 & EO2 & EC2) & HX2).
  unfold bind at 1 in HE. match type of HE with context [miter ?g ?l h2] => destruct (miter g l h2) as [[u|e] h3] eqn:EI end; [|discriminate].
  destruct (checked_params _ _ _ _ _ EI) as [-> _]. unfold ret in HE. injection HE as <- <-. split; [cbn; rewrite EN, EO2; exact EC2|]. exists (length h1). split; [reflexivity|]. split; [apply HX|]. apply nth_error_Some. congruence.
Qed.
End World.
