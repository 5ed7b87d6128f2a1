(* Objects and parameters: copies are fresh. *)
From Coq Require Import String Lia.
From Verif Require Import PyNum PyList PyMon L_List M_Objects S_Objects.

Definition fresh (N : nat) (v : val) : Prop := match v with Ref p => (N <= p)%nat | Prim _ => True end.
Definition okh (N : nat) (h : heap) : Prop :=
  (N <= length h)%nat /\ forall p o, (N <= p)%nat -> nth_error h p = Some o -> Forall (fun nv => fresh N (snd nv)) (fields o).
Definition same_below (N : nat) (h h' : heap) : Prop := forall p, (p < N)%nat -> nth_error h' p = nth_error h p.
Definition safe {A} (N : nat) (P : A -> Prop) (m : St heap A) : Prop :=
  forall h, okh N h -> okh N (snd (m h)) /\ same_below N h (snd (m h)) /\ forall a, fst (m h) = Ok a -> P a.

Lemma safe_ret {A} N (P : A -> Prop) a : P a -> safe N P (ret a).
Proof. intros HP h Hh. split; [exact Hh|]. split; [intros p _; reflexivity|]. cbn. intros b E. injection E as <-. exact HP. Qed.
Lemma safe_raise {A} N (P : A -> Prop) e : safe N P (raise e).
Proof. intros h Hh. split; [exact Hh|]. split; [intros p _; reflexivity|]. cbn. discriminate. Qed.
Lemma safe_lift {A} N (P : A -> Prop) r : (forall a, r = Ok a -> P a) -> safe N P (lift r).
Proof. intros HP h Hh. split; [exact Hh|]. split; [intros p _; reflexivity|]. cbn. exact HP. Qed.
Lemma safe_bind {A B} N (P : A -> Prop) (Q : B -> Prop) m k : safe N P m -> (forall a, P a -> safe N Q (k a)) -> safe N Q (bind m k).
Proof.
  intros HM HK h Hh. destruct (HM h Hh) as (H1 & H2 & H3). unfold bind. destruct (m h) as [[a|e] h1]; cbn [fst snd] in *.
  - destruct (HK a (H3 a eq_refl) h1 H1) as (K1 & K2 & K3). split; [exact K1|]. split; [|exact K3]. intros p Hp. rewrite K2, H2 by exact Hp. reflexivity.
  - split; [exact H1|]. split; [exact H2|]. discriminate.
Qed.
Lemma safe_get {B} N (Q : B -> Prop) k : (forall h, okh N h -> safe N Q (k h)) -> safe N Q (bind get k).
Proof. intros HK h Hh. unfold bind, get. apply HK; exact Hh. Qed.
Lemma safe_weaken {A} N (P Q : A -> Prop) m : safe N P m -> (forall a, P a -> Q a) -> safe N Q m.
Proof. intros HM HPQ h Hh. destruct (HM h Hh) as (H1 & H2 & H3). split; [exact H1|]. split; [exact H2|]. intros a E. apply HPQ, H3, E. Qed.
Lemma safe_miter {A} N (f : A -> St heap unit) l : (forall a, In a l -> safe N (fun _ => True) (f a)) -> safe N (fun _ => True) (miter f l).
Proof.
  induction l as [|a l IH]; intros HF; [apply safe_ret; exact I|]. cbn [miter]. eapply safe_bind; [apply HF; left; reflexivity|]. intros _ _. apply IH. intros b Hb. apply HF. right. exact Hb.
Qed.
Lemma safe_mmap {A B} N (P : B -> Prop) (f : A -> St heap B) l : (forall a, In a l -> safe N P (f a)) -> safe N (Forall P) (mmap f l).
Proof.
  induction l as [|a l IH]; intros HF; [apply safe_ret; constructor|]. cbn [mmap]. eapply safe_bind; [apply HF; left; reflexivity|]. intros b Hb.
  eapply safe_bind; [apply IH; intros c Hc; apply HF; right; exact Hc|]. intros bs Hbs. apply safe_ret. constructor; assumption.
Qed.

(* ----- fields ----- *)
Lemma field_In fs n v : field fs n = Some v -> exists m, In (m, v) fs /\ m = n.
Proof.
  induction fs as [|[m w] fs IH]; cbn; [discriminate|]. destruct (String.eqb m n) eqn:E; [intros H; injection H as <-; apply String.eqb_eq in E; exists m; auto|].
  intros H. destruct (IH H) as (m' & HI & E'). exists m'. auto.
Qed.
Lemma field_set fs n v m : field (set_field fs n v) m = if String.eqb n m then Some v else field fs m.
Proof.
  induction fs as [|[k w] fs IH]; cbn; [destruct (String.eqb n m); reflexivity|]. destruct (String.eqb k n) eqn:E; cbn.
  - apply String.eqb_eq in E. subst k. destruct (String.eqb n m); reflexivity.
  - rewrite IH. destruct (String.eqb k m) eqn:E1; [|reflexivity]. apply String.eqb_eq in E1. subst k. rewrite String.eqb_sym, E. reflexivity.
Qed.
Lemma set_field_all (P : string * val -> Prop) fs n v : Forall P fs -> P (n, v) -> (forall m w, P (m, w) -> P (m, v) \/ True) -> (forall m, P (m, v)) -> Forall P (set_field fs n v).
Proof.
  intros HF HP _ HA. induction HF as [|[m w] fs Hx HF IH]; cbn; [constructor; [exact HP|constructor]|]. destruct (String.eqb m n); constructor; auto.
Qed.
Lemma update_length {A} (l : list A) i x : length (update l i x) = length l.
Proof. revert i. induction l as [|a l IH]; intros [|i]; cbn; auto. Qed.
Lemma nth_update {A} (l : list A) i x p : nth_error (update l i x) p = if Nat.eqb i p then (match nth_error l i with Some _ => Some x | None => None end) else nth_error l p.
Proof.
  revert i p. induction l as [|a l IH]; intros [|i] [|p]; cbn; try reflexivity; try (destruct (Nat.eqb i p); reflexivity). apply IH.
Qed.
Lemma write_nth h p n v q : nth_error (write h p n v) q =
  if Nat.eqb p q then option_map (fun o => mkObject (cls o) (set_field (fields o) n v)) (nth_error h p) else nth_error h q.
Proof.
  unfold write. destruct (nth_error h p) as [o|] eqn:E.
  - rewrite nth_update, E. reflexivity.
  - destruct (Nat.eqb p q) eqn:EQ; [apply Nat.eqb_eq in EQ; subst q; exact E|reflexivity].
Qed.
Lemma write_length h p n v : length (write h p n v) = length h.
Proof. unfold write. destruct (nth_error h p); [apply update_length|reflexivity]. Qed.
Lemma write_stored h p n v q m : stored (write h p n v) q m = if Nat.eqb p q && String.eqb n m then (if Nat.ltb p (length h) then Some v else None) else stored h q m.
Proof.
  unfold stored. rewrite write_nth. destruct (Nat.eqb p q) eqn:E; cbn [andb]; [|reflexivity]. apply Nat.eqb_eq in E. subst q.
  destruct (nth_error h p) as [o|] eqn:EN; cbn [option_map].
  - cbn [fields]. rewrite field_set. assert (HL : (p < length h)%nat) by (apply nth_error_Some; congruence). apply Nat.ltb_lt in HL. rewrite HL. reflexivity.
  - assert (HL : Nat.ltb p (length h) = false) by (apply Nat.ltb_ge, nth_error_None; exact EN). rewrite HL. destruct (String.eqb n m); reflexivity.
Qed.

Section World.
Variable classes : string -> classinfo.
Variable builtins : atom -> list string.
Notation getattr := (getattr classes builtins). Notation setattr := (setattr classes builtins). Notation set_params := (set_params classes builtins).
Notation get_params := (get_params classes builtins). Notation clone_value := (clone_value classes builtins). Notation construct := (construct classes builtins).

Lemma getattr_fresh N h v n w : okh N h -> fresh N v -> getattr h v n = Ok w -> fresh N w.
Proof.
  intros [_ HO] HV. destruct v as [a|p]; cbn [M_Objects.getattr].
  - destruct (existsb _ _); [|discriminate]. intros E. injection E as <-. exact I.
  - unfold lookup. destruct (nth_error h p) as [o|] eqn:EN; cbn; [|discriminate]. destruct (field (fields o) n) as [w'|] eqn:EF.
    + intros E. injection E as <-. apply field_In in EF as (m & HI & _). specialize (HO p o HV EN). rewrite Forall_forall in HO. exact (HO _ HI).
    + destruct (existsb _ _); [|discriminate]. intros E. injection E as <-. exact I.
Qed.
Lemma safe_setfield N p n v : (N <= p)%nat -> fresh N v -> safe N (fun _ => True) (setfield p n v).
Proof.
  intros HP HV h [HL HO]. unfold setfield. cbn [fst snd]. split; [split|split].
  - rewrite write_length. exact HL.
  - intros q o Hq. rewrite write_nth. destruct (Nat.eqb p q) eqn:E; [|intros HN; exact (HO q o Hq HN)].
    destruct (nth_error h p) as [o0|] eqn:EN; cbn [option_map]; [|discriminate]. intros HE. injection HE as <-. cbn [fields].
    apply set_field_all; [exact (HO p o0 HP EN)|exact HV|auto|intros m0; exact HV].
  - intros q Hq. rewrite write_nth. destruct (Nat.eqb p q) eqn:E; [apply Nat.eqb_eq in E; lia|reflexivity].
  - intros _ _. exact I.
Qed.
Lemma safe_setattr N o n v : fresh N o -> fresh N v -> safe N (fun _ => True) (setattr o n v).
Proof.
  intros HO HV. destruct o as [a|p]; cbn [M_Objects.setattr]; [apply safe_raise|]. cbn in HO. apply safe_get. intros h Hh.
  eapply safe_bind; [apply safe_lift; intros ob _; exact I|]. intros ob _. eapply safe_bind; [apply safe_setfield; assumption|]. intros _ _.
  destruct (String.eqb n "matching_type"); [|apply safe_ret; exact I]. 
  assert (HM : forall m k, safe N (fun _ => True) (setfield p m (Prim k))) by (intros m k; apply safe_setfield; [exact HO|exact I]).
  destruct (ckind (classes (cls ob))); [apply safe_ret; exact I| |].
  - cbv zeta. assert (HC : forall m, safe N (fun _ => True) (setfield p "execute" (Prim (AMember m)) ;; let* s := lift (getattr h (Ref p) "sigma") in lift (assert_ (two_rows h s)))).
    { intros m. eapply safe_bind; [apply HM|]. intros _ _. eapply safe_bind; [apply safe_lift; intros s _; exact I|]. intros s _. apply safe_lift. intros _ _. exact I. }
    destruct (String.eqb _ _); [apply HM|]. destruct (String.eqb _ _); [apply HM|]. destruct (String.eqb _ _); [apply HC|]. destruct (String.eqb _ _); [apply HC|]. apply safe_ret; exact I.
  - cbv zeta. destruct (String.eqb _ _); [apply HM|]. destruct (String.eqb _ _); [apply HM|]. destruct (String.eqb _ _); [apply HM|]. destruct (String.eqb _ _); [apply HM|]. apply safe_ret; exact I.
Qed.
Lemma safe_alloc N o : Forall (fun nv => fresh N (snd nv)) (fields o) -> safe N (fresh N) (alloc o).
Proof.
  intros HF h [HL HO]. unfold alloc. cbn [fst snd]. split; [split|split].
  - rewrite app_length. lia.
  - intros p ob Hp HN. destruct (Nat.lt_ge_cases p (length h)) as [H1|H1].
    + rewrite nth_error_app1 in HN by exact H1. exact (HO p ob Hp HN).
    + rewrite nth_error_app2 in HN by exact H1. destruct (p - length h)%nat as [|k]; cbn in HN; [injection HN as <-; exact HF|destruct k; discriminate].
  - intros p Hp. apply nth_error_app1. lia.
  - intros v E. injection E as <-. exact HL.
Qed.
Lemma safe_deepcopy N : forall f v, safe N (fresh N) (deepcopy f v).
Proof.
  induction f as [|f IH]; intros v; cbn [deepcopy]; [apply safe_raise|]. destruct v as [a|p]; [apply safe_ret; exact I|].
  apply safe_get. intros h Hh. eapply safe_bind; [apply safe_lift; intros o _; exact I|]. intros o _.
  eapply safe_bind; [apply (safe_mmap N (fun nv => fresh N (snd nv)))|].
  - intros nv _. eapply safe_bind; [apply IH|]. intros w Hw. apply safe_ret. exact Hw.
  - intros fs Hfs. apply safe_alloc. exact Hfs.
Qed.
Lemma compute_fresh N f w u : fresh N w -> compute f w = Ok u -> fresh N u.
Proof. intros HW. destruct f; cbn; [intros E; injection E as <-; exact HW|]. destruct w as [[]|]; try discriminate; intros E; injection E as <-; exact I. Qed.
Lemma safe_construct N c ps : Forall (fun nv => fresh N (snd nv)) ps -> safe N (fresh N) (construct c ps).
Proof.
  intros HP. unfold M_Objects.construct. cbv zeta. eapply safe_bind; [apply safe_alloc; cbn [fields]; apply Forall_map, Forall_forall; intros; exact I|]. intros o Ho.
  eapply safe_bind.
  - apply safe_miter. intros n _. destruct (field ps n) as [w|] eqn:EF; [|apply safe_ret; exact I]. apply safe_setattr; [exact Ho|].
    apply field_In in EF as (m & HI & _). rewrite Forall_forall in HP. exact (HP _ HI).
  - intros _ _. apply (safe_bind N (fun _ => True)); [|intros _ _; apply (safe_bind N (fun _ => True)); [|intros _ _; apply (safe_bind N (fun _ => True)); [|intros _ _; apply safe_ret; exact Ho]]].
    + apply safe_miter. intros nc _. apply safe_get. intros h Hh. eapply safe_bind; [apply safe_lift; intros w _; exact I|]. intros w _.
      destruct (is_none w); [|apply safe_ret; exact I]. eapply safe_bind; [apply safe_alloc; constructor|]. intros d Hd. apply safe_setattr; assumption.
    + apply safe_miter. intros dn _. apply safe_get. intros h Hh. eapply safe_bind; [apply safe_lift; intros w Hw; exact (getattr_fresh N h o _ w Hh Ho Hw)|]. intros w Hw.
      eapply safe_bind; [apply safe_lift; intros u Hu; exact (compute_fresh N _ w u Hw Hu)|]. intros u Hu. apply safe_setattr; assumption.
    + apply safe_miter. intros d _. apply safe_get. intros h Hh. apply safe_lift. intros _ _. exact I.
Qed.
Lemma safe_clone_value N : forall f v, safe N (fresh N) (clone_value f v).
Proof.
  induction f as [|f IH]; intros v; cbn [M_Objects.clone_value]; [apply safe_raise|]. apply safe_get. intros h Hh.
  destruct v as [a|p]; [apply safe_deepcopy|]. destruct (param_names classes h (Ref p)) as [ns|]; [|apply safe_deepcopy].
  eapply safe_bind; [apply safe_lift; intros o _; exact I|]. intros o _. eapply safe_bind; [apply (safe_mmap N (fun nv => fresh N (snd nv)))|].
  - intros n _. apply safe_get. intros h1 Hh1. eapply safe_bind; [apply safe_lift; intros w _; exact I|]. intros w _. eapply safe_bind; [apply IH|]. intros w' Hw'. apply safe_ret. exact Hw'.
  - intros ps Hps. eapply safe_bind; [apply safe_construct; exact Hps|]. intros new Hnew. apply (safe_bind N (fun _ => True)); [|intros _ _; apply safe_ret; exact Hnew].
    apply safe_miter. intros nw _. apply safe_get. intros h1 Hh1. eapply safe_bind; [apply safe_lift; intros w _; exact I|]. intros w _.
    destruct (same_object _ _); [apply safe_ret; exact I|apply safe_raise].
Qed.
Lemma safe_clone N f v : safe N (fresh N) (clone classes builtins f v).
Proof. unfold clone. apply safe_get. intros h Hh. destruct (param_names classes h v); [apply safe_clone_value|apply safe_raise]. Qed.
Lemma safe_set_params N : forall key v w, fresh N v -> fresh N w -> safe N (fun _ => True) (set_params v key w).
Proof.
  induction key as [|n rest IH]; intros v w HV HW; cbn [M_Objects.set_params]; [apply safe_raise|]. apply safe_get. intros h Hh.
  eapply safe_bind; [apply safe_lift; intros ns _; exact I|]. intros ns _. destruct (negb _); [apply safe_raise|]. destruct rest as [|m rest]; [apply safe_setattr; assumption|].
  eapply safe_bind; [apply safe_lift; intros c Hc; exact (getattr_fresh N h v n c Hh HV Hc)|]. intros c Hc. apply IH; assumption.
Qed.
Lemma safe_init_bounds N f rd data : fresh N rd -> safe N (fun _ => True) (init_bounds classes builtins f rd data).
Proof.
  intros HR. unfold init_bounds. eapply safe_bind; [apply safe_alloc; repeat constructor|]. intros b Hb. apply safe_get. intros h Hh.
  eapply safe_bind; [apply safe_lift; intros ps _; exact I|]. intros ps _. apply safe_miter. intros kv _. destruct (_ && _); [|apply safe_ret; exact I]. apply safe_set_params; assumption.
Qed.
Lemma safe_init_matching N f rd mt : fresh N rd -> fresh N mt -> safe N (fun _ => True) (init_matching_type classes builtins f rd mt).
Proof.
  intros HR HM. unfold init_matching_type. apply safe_get. intros h Hh. eapply safe_bind; [apply safe_lift; intros ps _; exact I|]. intros ps _.
  apply safe_miter. intros kv _. destruct (matching_key _); [|apply safe_ret; exact I]. apply safe_set_params; assumption.
Qed.

(* ----- the whole preparation: only four attributes of the estimator itself change ----- *)
Definition results : list string := ["rule_discovery_"; "solution_composition_"; "matching_type_"; "logger_"]%string.
Definition self_only (N s : nat) (h h' : heap) : Prop :=
  (forall p, (p < N)%nat -> p <> s -> nth_error h' p = nth_error h p) /\
  (exists o o', nth_error h s = Some o /\ nth_error h' s = Some o' /\ cls o' = cls o) /\
  forall m, ~ In m results -> stored h' s m = stored h s m.
Definition careful {A} (N s : nat) (P : A -> Prop) (m : St heap A) : Prop :=
  forall h, okh N h -> nth_error h s <> None -> okh N (snd (m h)) /\ self_only N s h (snd (m h)) /\ forall a, fst (m h) = Ok a -> P a.
Lemma careful_safe {A} N s (P : A -> Prop) m : (s < N)%nat -> safe N P m -> careful N s P m.
Proof.
  intros HS HM h Hh Hs. destruct (HM h Hh) as (H1 & H2 & H3). split; [exact H1|]. split; [|exact H3]. split; [intros p Hp _; apply H2; exact Hp|].
  split; [|intros m0 _; unfold stored; rewrite H2 by exact HS; reflexivity]. destruct (nth_error h s) as [o|] eqn:E; [|congruence]. exists o, o. rewrite H2 by exact HS. auto.
Qed.
Lemma careful_bind {A B} N s (P : A -> Prop) (Q : B -> Prop) m k : careful N s P m -> (forall a, P a -> careful N s Q (k a)) -> careful N s Q (bind m k).
Proof.
  intros HM HK h Hh Hs. destruct (HM h Hh Hs) as (H1 & (H2 & (o & o' & Ho & Ho' & Hc) & H3) & H4). unfold bind. destruct (m h) as [[a|e] h1]; cbn [fst snd] in *.
  - assert (Hs1 : nth_error h1 s <> None) by congruence. destruct (HK a (H4 a eq_refl) h1 H1 Hs1) as (K1 & (K2 & (k0 & k1 & Kk & Kk' & Kc) & K3) & K4).
    split; [exact K1|]. split; [|exact K4]. split; [intros p Hp Hn; rewrite K2, H2 by assumption; reflexivity|]. split; [exists o, k1; split; [exact Ho|]; split; [exact Kk'|congruence]|].
    intros m0 Hm. rewrite K3, H3 by exact Hm. reflexivity.
  - split; [exact H1|]. split; [|discriminate]. split; [exact H2|]. split; [exists o, o'; auto|exact H3].
Qed.
Lemma careful_get {B} N s (Q : B -> Prop) k : (forall h, okh N h -> careful N s Q (k h)) -> careful N s Q (bind get k).
Proof. intros HK h Hh. unfold bind, get. apply HK; exact Hh. Qed.
Lemma careful_self N s n c : (s < N)%nat -> In n results -> careful N s (fun _ => True) (setattr (Ref s) n c).
Proof.
  intros HS HI h Hh HN. cbn [M_Objects.setattr]. unfold bind, get, lift, lookup, setfield. destruct (nth_error h s) as [o|] eqn:E; [|congruence]. cbn [of_option].
  assert (EM : String.eqb n "matching_type" = false) by (unfold results in HI; cbn in HI; decompose [or] HI; subst; try reflexivity; contradiction). rewrite EM. unfold ret. cbn [fst snd].
  destruct Hh as [HL HO]. split; [split|split].
  - rewrite write_length. exact HL.
  - intros q o1 Hq. rewrite write_nth. destruct (Nat.eqb s q) eqn:EQ; [apply Nat.eqb_eq in EQ; lia|]. intros H1. exact (HO q o1 Hq H1).
  - split; [|split].
    + intros p Hp Hn. rewrite write_nth. destruct (Nat.eqb s p) eqn:EQ; [apply Nat.eqb_eq in EQ; congruence|reflexivity].
    + eexists o, _. split; [exact E|]. rewrite write_nth, Nat.eqb_refl, E. split; reflexivity.
    + intros m Hm. rewrite write_stored, Nat.eqb_refl. destruct (String.eqb n m) eqn:EQ; [apply String.eqb_eq in EQ; subst m; contradiction|reflexivity].
  - intros _ _. exact I.
Qed.
Lemma careful_validate N s f n d : (s < N)%nat -> In (n ++ "_")%string results -> careful N s (fresh N) (validate classes builtins f (Ref s) n d).
Proof.
  intros HS HI. unfold validate. apply careful_get. intros h Hh. eapply careful_bind; [apply careful_safe; [exact HS|apply safe_lift; intros v _; exact I]|]. intros v _.
  eapply careful_bind; [apply careful_safe; [exact HS|apply safe_clone]|]. intros c Hc. eapply careful_bind; [apply careful_self; assumption|]. intros _ _. apply careful_safe; [exact HS|]. apply safe_ret. exact Hc.
Qed.
Lemma prepare_careful N s f drd dsc dmt dlog data ml : (s < N)%nat -> forall h, okh N h -> nth_error h s <> None -> (forall v, getattr h (Ref s) "n_jobs" = Ok v -> exists a, v = Prim a) ->
  okh N (snd (prepare_components classes builtins f (Ref s) drd dsc dmt dlog data ml h)) /\ self_only N s h (snd (prepare_components classes builtins f (Ref s) drd dsc dmt dlog data ml h)).
Proof.
  intros HS h Hh HN HJ.
  (* n_jobs is read after the estimator got its new attributes *)
  assert (HK : forall h1, self_only N s h h1 -> getattr h1 (Ref s) "n_jobs" = getattr h (Ref s) "n_jobs").
  { intros h1 (_ & (o & o' & Ho & Ho' & Hc) & HF). specialize (HF "n_jobs"%string). unfold stored in HF. rewrite Ho, Ho' in HF. cbn [M_Objects.getattr]. unfold lookup. rewrite Ho, Ho'. cbn.
    rewrite HF, Hc; [reflexivity|]. unfold results. intros HI. cbn in HI. decompose [or] HI; try discriminate; contradiction. }
  set (R := fun h1 : heap => okh N h1 /\ self_only N s h h1).
  assert (HR0 : R h). { split; [exact Hh|]. split; [reflexivity|]. destruct (nth_error h s) as [o|] eqn:E; [|congruence]. split; [exists o, o; auto|reflexivity]. }
  assert (HT : forall h1 h2, self_only N s h h1 -> self_only N s h1 h2 -> self_only N s h h2).
  { intros h1 h2 (A & (o & o' & Ho & Ho' & Hc) & B) (A2 & (o2 & o2' & Ho2 & Ho2' & Hc2) & B2). split; [intros p Hp Hn; rewrite A2, A by assumption; reflexivity|].
    split; [exists o, o2'; split; [exact Ho|]; split; [exact Ho2'|congruence]|]. intros m Hm. rewrite B2, B by exact Hm. reflexivity. }
  assert (HStep : forall A B (P : A -> Prop) (m : St heap A) (k : A -> St heap B) h1, careful N s P m -> R h1 -> (forall a h2, P a -> R h2 -> R (snd (k a h2))) -> R (snd (bind m k h1))).
  { intros A B P m k h1 HM [H1 H2] HC. assert (Hs1 : nth_error h1 s <> None) by (destruct H2 as (_ & (o & o' & _ & Ho' & _) & _); congruence).
    destruct (HM h1 H1 Hs1) as (K1 & K2 & K3). unfold bind. destruct (m h1) as [[a|e] h2]; cbn [fst snd] in *.
    - apply HC; [apply K3; reflexivity|]. split; [exact K1|]. exact (HT _ _ H2 K2).
    - split; [exact K1|]. exact (HT _ _ H2 K2). }
  change (R (snd (prepare_components classes builtins f (Ref s) drd dsc dmt dlog data ml h))). unfold prepare_components.
  apply (HStep _ _ (fresh N)); [apply careful_validate; [exact HS|cbn; auto 6]|exact HR0|]. intros rd h1 Hrd HR1.
  apply (HStep _ _ (fresh N)); [apply careful_validate; [exact HS|cbn; auto 6]|exact HR1|]. intros sc h2 Hsc HR2.
  apply (HStep _ _ (fresh N)); [apply careful_validate; [exact HS|cbn; auto 6]|exact HR2|]. intros mt h3 Hmt HR3.
  apply (HStep _ _ (fresh N)); [apply careful_validate; [exact HS|cbn; auto 6]|exact HR3|]. intros lg h4 _ HR4.
  assert (HP : forall h5, R h5 -> R (snd (propagate classes builtins (Ref s) rd sc h5))).
  { intros h5 HR5. unfold propagate. unfold bind at 1, get. unfold bind at 1, lift. destruct (getattr h5 (Ref s) "n_jobs") as [v|e] eqn:EJ; [|exact HR5]. rewrite HK in EJ by (destruct HR5; assumption).
    destruct (HJ v EJ) as [a ->]. apply (HStep _ _ (fun _ => True)); [apply careful_safe; [exact HS|apply safe_set_params; [exact Hrd|exact I]]|exact HR5|].
    intros _ h6 _ HR6. assert (HC : careful N s (fun _ => True) (set_params sc ["n_jobs"%string] (Prim a))) by (apply careful_safe; [exact HS|apply safe_set_params; [exact Hsc|exact I]]).
    destruct HR6 as [H1 H2]. assert (Hs1 : nth_error h6 s <> None) by (destruct H2 as (_ & (o & o' & _ & Ho' & _) & _); congruence). destruct (HC h6 H1 Hs1) as (K1 & K2 & _). split; [exact K1|exact (HT _ _ H2 K2)]. }
  assert (HL : forall A (m : St heap A) (P : A -> Prop) h5, safe N P m -> R h5 -> R (snd (m h5))).
  { intros A m P h5 HM [H1 H2]. assert (Hs1 : nth_error h5 s <> None) by (destruct H2 as (_ & (o & o' & _ & Ho' & _) & _); congruence).
    destruct (careful_safe N s P m HS HM h5 H1 Hs1) as (K1 & K2 & _). split; [exact K1|exact (HT _ _ H2 K2)]. }
  unfold bind at 1. specialize (HP h4 HR4). destruct (propagate classes builtins (Ref s) rd sc h4) as [[[]|e] h5]; cbn [snd] in HP; [|exact HP].
  apply (HStep _ _ (fun _ => True)); [apply careful_safe; [exact HS|apply safe_init_bounds; exact Hrd]|exact HP|]. intros _ h6 _ HR6.
  apply (HStep _ _ (fun _ => True)); [apply careful_safe; [exact HS|apply safe_init_matching; assumption]|exact HR6|]. intros _ h7 _ HR7.
  apply (HL _ _ (fun _ => True)); [|exact HR7]. apply safe_get. intros h8 Hh8. eapply safe_bind; [apply safe_lift; intros i Hi; exact (getattr_fresh N h8 sc _ i Hh8 Hsc Hi)|]. intros i Hi.
  eapply safe_bind; [apply safe_lift; intros fi Hfi; exact (getattr_fresh N h8 i _ fi Hh8 Hi Hfi)|]. intros fi Hfi. apply safe_setattr; [exact Hfi|exact I].
Qed.
Lemma configuration_untouched s f drd dsc dmt dlog data ml h r h' : (forall v, getattr h (Ref s) "n_jobs" = Ok v -> exists a, v = Prim a) -> nth_error h s <> None ->
  prepare_components classes builtins f (Ref s) drd dsc dmt dlog data ml h = (r, h') ->
  (forall p, (p < length h)%nat -> p <> s -> nth_error h' p = nth_error h p) /\
  (exists o o', nth_error h s = Some o /\ nth_error h' s = Some o' /\ cls o' = cls o) /\
  forall m, ~ In m ["rule_discovery_"; "solution_composition_"; "matching_type_"; "logger_"]%string -> stored h' s m = stored h s m.
Proof.
  intros HJ HN HE. assert (HS : (s < length h)%nat) by (apply nth_error_Some; exact HN).
  assert (Hh : okh (length h) h). { split; [lia|]. intros p o Hp E. assert ((p < length h)%nat) by (apply nth_error_Some; congruence). lia. }
  destruct (prepare_careful (length h) s f drd dsc dmt dlog data ml HS h Hh HN HJ) as (_ & HR). rewrite HE in HR. exact HR.
Qed.
End World.
