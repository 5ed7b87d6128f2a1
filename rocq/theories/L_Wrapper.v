(* The wrapper: keywords, paths, and what they change. *)
From Coq Require Import String Ascii Lia Permutation Sorted.
From Verif Require Import PyNum PyList PyMon L_List M_Objects S_Objects L_Objects L_Clone L_Params.

(* ----- keys ----- *)
Lemma split_dots_nonempty s : split_dots s <> [].
Proof. destruct s as [|c s]; cbn; [discriminate|]. destruct (Ascii.eqb c "."); [discriminate|]. destruct (split_dots s); discriminate. Qed.
Lemma split_dots_app s t : split_dots (s ++ String "." t) = split_dots s ++ split_dots t.
Proof.
  induction s as [|c s IH]; [reflexivity|]. cbn [append split_dots]. destruct (Ascii.eqb c "."); [rewrite IH; reflexivity|]. rewrite IH. pose proof (split_dots_nonempty s). destruct (split_dots s); [congruence|reflexivity].
Qed.
Lemma us_cases c s : (c = "_"%char /\ exists s', s = String "_" s') \/ (dotted (String c s) = String c (dotted s) /\ count_us (String c s) = count_us s /\
   forall t, (s <> EmptyString \/ c <> "_"%char) -> dotted (String c (s ++ t)) = String c (dotted (s ++ t)) /\ count_us (String c (s ++ t)) = count_us (s ++ t)).
Proof.
  destruct (Ascii.ascii_dec c "_") as [->|NE].
  - destruct s as [|d s]; [right; split; [reflexivity|]; split; [reflexivity|]; intros t [H|H]; congruence|]. destruct (Ascii.ascii_dec d "_") as [->|ND]; [left; split; [reflexivity|eexists; reflexivity]|].
    right. assert (HD : forall r, dotted (String "_" (String d r)) = String "_" (dotted (String d r)) /\ count_us (String "_" (String d r)) = count_us (String d r)).
    { intros r. destruct d as [[] [] [] [] [] [] [] []]; try (split; reflexivity). congruence. }
    destruct (HD s) as [H1 H2]. split; [exact H1|]. split; [exact H2|]. intros t _. cbn [append]. apply HD.
  - right. assert (HD : forall r, dotted (String c r) = String c (dotted r) /\ count_us (String c r) = count_us r).
    { intros r. destruct c as [[] [] [] [] [] [] [] []]; try (split; reflexivity). congruence. }
    destruct (HD s) as [H1 H2]. split; [exact H1|]. split; [exact H2|]. intros t _. apply HD.
Qed.
Lemma key_parts : forall n k a, (String.length k <= n)%nat -> ends_in_underscore k = false ->
  dotted (k ++ String "_" (String "_" a)) = (dotted k ++ String "." (dotted a))%string /\ count_us (k ++ String "_" (String "_" a)) = (count_us k + S (count_us a))%nat.
Proof.
  induction n as [|n IH]; intros k a HL HU; (destruct k as [|c k]; [split; reflexivity|]); [cbn in HL; lia|]. cbn [String.length] in HL.
  destruct (us_cases c k) as [(-> & k' & ->)|(H1 & H2 & H3)].
  - cbn [append dotted count_us]. cbn [String.length] in HL. destruct (IH k' a) as [E1 E2]; [lia| |rewrite E1, E2; split; reflexivity]. cbn in HU. destruct k' as [|d k']; [discriminate|exact HU].
  - assert (HC : k <> EmptyString \/ c <> "_"%char). { destruct k as [|d k]; [right; intros ->; cbn in HU; discriminate|left; discriminate]. }
    assert (HU' : ends_in_underscore k = false) by (destruct k as [|d k]; [reflexivity|exact HU]). destruct (IH k a) as [E1 E2]; [lia|exact HU'|].
    destruct (H3 (String "_" (String "_" a)) HC) as [D1 D2]. cbn [append]. rewrite D1, D2, H1, H2, E1, E2. split; reflexivity.
Qed.
Lemma key_names_path k a : ends_in_underscore k = false -> path_of (k ++ "__" ++ a) = path_of k ++ path_of a /\ count_us (k ++ "__" ++ a) = S (count_us k + count_us a).
Proof.
  intros HU. cbn [append]. destruct (key_parts (String.length k) k a (le_n _) HU) as [E1 E2]. unfold path_of. rewrite E1, split_dots_app, E2. split; [reflexivity|lia].
Qed.

Section World.
Variable classes : string -> classinfo.
Variable builtins : atom -> list string.
Notation getattr := (getattr classes builtins). Notation setattr := (setattr classes builtins). Notation leads := (leads classes builtins).
Notation target := (target classes builtins). Notation touches := (touches classes builtins). Notation wrap_one := (wrap_one classes builtins). Notation wrapper := (wrapper classes builtins).

(* ----- paths ----- *)
Lemma leads_functional h v path u : leads h v path u -> forall u', leads h v path u' -> u' = u.
Proof.
  intros HL. induction HL as [v|v n w path u HG HL IH]; intros u' HL'; inversion HL' as [|v0 n0 w0 path0 u0 HG' HL0]; subst; [reflexivity|]. rewrite HG in HG'. injection HG' as <-. exact (IH _ HL0).
Qed.
Lemma leads_app h v a b u : leads h v (a ++ b) u <-> exists w, leads h v a w /\ leads h w b u.
Proof.
  revert v. induction a as [|n a IH]; intros v; cbn [app].
  - split; [intros H; exists v; split; [constructor|exact H]|]. intros (w & H1 & H2). inversion H1; subst. exact H2.
  - split.
    + intros H. inversion H as [|v0 n0 w0 path0 u0 HG HL]; subst. apply IH in HL as (w & H1 & H2). exists w. split; [econstructor; eassumption|exact H2].
    + intros (w & H1 & H2). inversion H1 as [|v0 n0 w0 path0 u0 HG HL]; subst. econstructor; [exact HG|]. apply IH. exists w. auto.
Qed.
Lemma walk_leads h v path u : leads h v path u -> walk classes builtins h v path = u.
Proof. unfold walk. intros HL. induction HL as [v|v n w path u HG HL IH]; [reflexivity|]. cbn [fold_left]. rewrite HG. exact IH. Qed.
Lemma getattr_write h p n v q m : (Nat.eqb p q && String.eqb n m)%bool = false -> getattr (write h p n v) (Ref q) m = getattr h (Ref q) m.
Proof. intros E. apply getattr_same; [apply shape_write|]. rewrite write_stored, E. reflexivity. Qed.
Lemma leads_write h p n v root path u : leads h root path u -> (forall a b, path = a ++ n :: b -> ~ leads h root a (Ref p)) -> leads (write h p n v) root path u.
Proof.
  intros HL. induction HL as [x|x m w path u HG HL IH]; intros HN; [constructor|]. econstructor; [|apply IH].
  - destruct x as [a|q]; [exact HG|]. rewrite getattr_write; [exact HG|]. destruct (Nat.eqb p q && String.eqb n m) eqn:E; [|reflexivity]. apply andb_prop in E as [E1 E2]. apply Nat.eqb_eq in E1. apply String.eqb_eq in E2. subst q m.
    exfalso. exact (HN [] path eq_refl (Leads_here _ _ _ _)).
  - intros a b E HA. apply (HN (m :: a) b); [cbn; rewrite E; reflexivity|]. econstructor; eassumption.
Qed.

(* ----- one keyword ----- *)
Lemma last_snoc {A} (l : list A) x d : last (l ++ [x]) d = x. Proof. apply last_last. Qed.
Lemma not_print key steps n : path_of key = steps ++ [n] -> steps <> [] \/ n <> "print_config"%string -> String.eqb key "print_config" = false.
Proof.
  intros HP HN. destruct (String.eqb key "print_config") eqn:E; [|reflexivity]. apply String.eqb_eq in E. subst key. vm_compute in HP. destruct steps as [|s [|s' steps]]; [|discriminate|discriminate].
  injection HP as <-. destruct HN as [H|H]; congruence.
Qed.
Lemma wrap_known root key v h p n : String.eqb key "print_config" = false -> target h root key p n -> n <> "matching_type"%string -> wrap_one root key v h = (Ok false, write h p n v).
Proof.
  intros HK (steps & w & HP & HL & HG) HM. unfold M_Objects.wrap_one. rewrite HK. unfold bind at 1, get. cbv zeta. rewrite HP, removelast_last, last_snoc, (walk_leads _ _ _ _ HL). unfold hasattr. rewrite HG.
  assert (HO : exists o, nth_error h p = Some o) by (rewrite getattr_stored in HG; destruct (nth_error h p) as [o|]; [exists o; reflexivity|discriminate]). destruct HO as (o & HO).
  unfold bind. rewrite (setattr_plain _ _ _ _ _ _ _ HO) by (apply String.eqb_neq; exact HM). reflexivity.
Qed.
Lemma wrap_known_type root key v h p r h' : String.eqb key "print_config" = false -> target h root key p "matching_type" -> wrap_one root key v h = (r, h') ->
  stored h' p "matching_type" = Some v /\ changed_only (fun q m => q = p /\ In m ["matching_type"; "execute"; "generate_matching_function"]%string) h h'.
Proof.
  intros HK (steps & w & HP & HL & HG) HE. unfold M_Objects.wrap_one in HE. rewrite HK in HE. unfold bind at 1, get in HE. cbv zeta in HE. rewrite HP, removelast_last, last_snoc, (walk_leads _ _ _ _ HL) in HE. unfold hasattr in HE. rewrite HG in HE.
  assert (HO : exists o, nth_error h p = Some o) by (rewrite getattr_stored in HG; destruct (nth_error h p) as [o|]; [exists o; reflexivity|discriminate]). destruct HO as (o & HO).
  assert (EH : h' = snd (setattr (Ref p) "matching_type" v h)). { unfold bind in HE. destruct (setattr (Ref p) "matching_type" v h) as [[u|e] h1]; unfold ret in HE; injection HE as _ <-; reflexivity. }
  subst h'. rewrite (setattr_effect classes builtins p "matching_type" v h o HO). change (String.eqb "matching_type" "matching_type") with true. cbv iota.
  assert (HX : Nat.ltb p (length h) = true) by (apply Nat.ltb_lt, nth_error_Some; congruence).
  destruct (hook (ckind (classes (cls o))) (class_of h v)) as [[hn hm]|] eqn:EH.
  - assert (HN : In hn ["execute"; "generate_matching_function"]%string /\ String.eqb hn "matching_type" = false).
    { unfold hook in EH. destruct (ckind (classes (cls o))); [discriminate| |]; repeat match type of EH with (if ?b then _ else _) = _ => destruct b end; inversion EH; cbn; auto. }
    destruct HN as [HN HN2]. split; [rewrite !write_stored, write_length, HX, HN2, Nat.eqb_refl, String.eqb_refl; reflexivity|]. split; [rewrite !write_length; reflexivity|].
    split; [exact (proj2 (shape_trans _ _ _ (shape_write _ _ _ _) (shape_write _ _ _ _)))|]. intros q m HQ. rewrite !write_stored.
    destruct (Nat.eqb p q) eqn:E; cbn [andb]; [|reflexivity]. apply Nat.eqb_eq in E. subst q. destruct (String.eqb hn m) eqn:E1; [exfalso; apply String.eqb_eq in E1; subst m; apply HQ; split; [reflexivity|right; exact HN]|].
    destruct (String.eqb "matching_type" m) eqn:E2; [exfalso; apply String.eqb_eq in E2; subst m; apply HQ; split; [reflexivity|left; reflexivity]|reflexivity].
  - split; [rewrite write_stored, HX, Nat.eqb_refl, String.eqb_refl; reflexivity|]. split; [rewrite write_length; reflexivity|]. split; [exact (proj2 (shape_write _ _ _ _))|]. intros q m HQ. rewrite write_stored.
    destruct (Nat.eqb p q && String.eqb "matching_type" m) eqn:E; [|reflexivity]. exfalso. apply HQ. apply andb_prop in E as [E1 E2]. apply Nat.eqb_eq in E1. apply String.eqb_eq in E2. subst. cbn. auto.
Qed.
Lemma wrap_unknown root key v h steps n o e : String.eqb key "print_config" = false -> path_of key = steps ++ [n] -> leads h root steps o -> getattr h o n = Raise e -> wrap_one root key v h = (Ok true, h).
Proof.
  intros HK HP HL HG. unfold M_Objects.wrap_one. rewrite HK. unfold bind at 1, get. cbv zeta. rewrite HP, removelast_last, last_snoc, (walk_leads _ _ _ _ HL). unfold hasattr. rewrite HG. reflexivity.
Qed.
Lemma write_changed h p n v : changed_only (fun q m => q = p /\ m = n) h (write h p n v).
Proof.
  split; [apply write_length|]. split; [exact (proj2 (shape_write h p n v))|]. intros q m HQ. rewrite write_stored. destruct (Nat.eqb p q && String.eqb n m) eqn:E; [|reflexivity].
  exfalso. apply HQ. apply andb_prop in E as [E1 E2]. apply Nat.eqb_eq in E1. apply String.eqb_eq in E2. auto.
Qed.
Lemma named_parameter_set root key v h p n : key <> "print_config"%string -> target h root key p n -> n <> "matching_type"%string ->
  exists h', wrap_one root key v h = (Ok false, h') /\ stored h' p n = Some v /\ changed_only (fun q m => q = p /\ m = n) h h'.
Proof.
  intros HK HT HM. exists (write h p n v). assert (HK' : String.eqb key "print_config" = false) by (apply String.eqb_neq; exact HK). split; [exact (wrap_known _ _ v _ _ _ HK' HT HM)|]. split; [|apply write_changed].
  destruct HT as (steps & w & _ & _ & HG). rewrite getattr_stored in HG. destruct (nth_error h p) as [o|] eqn:EO; [|discriminate]. rewrite write_stored, Nat.eqb_refl, String.eqb_refl. cbn [andb].
  assert (HX : Nat.ltb p (length h) = true) by (apply Nat.ltb_lt, nth_error_Some; congruence). rewrite HX. reflexivity.
Qed.

(* ----- independent keywords ----- *)
Definition agree (h h' : heap) (root : val) (path : list string) : Prop := forall a b v, path = a ++ b -> leads h root a v <-> leads h' root a v.
Definition one (root : val) (kv : string * val) : St heap (string * bool) := let* w := wrap_one root (fst kv) (snd kv) in ret (fst kv, w).
Lemma snoc_eq {A} (a : list A) x b y : a ++ [x] = b ++ [y] -> a = b /\ x = y.
Proof. apply app_inj_tail. Qed.
Lemma independent_loop root h0 : forall l h,
  NoDup (map fst l) ->
  (forall key v, In (key, v) l -> String.eqb key "print_config" = false /\ exists steps p n w, path_of key = steps ++ [n] /\ leads h0 root steps (Ref p) /\ agree h0 h root steps /\ getattr h (Ref p) n = Ok w /\ n <> "matching_type"%string) ->
  (forall key1 v1 key2 v2 p n, In (key1, v1) l -> In (key2, v2) l -> key1 <> key2 -> target h0 root key1 p n -> ~ touches h0 root p n key2) ->
  (forall key v, In (key, v) l -> exists p n, target h0 root key p n) ->
  exists h', mmap (one root) l h = (Ok (map (fun kv => (fst kv, false)) l), h') /\
    (forall key v p n, In (key, v) l -> target h0 root key p n -> stored h' p n = Some v) /\
    changed_only (fun p n => exists key v, In (key, v) l /\ target h0 root key p n) h h'.
Proof.
  induction l as [|[key v] l IH]; intros h HND HL HI HT0.
  - exists h. split; [reflexivity|]. split; [intros key v p n []|]. split; [reflexivity|]. split; [intros p o E; exists o; auto|intros p n _; reflexivity].
  - destruct (HL key v (or_introl eq_refl)) as (HK & steps & p & n & w & HP & HLd & HA & HG & HM). inversion HND as [|? ? HNI HND']; subst.
    assert (HLh : leads h root steps (Ref p)) by (apply (HA steps [] _ (eq_sym (app_nil_r _))); exact HLd).
    assert (HT : target h root key p n) by (exists steps, w; auto). set (h1 := write h p n v).
    destruct (HT0 key v (or_introl eq_refl)) as (p0 & n0 & HT00). pose proof HT00 as (steps0 & w0 & HP0 & HLd0 & HG0). rewrite HP in HP0. apply snoc_eq in HP0 as [<- <-].
    pose proof (leads_functional _ _ _ _ HLd _ HLd0) as EP. injection EP as ->. 
    assert (HW : wrap_one root key v h = (Ok false, h1)) by (exact (wrap_known _ _ v _ _ _ HK HT HM)).
    destruct (IH h1 HND') as (h' & HMm & HSt & HCh).
    + intros key2 v2 H2. destruct (HL key2 v2 (or_intror H2)) as (HK2 & steps2 & p2 & n2 & w2 & HP2 & HLd2 & HA2 & HG2 & HM2). split; [exact HK2|].
      assert (HNE : key <> key2) by (intros ->; apply HNI; apply in_map_iff; exists (key2, v2); auto).
      assert (HNT : ~ touches h0 root p n key2) by (apply (HI key v key2 v2 p n (or_introl eq_refl) (or_intror H2) HNE HT00)).
      assert (HAg : agree h h1 root steps2).
      { intros a b u E. assert (HR : forall u, leads h root a u -> leads h1 root a u).
        { intros u' Hu. apply leads_write; [exact Hu|]. intros a' b' E' Ha. apply HNT. exists a', (b' ++ b ++ [n2]). split; [rewrite HP2, E, E', <- !app_assoc; reflexivity|].
          apply (HA2 a' (n :: b' ++ b)); [rewrite E, E', <- !app_assoc; reflexivity|exact Ha]. }
        split; [apply HR|]. intros Hu. assert (HX : exists u', leads h root a u').
        { assert (HF : leads h root steps2 (Ref p2)) by (apply (HA2 steps2 [] _ (eq_sym (app_nil_r _))); exact HLd2). rewrite E in HF. apply leads_app in HF as (u' & Hu' & _). exists u'. exact Hu'. }
        destruct HX as (u' & Hu'). rewrite (leads_functional _ _ _ _ (HR _ Hu') _ Hu). exact Hu'. }
      exists steps2, p2, n2, w2. split; [exact HP2|]. split; [exact HLd2|]. split; [intros a b u E; rewrite (HA2 a b u E); apply (HAg a b u E)|]. split; [|exact HM2].
      unfold h1. rewrite getattr_write; [exact HG2|]. destruct (Nat.eqb p p2 && String.eqb n n2) eqn:E; [|reflexivity]. apply andb_prop in E as [E1 E2]. apply Nat.eqb_eq in E1. apply String.eqb_eq in E2. subst p2 n2.
      exfalso. apply HNT. exists steps2, []. auto.
    + intros key1 v1 key2 v2 q m H1 H2. apply (HI key1 v1 key2 v2); right; assumption.
    + intros key2 v2 H2. exact (HT0 key2 v2 (or_intror H2)).
    + exists h'. assert (HX : Nat.ltb p (length h) = true). { rewrite getattr_stored in HG. destruct (nth_error h p) eqn:EO; [|discriminate]. apply Nat.ltb_lt, nth_error_Some. congruence. }
      split; [|split].
      * cbn [mmap map fst]. unfold bind at 1, one at 1. unfold bind at 1. cbn [fst snd]. rewrite HW. unfold ret at 1. unfold bind at 1. rewrite HMm. reflexivity.
      * intros key2 v2 q m [E|H2] HTq; [|exact (HSt key2 v2 q m H2 HTq)]. injection E as <- <-. destruct HTq as (s3 & w3 & HP3 & HL3 & HG3). rewrite HP in HP3. apply snoc_eq in HP3 as [<- <-].
        pose proof (leads_functional _ _ _ _ HLd _ HL3) as EP. injection EP as ->.
        destruct HCh as (_ & _ & HCh). rewrite HCh; [unfold h1; rewrite write_stored, HX, Nat.eqb_refl, String.eqb_refl; reflexivity|].
        intros (key2 & v2 & H2 & HTq). assert (HNE : key <> key2) by (intros ->; apply HNI; apply in_map_iff; exists (key2, v2); auto).
        apply (HI key v key2 v2 p n (or_introl eq_refl) (or_intror H2) HNE HT00). destruct HTq as (s4 & w4 & HP4 & HL4 & _). exists s4, []. auto.
      * destruct HCh as (C1 & C2 & C3). destruct (write_changed h p n v) as (W1 & W2 & W3). fold h1 in W1, W2, W3. split; [congruence|]. split.
        -- intros q o E. destruct (W2 q o E) as (o1 & E1 & EC1). destruct (C2 q o1 E1) as (o2 & E2 & EC2). exists o2. split; congruence.
        -- intros q m HQ. rewrite C3; [apply W3|].
           ++ intros [-> ->]. apply HQ. exists key, v. split; [left; reflexivity|exact HT00].
           ++ intros (k & u & H2 & HTq). apply HQ. exists k, u. split; [right; exact H2|exact HTq].
Qed.
Lemma wrapper_as_loop root kwargs h : wrapper root kwargs h =
  match mmap (one root) (PyList.sort (fun a b => Nat.ltb (count_us (fst a)) (count_us (fst b))) kwargs) h with (Ok l, h') => (Ok (root, map fst (filter snd l)), h') | (Raise e, h') => (Raise e, h') end.
Proof. reflexivity. Qed.
Lemma no_warnings (l : list (string * val)) : map fst (filter snd (map (fun kv => (fst kv, false)) l)) = @nil string.
Proof. induction l as [|kv l IH]; [reflexivity|exact IH]. Qed.
Lemma independent_keywords root kwargs h :
  NoDup (map fst kwargs) ->
  (forall key v, In (key, v) kwargs -> key <> "print_config"%string /\ exists p n, target h root key p n /\ n <> "matching_type"%string) ->
  (forall key1 v1 key2 v2 p n, In (key1, v1) kwargs -> In (key2, v2) kwargs -> key1 <> key2 -> target h root key1 p n -> ~ touches h root p n key2) ->
  exists h', wrapper root kwargs h = (Ok (root, []), h') /\
    (forall key v p n, In (key, v) kwargs -> target h root key p n -> stored h' p n = Some v) /\
    changed_only (fun p n => exists key v, In (key, v) kwargs /\ target h root key p n) h h'.
Proof.
  intros HND HT HI. rewrite wrapper_as_loop. set (l := PyList.sort _ kwargs).
  assert (HPm : Permutation kwargs l) by (apply Permutation_sym; unfold l; apply sort_perm).
  assert (HIn : forall key v, In (key, v) l -> In (key, v) kwargs) by (intros key v H; exact (Permutation_in _ (Permutation_sym HPm) H)).
  destruct (independent_loop root h l h) as (h' & HM & HS & HC).
  - apply (Permutation_NoDup (l := map fst kwargs)); [apply Permutation_map; exact HPm|exact HND].
  - intros key v H. destruct (HT key v (HIn _ _ H)) as (HK & p & n & (steps & w & HP & HL & HG) & HN). split; [apply String.eqb_neq; exact HK|]. exists steps, p, n, w. split; [exact HP|]. split; [exact HL|]. split; [intros a b v0 _; reflexivity|]. auto.
  - intros key1 v1 key2 v2 p n H1 H2. apply (HI key1 v1 key2 v2); auto.
  - intros key v H. destruct (HT key v (HIn _ _ H)) as (_ & p & n & HTp & _). exists p, n. exact HTp.
  - exists h'. rewrite HM, no_warnings. split; [reflexivity|]. split.
    + intros key v p n H. apply HS. exact (Permutation_in _ HPm H).
    + destruct HC as (C1 & C2 & C3). split; [exact C1|]. split; [exact C2|]. intros p n HQ. apply C3. intros (key & v & H & HTq). apply HQ. exists key, v. auto.
Qed.

(* ----- order ----- *)
Notation shallower := (fun a b : string * val => Nat.ltb (count_us (fst a)) (count_us (fst b))).
Lemma insert_shallow x l : StronglySorted (fun a b : string * val => (count_us (fst a) <= count_us (fst b))%nat) l -> StronglySorted (fun a b : string * val => (count_us (fst a) <= count_us (fst b))%nat) (insert shallower x l).
Proof.
  induction l as [|y l IH]; intros HS; cbn [insert]; [repeat constructor|]. inversion HS as [|? ? HS' HF]; subst. destruct (Nat.ltb (count_us (fst y)) (count_us (fst x))) eqn:E.
  - apply Nat.ltb_lt in E. constructor; [apply IH; exact HS'|]. rewrite Forall_forall in *. intros z HZ. assert (HZ' : In z (x :: l)) by (apply (Permutation_in _ (insert_perm shallower x l)); exact HZ). destruct HZ' as [<-|HZ']; [lia|exact (HF z HZ')].
  - apply Nat.ltb_ge in E. constructor; [exact HS|]. constructor; [exact E|]. rewrite Forall_forall in *. intros z HZ. specialize (HF z HZ). cbn in HF. lia.
Qed.
Lemma sort_shallow l : StronglySorted (fun a b : string * val => (count_us (fst a) <= count_us (fst b))%nat) (PyList.sort shallower l).
Proof. induction l as [|x l IH]; cbn; [constructor|]. apply insert_shallow. exact IH. Qed.
Lemma outer_first root kwargs h : exists order, Permutation kwargs order /\ StronglySorted (fun a b => (count_us (fst a) <= count_us (fst b))%nat) order /\
  wrapper root kwargs h = match mmap (fun kv => let* w := wrap_one root (fst kv) (snd kv) in ret (fst kv, w)) order h with (Ok l, h') => (Ok (root, map fst (filter snd l)), h') | (Raise e, h') => (Raise e, h') end.
Proof. exists (PyList.sort shallower kwargs). split; [apply Permutation_sym, sort_perm|]. split; [apply sort_shallow|reflexivity]. Qed.

(* ----- an object and its settings ----- *)
Lemma object_and_settings root k c settings kwargs h steps p n w :
  ends_in_underscore k = false -> k <> "print_config"%string -> path_of k = steps ++ [n] -> leads h root steps (Ref p) -> getattr h (Ref p) n = Ok w -> n <> "matching_type"%string ->
  (forall a b, steps = a ++ b -> ~ leads h root a (Ref c)) -> (forall a b, steps = a ++ n :: b -> ~ leads h root a (Ref p)) ->
  (forall a v, In (a, v) settings -> path_of a = [a] /\ count_us a = 0%nat /\ (exists u, getattr h (Ref c) a = Ok u) /\ a <> "matching_type"%string) -> NoDup (map fst settings) ->
  Permutation ((k, Ref c) :: map (fun av => (k ++ "__" ++ fst av, snd av)%string) settings) kwargs ->
  exists h', wrapper root kwargs h = (Ok (root, []), h') /\ stored h' p n = Some (Ref c) /\ (forall a v, In (a, v) settings -> stored h' c a = Some v) /\
    changed_only (fun q m => (q = p /\ m = n) \/ (q = c /\ exists v, In (m, v) settings)) h h'.
Proof.
  intros HU HK HP HL HG HM HC HN HS HND HPm. set (subs := map (fun av => (k ++ "__" ++ fst av, snd av)%string) settings) in *.
  assert (HKey : forall a v, In (a, v) settings -> path_of (k ++ "__" ++ a) = (steps ++ [n]) ++ [a] /\ count_us (k ++ "__" ++ a) = S (count_us k)).
  { intros a v HI. destruct (HS a v HI) as (H1 & H2 & _). destruct (key_names_path k a HU) as [E1 E2]. rewrite E1, E2, H1, H2, HP. split; [reflexivity|lia]. }
  assert (HPC : p <> c) by (intros ->; exact (HC steps [] (eq_sym (app_nil_r _)) HL)).
  assert (HSort : exists l', PyList.sort shallower kwargs = (k, Ref c) :: l' /\ Permutation subs l').
  { pose proof (sort_shallow kwargs) as HSS. assert (HP1 : Permutation ((k, Ref c) :: subs) (PyList.sort shallower kwargs)) by (eapply Permutation_trans; [exact HPm|apply Permutation_sym, sort_perm]).
    destruct (PyList.sort shallower kwargs) as [|y l'] eqn:ES; [apply Permutation_sym, Permutation_nil in HP1; discriminate|]. assert (EY : y = (k, Ref c)).
    { assert (HY : In y ((k, Ref c) :: subs)) by (apply (Permutation_in _ (Permutation_sym HP1)); left; reflexivity). destruct HY as [<-|HY]; [reflexivity|]. exfalso. unfold subs in HY. apply in_map_iff in HY as ([a v] & <- & HI).
      destruct (HKey a v HI) as [HPk HCk]. assert (HX : In (k, Ref c) ((k ++ "__" ++ a, v)%string :: l')) by (apply (Permutation_in _ HP1); left; reflexivity). destruct HX as [E|HX].
      - apply (f_equal (fun kv => count_us (fst kv))) in E. cbn [fst] in E. rewrite HCk in E. lia.
      - inversion HSS as [|? ? _ HF]; subst. rewrite Forall_forall in HF. specialize (HF _ HX). change (count_us (k ++ "__" ++ a) <= count_us k)%nat in HF. rewrite HCk in HF. lia. }
    subst y. exists l'. split; [reflexivity|]. exact (Permutation_cons_inv HP1). }
  destruct HSort as (l' & ES & HPl). set (h1 := write h p n (Ref c)).
  assert (HO : exists o, nth_error h p = Some o) by (rewrite getattr_stored in HG; destruct (nth_error h p) as [o|]; [exists o; reflexivity|discriminate]). destruct HO as (o & HO).
  assert (HX : Nat.ltb p (length h) = true) by (apply Nat.ltb_lt, nth_error_Some; congruence).
  assert (HL1 : forall u, leads h root steps u -> leads h1 root steps u) by (intros u Hu; apply leads_write; [exact Hu|exact HN]).
  assert (HG1 : getattr h1 (Ref p) n = Ok (Ref c)). { rewrite getattr_stored. unfold h1 at 2. rewrite write_stored, Nat.eqb_refl, String.eqb_refl, HX. unfold h1. rewrite write_nth, Nat.eqb_refl, HO. reflexivity. }
  assert (HLc : leads h1 root (steps ++ [n]) (Ref c)) by (apply leads_app; exists (Ref p); split; [apply HL1; exact HL|econstructor; [exact HG1|constructor]]).
  assert (HGc : forall a v, In (a, v) settings -> exists u, getattr h1 (Ref c) a = Ok u). { intros a v HI. destruct (HS a v HI) as (_ & _ & (u & Hu) & _). exists u. unfold h1. rewrite getattr_write; [exact Hu|]. apply Nat.eqb_neq in HPC. rewrite HPC. reflexivity. }
  assert (HIn : forall key v, In (key, v) l' -> exists a, key = (k ++ "__" ++ a)%string /\ In (a, v) settings).
  { intros key v HI. apply (Permutation_in _ (Permutation_sym HPl)) in HI. unfold subs in HI. apply in_map_iff in HI as ([a v'] & E & HI). cbn [fst snd] in E. exists a. split; congruence. }
  assert (HTg : forall a v q m, In (a, v) settings -> target h1 root (k ++ "__" ++ a) q m -> q = c /\ m = a).
  { intros a v q m HI (s & u & E & Hl & _). destruct (HKey a v HI) as [HPk _]. rewrite HPk in E. apply snoc_eq in E as [<- <-]. pose proof (leads_functional _ _ _ _ HLc _ Hl) as EQ. injection EQ as ->. auto. }
  assert (HTgt : forall a v, In (a, v) settings -> target h1 root (k ++ "__" ++ a) c a).
  { intros a v HI. destruct (HKey a v HI) as [HPk _]. destruct (HGc a v HI) as (u & Hu). exists (steps ++ [n]), u. auto. }
  destruct (independent_loop root h1 l' h1) as (h' & HMm & HSt & HCh).
  - apply (Permutation_NoDup (l := map fst subs)); [apply Permutation_map; exact HPl|]. unfold subs. rewrite map_map. cbn [fst].
    assert (HKI : forall a v, In (a, v) settings -> path_of (k ++ "__" ++ a) = (steps ++ [n]) ++ [a]) by (intros a v HI; apply (HKey a v HI)). clear - HKI HND. induction settings as [|[a v] l IH]; cbn; [constructor|].
    cbn in HND. inversion HND as [|? ? H1 H2]; subst. constructor; [|apply IH; [exact H2|intros b u HI; apply (HKI b u); right; exact HI]]. intros HI. apply in_map_iff in HI as ([b u] & E & HI). cbn [fst] in E.
    apply H1. apply in_map_iff. exists (b, u). split; [|exact HI]. cbn [fst]. pose proof (HKI a v (or_introl eq_refl)) as E1. pose proof (HKI b u (or_intror HI)) as E2. assert (E3 : path_of (k ++ "__" ++ b) = path_of (k ++ "__" ++ a)) by exact (f_equal path_of E). rewrite E1, E2 in E3. apply snoc_eq in E3 as [_ E3]. congruence.
  - intros key v HI. destruct (HIn key v HI) as (a & -> & HI'). destruct (HKey a v HI') as [HPk HCk]. destruct (HGc a v HI') as (u & Hu). split.
    + apply String.eqb_neq. intros E. rewrite E in HCk. vm_compute in HCk. discriminate.
    + exists (steps ++ [n]), c, a, u. split; [exact HPk|]. split; [exact HLc|]. split; [intros x y v0 _; reflexivity|]. split; [exact Hu|]. apply (HS a v HI').
  - intros key1 v1 key2 v2 q m H1 H2 HNE HT (before & after & E & HB). destruct (HIn _ _ H1) as (a1 & -> & HI1). destruct (HIn _ _ H2) as (a2 & -> & HI2).
    destruct (HTg a1 v1 q m HI1 HT) as [-> ->]. destruct (HKey a2 v2 HI2) as [HP2 _]. rewrite HP2 in E. destruct (@exists_last _ (a1 :: after)) as (aft & z & EZ); [discriminate|]. rewrite EZ in E. rewrite app_assoc in E. apply snoc_eq in E as [E1 E2].
    destruct aft as [|x aft]; [cbn in EZ; injection EZ as EZ1 EZ2; apply HNE; rewrite EZ1, <- E2; reflexivity|]. destruct (@exists_last _ (x :: aft)) as (mid & y & EY); [discriminate|]. rewrite EY in E1. rewrite app_assoc in E1. apply snoc_eq in E1 as [E1 _].
    assert (HLb : exists u, leads h root before u) by (rewrite E1 in HL; apply leads_app in HL as (u & Hu & _); exists u; exact Hu). destruct HLb as (u & Hu).
    assert (Hu1 : leads h1 root before u). { apply leads_write; [exact Hu|]. intros x1 y1 EB. apply (HN x1 (y1 ++ mid)). rewrite E1, EB, <- app_assoc. reflexivity. }
    rewrite <- (leads_functional _ _ _ _ Hu1 _ HB) in Hu. exact (HC before mid E1 Hu).
  - intros key v HI. destruct (HIn key v HI) as (a & -> & HI'). exists c, a. exact (HTgt a v HI').
  - exists h'. assert (HW : wrap_one root k (Ref c) h = (Ok false, h1)) by (apply (wrap_known root k (Ref c) h p n); [apply String.eqb_neq; exact HK|exists steps, w; auto|exact HM]).
    destruct HCh as (C1 & C2 & C3). destruct (write_changed h p n (Ref c)) as (W1 & W2 & W3). fold h1 in W1, W2, W3.
    split; [|split; [|split]].
    + rewrite wrapper_as_loop, ES. cbn [mmap]. unfold bind at 1, one at 1. unfold bind at 1. cbn [fst snd]. rewrite HW. unfold ret at 1. unfold bind at 1. rewrite HMm. unfold ret. cbn [filter snd]. rewrite no_warnings. reflexivity.
    + rewrite C3; [unfold h1; rewrite write_stored, Nat.eqb_refl, String.eqb_refl, HX; reflexivity|]. intros (key & v & HI & HT). destruct (HIn _ _ HI) as (a & -> & HI'). destruct (HTg a v p n HI' HT) as [E _]. congruence.
    + intros a v HI. apply (HSt (k ++ "__" ++ a)%string v c a); [|exact (HTgt a v HI)]. apply (Permutation_in _ HPl). unfold subs. apply in_map_iff. exists (a, v). auto.
    + split; [congruence|]. split.
      * intros q o0 E. destruct (W2 q o0 E) as (o1 & E1 & EC1). destruct (C2 q o1 E1) as (o2 & E2 & EC2). exists o2. split; congruence.
      * intros q m HQ. rewrite C3; [apply W3|].
        -- intros HE. apply HQ. left. exact HE.
        -- intros (key & v & HI & HT). apply HQ. right. destruct (HIn _ _ HI) as (a & -> & HI'). destruct (HTg a v q m HI' HT) as [-> ->]. split; [reflexivity|]. exists v. exact HI'.
Qed.

(* ----- any keywords ----- *)
Definition may_change (key : string) (n : string) : Prop :=
  last (path_of key) ""%string = n \/ (last (path_of key) ""%string = "matching_type"%string /\ In n ["execute"; "generate_matching_function"]%string).
Lemma wrap_frame root key v h : let (r, h') := wrap_one root key v h in shape h h' /\ (r = Ok true -> h' = h) /\ (key = "print_config"%string -> h' = h) /\ forall p m, stored h' p m = stored h p m \/ may_change key m.
Proof.
  unfold M_Objects.wrap_one. destruct (String.eqb key "print_config") eqn:EK; [cbn; split; [apply shape_refl|]; auto|]. unfold bind at 1, get. cbv zeta. set (o := walk classes builtins h root (removelast (path_of key))). set (n := last (path_of key) ""%string).
  destruct (hasattr classes builtins h o n) eqn:EH; [|cbn; split; [apply shape_refl|]; auto]. destruct o as [a|p]; [cbn; split; [apply shape_refl|]; auto|].
  assert (HO : exists ob, nth_error h p = Some ob) by (unfold hasattr in EH; rewrite getattr_stored in EH; destruct (nth_error h p) as [ob|]; [exists ob; reflexivity|discriminate]). destruct HO as (ob & HO).
  pose proof (setattr_effect classes builtins p n v h ob HO) as HE. unfold bind. destruct (setattr (Ref p) n v h) as [[u|e] h1]; unfold ret; cbn [snd] in HE; subst h1.
  all: assert (HX : shape h (if String.eqb n "matching_type" then match hook (ckind (classes (cls ob))) (class_of h v) with Some (hn, hm) => write (write h p n v) p hn (Prim (AMember hm)) | None => write h p n v end else write h p n v) /\
    forall q m, stored (if String.eqb n "matching_type" then match hook (ckind (classes (cls ob))) (class_of h v) with Some (hn, hm) => write (write h p n v) p hn (Prim (AMember hm)) | None => write h p n v end else write h p n v) q m = stored h q m \/ may_change key m).
  1,3: (assert (HW : forall q m, stored (write h p n v) q m = stored h q m \/ may_change key m) by (intros q m; rewrite write_stored; destruct (Nat.eqb p q && String.eqb n m) eqn:E; [right; left; apply andb_prop in E as [_ E]; apply String.eqb_eq in E; exact E|left; reflexivity]);
    destruct (String.eqb n "matching_type") eqn:EM; [|split; [apply shape_write|exact HW]]; destruct (hook (ckind (classes (cls ob))) (class_of h v)) as [[hn hm]|] eqn:EHk; [|split; [apply shape_write|exact HW]];
    split; [exact (shape_trans _ _ _ (shape_write _ _ _ _) (shape_write _ _ _ _))|]; intros q m; rewrite write_stored; destruct (Nat.eqb p q && String.eqb hn m) eqn:E; [|apply HW];
    right; right; apply String.eqb_eq in EM; split; [exact EM|]; apply andb_prop in E as [_ E]; apply String.eqb_eq in E; subst m;
    unfold hook in EHk; destruct (ckind (classes (cls ob))); [discriminate| |]; repeat match type of EHk with (if ?b then _ else _) = _ => destruct b end; inversion EHk; cbn; auto).
  all: destruct HX as [HX1 HX2]; split; [exact HX1|]; split; [discriminate|]; split; [intros ->; vm_compute in EK; discriminate|exact HX2].
Qed.
Lemma loop_frame root : forall l h, let (r, h') := mmap (one root) l h in shape h h' /\
  (forall ws, r = Ok ws -> map fst ws = map fst l) /\
  forall p m, stored h' p m = stored h p m \/ exists key v, In (key, v) l /\ key <> "print_config"%string /\ may_change key m /\ forall ws, r = Ok ws -> In (key, false) ws.
Proof.
  induction l as [|[key v] l IH]; intros h; cbn [mmap]; [cbn; split; [apply shape_refl|]; split; [intros ws E; injection E as <-; reflexivity|left; reflexivity]|].
  unfold bind at 1, one at 1. unfold bind at 1. cbn [fst snd]. pose proof (wrap_frame root key v h) as HW. destruct (wrap_one root key v h) as [[w|e] h1]; destruct HW as (S1 & S2 & S3 & S4).
  - unfold ret at 1. unfold bind at 1. specialize (IH h1). destruct (mmap (one root) l h1) as [[ws|e] h2]; destruct IH as (I1 & I2 & I3); unfold ret.
    + split; [exact (shape_trans _ _ _ S1 I1)|]. split; [intros ws' E; injection E as <-; cbn; f_equal; apply I2; reflexivity|]. intros p m. destruct (I3 p m) as [E|(k & u & HI & HK & HC & HW)].
      * rewrite E. destruct (S4 p m) as [E'|HC]; [left; exact E'|]. destruct w; [rewrite (S2 eq_refl); left; reflexivity|]. destruct (string_dec key "print_config") as [EK|NK]; [rewrite (S3 EK); left; reflexivity|].
        right. exists key, v. split; [left; reflexivity|]. split; [exact NK|]. split; [exact HC|]. intros ws' E'. injection E' as <-. left. reflexivity.
      * right. exists k, u. split; [right; exact HI|]. split; [exact HK|]. split; [exact HC|]. intros ws' E'. injection E' as <-. right. apply HW. reflexivity.
    + split; [exact (shape_trans _ _ _ S1 I1)|]. split; [discriminate|]. intros p m. destruct (I3 p m) as [E|(k & u & HI & HK & HC & HW)].
      * rewrite E. destruct (S4 p m) as [E'|HC]; [left; exact E'|]. destruct (string_dec key "print_config") as [EK|NK]; [rewrite (S3 EK); left; reflexivity|].
        right. exists key, v. split; [left; reflexivity|]. split; [exact NK|]. split; [exact HC|]. discriminate.
      * right. exists k, u. split; [right; exact HI|]. split; [exact HK|]. split; [exact HC|]. discriminate.
  - split; [exact S1|]. split; [discriminate|]. intros p m. destruct (S4 p m) as [E'|HC]; [left; exact E'|]. destruct (string_dec key "print_config") as [EK|NK]; [rewrite (S3 EK); left; reflexivity|].
    right. exists key, v. split; [left; reflexivity|]. split; [exact NK|]. split; [exact HC|]. discriminate.
Qed.
Lemma nothing_else root kwargs h r h' : NoDup (map fst kwargs) -> wrapper root kwargs h = (r, h') ->
  (forall x warned, r = Ok (x, warned) -> x = root /\ incl warned (map fst kwargs)) /\
  changed_only (fun p m => exists key v, In (key, v) kwargs /\ key <> "print_config"%string /\ (forall x warned, r = Ok (x, warned) -> ~ In key warned) /\
     (last (path_of key) ""%string = m \/ (last (path_of key) ""%string = "matching_type"%string /\ In m ["execute"; "generate_matching_function"]%string))) h h'.
Proof.
  intros HND. rewrite wrapper_as_loop. set (l := PyList.sort _ kwargs). pose proof (loop_frame root l h) as HL.
  assert (HPm : Permutation l kwargs) by (unfold l; apply sort_perm). assert (HNDl : NoDup (map fst l)) by (apply (Permutation_NoDup (l := map fst kwargs)); [apply Permutation_map, Permutation_sym, HPm|exact HND]).
  assert (HFst : forall (ws : list (string * bool)) k, map fst ws = map fst l -> In (k, false) ws -> ~ In k (map fst (filter snd ws))).
  { intros ws k E HI HW. assert (HN : NoDup (map fst ws)) by (rewrite E; exact HNDl). apply in_map_iff in HW as ([k' b] & EK & HF). cbn in EK. subst k'. apply filter_In in HF as [HF EB]. cbn in EB. subst b. clear - HN HI HF.
    induction ws as [|[a b] ws IH]; [destruct HI|]. cbn in HN. inversion HN as [|? ? H1 H2]; subst. destruct HI as [EI|HI], HF as [EF|HF].
    - congruence.
    - injection EI as -> ->. apply H1. apply in_map_iff. exists (k, true). auto.
    - injection EF as -> ->. apply H1. apply in_map_iff. exists (k, false). auto.
    - exact (IH HI HF H2). }
  destruct (mmap (one root) l h) as [[ws|e] h1]; destruct HL as (L1 & L2 & L3); intros HE; injection HE as <- <-.
  - specialize (L2 ws eq_refl). split.
    + intros x warned E. injection E as <- <-. split; [reflexivity|]. intros k HI. apply in_map_iff in HI as ([k' b] & <- & HF). apply filter_In in HF as [HF _]. apply (Permutation_in _ (Permutation_map fst HPm)). rewrite <- L2. apply in_map. exact HF.
    + split; [apply L1|]. split; [apply L1|]. intros p m HQ. destruct (L3 p m) as [E|(k & u & HI & HK & HC & HW)]; [exact E|]. exfalso. apply HQ. exists k, u. split; [exact (Permutation_in _ HPm HI)|]. split; [exact HK|]. split; [|exact HC].
      intros x warned E. injection E as _ <-. apply HFst; [exact L2|]. apply HW. reflexivity.
  - split; [discriminate|]. split; [apply L1|]. split; [apply L1|]. intros p m HQ. destruct (L3 p m) as [E|(k & u & HI & HK & HC & HW)]; [exact E|]. exfalso. apply HQ. exists k, u. split; [exact (Permutation_in _ HPm HI)|]. split; [exact HK|]. split; [discriminate|exact HC].
Qed.
End World.
