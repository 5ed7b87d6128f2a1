(* experience_weight = 0 silences every rule. *)
From Verif Require Import PyNum PyList PyMon PyRng L_Num L_List M_Matching M_Rule M_Mixing.
From Coq Require Import Lqa.

Definition nought (l : list Q) : Prop := Forall (fun v => v == 0) l.
Lemma repeat_nought n : nought (repeat 0 n).
Proof. induction n; cbn; constructor; [reflexivity|assumption]. Qed.
Lemma plus_nought : forall a b, nought a -> nought b -> nought (map2 Qplus a b).
Proof. induction a as [|x a IH]; intros [|z b] Ha Hb; cbn; try constructor; inversion Ha; inversion Hb; subst; [lra|apply IH; assumption]. Qed.
Lemma div_nought : forall a b, nought a -> nought (map2 Qdiv a b).
Proof. induction a as [|x a IH]; intros [|z b] Ha; cbn; try constructor; inversion Ha; subst; [|apply IH; assumption]. unfold Qdiv. rewrite H1. ring. Qed.
Lemma vsum_nought n rows : Forall nought rows -> nought (vsum n rows).
Proof. induction 1 as [|r rows Hr _ IH]; cbn; [apply repeat_nought|apply plus_nought; assumption]. Qed.
Lemma tau_nought L mx dim r t : mweight mx == 0 -> tau L mx dim r = Ok t -> t == 0.
Proof.
  intros Hw. unfold tau. destruct (get_att L r) as [a|x]; [|discriminate]. cbn [rbind]. destruct (match error a with Fin e => if qeq e 0 then Raise NotModelled else Ok (1 / e) | PInf => Ok 0 | _ => Raise NotModelled end) as [inv|x]; [|discriminate]. cbn [rbind]. intros E. injection E as <-. rewrite Hw. ring.
Qed.
Lemma rmap_nought L mx dim : mweight mx == 0 -> forall rs ts, rmap (tau L mx dim) rs = Ok ts -> nought ts.
Proof.
  intros Hw. induction rs as [|r rs IH]; intros ts; cbn; [intros E; injection E as <-; constructor|]. destruct (tau L mx dim r) as [t|x] eqn:E; [|discriminate]. cbn. destruct (rmap (tau L mx dim) rs) as [ts'|x]; [|discriminate]. cbn. intros H. injection H as <-. constructor; [apply (tau_nought L mx dim r t Hw E)|apply IH; reflexivity].
Qed.
Lemma scaled_nought {A} (lps : list (A * list Q)) ts : nought ts -> Forall nought (map2 (fun lp t => map (fun v => v * t) (snd lp)) lps ts).
Proof.
  revert ts. induction lps as [|lp lps IH]; intros [|t ts] H; cbn; try constructor; inversion H; subst; [|apply IH; assumption]. apply Forall_map, Forall_forall. intros v _. rewrite H2. ring.
Qed.
Lemma mix_nought L mx X rs cache p : mweight mx == 0 -> mix L mx X rs cache = Ok p -> nought p.
Proof.
  intros Hw. unfold mix. destruct (rmap (local_pred L X cache) rs) as [lps|x]; [|discriminate]. cbn [rbind]. destruct (rmap (tau L mx (row_len X)) rs) as [ts|x] eqn:E; [|discriminate]. cbn [rbind]. cbv zeta. destruct (rmap _ (combine _ _)) as [lts|x]; [|discriminate]. cbn [rbind]. intros H. injection H as <-.
  apply div_nought, vsum_nought, scaled_nought. apply (rmap_nought L mx _ Hw rs ts E).
Qed.
Lemma predict_nought L mx bits pool X cache g p : mweight mx == 0 -> fst (sol_predict L mx bits pool X cache g) = Ok p -> nought p.
Proof.
  intros Hw. unfold sol_predict. destruct (subpopulation L bits pool) as [rs|x]; [|discriminate]. unfold mixing_call. destruct rs as [|r rs]; [cbn; intros E; injection E as <-; apply repeat_nought|]. destruct (apply_filter L (mfilter mx) (r :: rs) g) as [[rs'|x] g']; [|discriminate]. cbn [fst]. apply mix_nought. exact Hw.
Qed.
