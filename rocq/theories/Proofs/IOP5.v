From Coq Require Import ZArith Ascii.
From Verif Require Import Base.Res Base.Num Base.SMap Model.Axis Model.Event Model.Hist Model.Shrink Model.Data Model.IO Spec.AxisSpec Spec.HistSpec Spec.IOSpec Proofs.IOP Proofs.IOP4 Proofs.HistP.
From Coq Require Import Lia.
Local Open Scope nat_scope.
Lemma lastDot_none s : no_char "."%char s -> lastDot s = None.
Proof. induction s as [|c s IH]; cbn; [reflexivity|]. intros [N H]. rewrite IH by exact H. destruct (Ascii.eqb_spec c "."%char); [congruence|reflexivity]. Qed.
Lemma lastDot_last p e : no_char "."%char e -> lastDot (p ++ String "."%char e) = Some e.
Proof. intros H. induction p as [|c p IH]; cbn [String.append lastDot]; [rewrite lastDot_none by exact H; reflexivity|rewrite IH; reflexivity]. Qed.
Lemma ext_pkg p e : no_char "."%char e -> getExt (p ++ String "."%char e) = Ok e /\ getExt e = Throw IOError.
Proof. intros H. unfold getExt. rewrite lastDot_last by exact H. rewrite lastDot_none by exact H. auto. Qed.
Lemma format_pkg p e : no_char "."%char e -> forall d h,
  (e = "h5"%string -> saveDataSet d (p ++ String "."%char e) = bind (saveData d) (fun f => Ok (SavedH5 f)) /\ saveHistogram h (p ++ String "."%char e) = bind (saveHist h) (fun f => Ok (SavedH5 f))) /\
  (e = "root"%string -> saveDataSet d (p ++ String "."%char e) = Ok (match dNames d with [] => SavedNothing | _ => SavedRoot end) /\
     (h_reach h -> saveHistogram h (p ++ String "."%char e) = if Nat.leb (List.length (shape_of h)) 2 then Ok SavedRoot else Throw IOError)) /\
  (e <> "h5"%string -> e <> "root"%string -> saveDataSet d (p ++ String "."%char e) = Throw IOError /\ saveHistogram h (p ++ String "."%char e) = Throw IOError) /\
  saveDataSet d e = Throw IOError /\ saveHistogram h e = Throw IOError.
Proof.
  intros H d h. destruct (ext_pkg p e H) as [E1 E2]. unfold saveDataSet, saveHistogram. rewrite E1, E2. cbn [bind]. split; [intros ->; auto|]. split; [|split; [|auto]].
  - intros ->. cbn [String.eqb Ascii.eqb Bool.eqb]. split; [reflexivity|]. intros R. apply h_reach_ok in R. pose proof (h_ok_ndims h R) as D. rewrite D. rewrite h_ok_shape_len.
    destruct R as [_ [Ne _]]. destruct (acAxes (hAxes h)) as [|a [|b [|c l]]]; [congruence|reflexivity..].
  - intros A B. apply String.eqb_neq in A. apply String.eqb_neq in B. rewrite A, B. auto.
Qed.
Lemma nul_gen s t : no_char Ascii.zero s -> forall n, String.length s <= n -> cut_nul (substring 0 n (s ++ String Ascii.zero t)) = s.
Proof.
  induction s as [|c s IH]; cbn [no_char String.length String.append]; intros H n Hn.
  - destruct n; reflexivity.
  - destruct n as [|n]; [lia|]. destruct H as [Hc H]. cbn [substring cut_nul]. destruct (Ascii.eqb_spec c Ascii.zero); [contradiction|]. rewrite IH by (exact H || lia). reflexivity.
Qed.
Lemma nul_pkg s t : no_char Ascii.zero s -> String.length s <= 64 -> attr64 (s ++ String Ascii.zero t) = s.
Proof. intros H L. apply nul_gen; assumption. Qed.
