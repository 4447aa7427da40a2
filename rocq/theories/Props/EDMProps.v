(** C83 *)
From Coq Require Import ZArith.
From Verif Require Import Base.Res Base.Num Base.SMap Model.Axis Model.Event Model.Hist Model.ED Model.Param Model.Comp Model.EDM Spec.HistSpec Spec.ParamSpec Spec.EDMSpec
  Proofs.EDMP Props.HistProps Props.CutProps Props.CompProps.
Local Open Scope Qc_scope.
Local Open Scope res_scope.

(** after any calls, the probability is the sum over the distributions held, each times its normalisation *)
Theorem C83_probability (ops : list xop) (e : event) (ps : list Qc) : let held := held_after ops in let s := xrun ops in
  Forall2 (fun d p => dprob e d = Ok p) held ps ->
  xm_prob s e = Ok (qsum (map (fun np => fst np * snd np) (combine (xmNorms s) ps))) /\
  List.length (xmNorms s) = List.length held /\ xmNDists s = List.length held /\ (forall d t, held = d :: t -> xmNDims s = dndims d).
Proof. exact (prob_pkg ops e ps). Qed.
Print Assumptions C83_probability.
(** adding: the normalisations so far stay, the new one is 0, the parameters are named after the distributions; a distribution of another dimension is refused *)
Theorem C83_add (ops : list xop) (d : dist) : let held := held_after ops in let s := xrun ops in
  (fits held d -> exists s', xm_add s d = (s', Ok tt) /\ xmNorms s' = xmNorms s ++ [0] /\ (Forall keeps_name (held ++ [d]) -> labelled s' (held ++ [d]))) /\
  (~ fits held d -> xm_add s d = (s, Throw DimensionError)).
Proof. exact (add_pkg ops d). Qed.
Print Assumptions C83_add.
(** adding a list stops at the first that does not fit, keeping those before it *)
Theorem C83_add_list (ops : list xop) (l : list dist) : let held := held_after ops in let s := xrun ops in
  exists s' t rest, l = t ++ rest /\ (forall d r', rest = d :: r' -> ~ fits (held ++ t) d) /\
    xm_adds s l = (s', match rest with [] => Ok tt | _ => Throw DimensionError end) /\
    xmNorms s' = xmNorms s ++ repeat 0 (List.length t) /\ (Forall keeps_name (held ++ t) -> t <> [] -> labelled s' (held ++ t)) /\ held_after (ops ++ [XAdds l]) = held ++ t.
Proof. exact (adds_pkg ops l). Qed.
Print Assumptions C83_add_list.
Theorem C83_set_normalisations (ops : list xop) (l : list Qc) : let held := held_after ops in let s := xrun ops in
  (List.length l <> List.length held -> xm_setNorms s l = (s, Throw DimensionError)) /\
  (List.length l = List.length held -> exists s', xm_setNorms s l = (s', Ok tt) /\ xmNorms s' = l /\ xm_names s' = xm_names s /\
     forall e ps, Forall2 (fun d p => dprob e d = Ok p) held ps -> xm_prob s' e = Ok (qsum (map (fun np => fst np * snd np) (combine l ps)))).
Proof. exact (norms_pkg ops l). Qed.
Print Assumptions C83_set_normalisations.
(** a parameter is one of the normalisations, whatever it is called now; setting it changes that one only *)
Theorem C83_set_parameter (ops : list xop) (n : string) (v : Qc) : let s := xrun ops in
  (~ In n (xm_names s) -> xm_set s n v = (s, Throw ParameterError)) /\
  (In n (xm_names s) -> exists s' i, xm_set s n v = (s', Ok tt) /\ (i < List.length (xmNorms s))%nat /\ xm_get s n = Ok (nth i (xmNorms s) 0) /\
     xmNorms s' = upd (xmNorms s) i v /\ xm_get s' n = Ok v /\ xm_names s' = xm_names s /\ forall m, m <> n -> xm_get s' m = xm_get s m).
Proof. exact (set1_pkg ops n v). Qed.
Print Assumptions C83_set_parameter.
(** parameters of a manager nobody renamed in, holding distributions whose copies keep their names *)
Theorem C83_labels_partial (ops : list xop) : Forall (fun o => ~ renames o) ops -> Forall keeps_name (held_after ops) -> labelled (xrun ops) (held_after ops).
Proof. exact (labels_pkg ops). Qed.
Print Assumptions C83_labels_partial.
Theorem C83_set_parameters_partial (ops : list xop) (d : smap Qc) : let held := held_after ops in let s := xrun ops in
  Forall (fun o => ~ renames o) ops -> Forall keeps_name held -> 
  (NoDup (map dname held) -> (forall n, In n (map dname held) -> has_key d n) ->
   exists s', xm_setAll s d = (s', Ok tt) /\ xmNorms s' = map (fun x => value_in d (dname x)) held /\ labelled s' held /\
     forall e ps, Forall2 (fun x p => dprob e x = Ok p) held ps -> xm_prob s' e = Ok (qsum (map (fun xp => value_in d (dname (fst xp)) * snd xp) (combine held ps)))) /\
  ((exists n, In n (map dname held) /\ ~ has_key d n) -> snd (xm_setAll s d) = Throw ParameterError).
Proof. exact (setAll_pkg ops d). Qed.
Print Assumptions C83_set_parameters_partial.

Definition ex_xe := DBin ex_be.
Definition ex_xr := DBin ex_br.
(** two distributions of one name: the parameter sets the second only, and the first keeps its normalisation of 0 *)
Theorem C83_same_name_refuted : exists ops d s', Forall (fun o => ~ renames o) ops /\ Forall keeps_name (held_after ops) /\ List.length (held_after ops) = 2%nat /\
  (forall n, In n (map dname (held_after ops)) -> has_key d n) /\ xm_setAll (xrun ops) d = (s', Ok tt) /\ xm_count s' = 1%nat /\
  xmNorms s' = [0; qz 7] /\ xmNorms s' <> map (fun x => value_in d (dname x)) (held_after ops).
Proof.
  exists [XAdd ex_xe; XAdd ex_xe], (sof [("e", qz 7)]%string). eexists. split; [repeat constructor; cbn; auto|]. split; [repeat constructor|]. split; [reflexivity|].
  split; [intros n [<-|[<-|[]]]; eexists; reflexivity|]. split; [vm_compute; reflexivity|]. split; [reflexivity|]. split.
  - unfold xmNorms. cbn. repeat f_equal; apply Qc_is_canon; vm_compute; reflexivity.
  - intros C. apply (f_equal (fun l => this (nth 0 l 0))) in C. vm_compute in C. discriminate.
Qed.
Print Assumptions C83_same_name_refuted.
(** renaming a parameter is forgotten when a distribution is added (even by adding none) *)
Theorem C83_rename_lost_refuted : exists ops o n s1, xm_rename (xrun ops) o n = (s1, Ok tt) /\ In n (xm_names s1) /\ ~ In o (xm_names s1) /\
  ~ In n (xm_names (fst (xm_adds s1 []))) /\ In o (xm_names (fst (xm_adds s1 []))) /\ ~ In n (xm_names (fst (xm_add s1 ex_xr))).
Proof.
  exists [XAdd ex_xe], "e"%string, "energy norm"%string. eexists. split; [vm_compute; reflexivity|].
  split; [vm_compute; tauto|]. split; [vm_compute; intuition discriminate|]. split; [vm_compute; intuition discriminate|]. split; [vm_compute; tauto|]. vm_compute; intuition discriminate.
Qed.
Print Assumptions C83_rename_lost_refuted.
(** the parameter of a composite is named after its parts, not after the name it was given *)
Theorem C83_composite_name_refuted : exists d, dname d = "signal"%string /\ xm_names (fst (xm_add xm_new d)) = ["e*r"%string].
Proof. exists (dsetName "signal" (dtimes ex_xe ex_xr)). split; [reflexivity|]. vm_compute. reflexivity. Qed.
Print Assumptions C83_composite_name_refuted.

Definition ex_xops : list xop := [XAdd ex_xe; XSet "e" (qz 3); XAdds [ex_xr; DComp "e*r" [ex_xe; ex_xr]; ex_xe]; XNorms [qz 1; qz 2]; XSet "q" 0]%string.
Definition ex_xd : smap Qc := sof [("e", qz 7); ("r", qz 4)]%string.
Example C83_nonvacuous : map dname (held_after ex_xops) = ["e"; "r"]%string /\ NoDup (map dname (held_after ex_xops)) /\
  Forall keeps_name (held_after ex_xops) /\ Forall (fun o => ~ renames o) ex_xops /\ (forall n, In n (map dname (held_after ex_xops)) -> has_key ex_xd n) /\
  fits (held_after ex_xops) ex_xe /\ ~ fits (held_after ex_xops) (dtimes ex_xe ex_xr) /\ xm_names (xrun ex_xops) = ["e"; "r"]%string /\
  Forall2 (fun d p => dprob (ex_ev 1 3) d = Ok p) (held_after ex_xops) [qq 1 15; qq 1 6] /\
  xm_prob (fst (xm_setAll (xrun ex_xops) ex_xd)) (ex_ev 1 3) = Ok (qq 17 15) /\ xmNorms (xrun ex_xops) = [qz 1; qz 2].
Proof.
  split; [reflexivity|]. split; [repeat constructor; cbn; intuition discriminate|]. split; [repeat constructor|]. split; [repeat constructor; cbn; auto|].
  split; [intros n [<-|[<-|[]]]; eexists; reflexivity|]. split; [reflexivity|]. split; [vm_compute; discriminate|]. split; [vm_compute; reflexivity|].
  split; [repeat constructor; vm_compute; f_equal; apply Qc_is_canon; reflexivity|]. split; [vm_compute; f_equal; apply Qc_is_canon; reflexivity|].
  vm_compute. repeat f_equal; apply Qc_is_canon; reflexivity.
Qed.
