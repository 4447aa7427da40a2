(** C41, C42, C72, C73: files (src/data/IO.cpp). *)
From Coq Require Import ZArith Ascii.
From Verif Require Import Base.Res Base.Num Base.SMap Model.Axis Model.Event Model.Hist Model.Shrink Model.Data Model.IO Spec.AxisSpec Spec.HistSpec Spec.IOSpec
  Proofs.IOP Proofs.IOP2 Proofs.IOP3 Proofs.IOP4 Proofs.IOP5.
From Coq Require Import Lia.
Local Open Scope nat_scope.

(** C41 *)
Theorem C41_roundtrip l : l <> [] -> Forall (no_char ":"%char) l -> unpackString (flattenNames l) = Ok l.
Proof. exact (names_roundtrip_pkg l). Qed.
Print Assumptions C41_roundtrip.
Theorem C41_injective l m : l <> [] -> m <> [] -> Forall (no_char ":"%char) l -> Forall (no_char ":"%char) m -> flattenNames l = flattenNames m -> l = m.
Proof. exact (names_injective_pkg l m). Qed.
Print Assumptions C41_injective.
(** unpacking never fails and flattening undoes it *)
Theorem C41_unpack_inverse s : exists l, unpackString s = Ok l /\ flattenNames l = s /\ l <> [] /\ Forall (no_char ":"%char) l.
Proof. exact (names_back_pkg s). Qed.
Print Assumptions C41_unpack_inverse.
Example C41_nonvacuous : let l := ["energy"%string; ""%string; "r3"%string] in l <> [] /\ Forall (no_char ":"%char) l /\ flattenNames l = "energy::r3"%string.
Proof. cbn. split; [discriminate|]. split; [repeat constructor; discriminate|reflexivity]. Qed.

(** C42: the slabs cover the events without gap or overlap *)
Theorem C42_slabs n s : (1 <= s <= n)%Z -> slabStart n s 0 = 0%Z /\ (forall i, (0 <= i < s - 1)%Z -> slabStop n s i = slabStart n s (i + 1)) /\ slabStop n s (s - 1) = n /\
  forall i, (0 <= i < s)%Z -> (0 <= slabStart n s i < slabStop n s i)%Z.
Proof. exact (slabs_pkg n s). Qed.
Print Assumptions C42_slabs.
(** the file holds every event once, in order *)
Theorem C42_file d : filled d -> dNObs d < Z.to_nat 10000 -> exists f, saveData d = Ok f /\ f5Data f = List.concat (rows d) /\ f5NObs f = Z.of_nat (dNObs d).
Proof. intros H W. eexists. split; [exact (save_pkg d H W)|]. split; reflexivity. Qed.
Print Assumptions C42_file.
(** saving then loading gives the same events, names and number of observables; missing for the full statement: empty data
    sets, 10000 or more observables, 2^32 values or more, names longer than 64 characters together (all refuted below) *)
Theorem C42_roundtrip_partial d a : filled d -> dNObs d < Z.to_nat 10000 -> (values d < 2 ^ 32)%Z -> Forall plain (dNames d) -> joined (dNames d) <= 64 ->
  exists f d', saveData d = Ok f /\ loadData a f = Ok d' /\ rows d' = rows d /\ dNames d' = dNames d /\ dNObs d' = dNObs d /\ Forall (fun e => dvPtr e = Some a) (dData d').
Proof. exact (roundtrip_pkg d a). Qed.
Print Assumptions C42_roundtrip_partial.
Theorem C42_wrong_names d : List.length (dNames d) <> dNObs d -> saveData d = Throw IOError.
Proof. exact (names_pkg d). Qed.
Print Assumptions C42_wrong_names.
Theorem C42_empty_refuted d : 0 < dNObs d -> List.length (dNames d) = dNObs d -> rows d = [] -> saveData d = Throw std_out_of_range.
Proof. exact (empty_pkg d). Qed.
Print Assumptions C42_empty_refuted.
Theorem C42_wide_refuted d : filled d -> (Z.of_nat (List.length (rows d)) * 10000 <= values d)%Z -> saveData d = Throw std_out_of_range.
Proof. exact (wide_pkg d). Qed.
Print Assumptions C42_wide_refuted.
Theorem C42_long_names_refuted d a : filled d -> dNObs d < Z.to_nat 10000 -> (values d < 2 ^ 32)%Z -> 64 < joined (dNames d) ->
  exists f d', saveData d = Ok f /\ loadData a f = Ok d' /\ rows d' = rows d /\ dNames d' <> dNames d.
Proof. exact (long_names_pkg d a). Qed.
Print Assumptions C42_long_names_refuted.
(** a stored name list ends at its first NUL character *)
Theorem C42_nul_refuted s t : no_char Ascii.zero s -> String.length s <= 64 -> attr64 (s ++ String Ascii.zero t) = s.
Proof. exact (nul_pkg s t). Qed.
Print Assumptions C42_nul_refuted.
(** two observables and more than 2147600000 events: the loader reads earlier events again *)
Theorem C42_wraps_refuted d a : filled d -> dNObs d = 2 -> (2147600000 <= Z.of_nat (List.length (rows d)) < 2 ^ 32)%Z -> Forall plain (dNames d) -> joined (dNames d) <= 64 ->
  exists f d', saveData d = Ok f /\ loadData a f = Ok d' /\ nth_error (rows d') (Z.to_nat 2147500000) = nth_error (rows d) (Z.to_nat 16352).
Proof. exact (wraps_pkg d a). Qed.
Print Assumptions C42_wraps_refuted.
Theorem C42_large_refuted a : exists d f d', filled d /\ dNObs d = 2 /\ Forall plain (dNames d) /\ joined (dNames d) <= 64 /\ saveData d = Ok f /\ loadData a f = Ok d' /\ rows d' <> rows d.
Proof. exact (large_pkg a). Qed.
Print Assumptions C42_large_refuted.
Definition ex_io : dset := mkDset [mkDevt [qz 1; qz 2] None; mkDevt [qz 3; qz 4] None] ["x"%string; "y"%string] 2.
Example C42_nonvacuous : filled ex_io /\ dNObs ex_io < Z.to_nat 10000 /\ (values ex_io < 2 ^ 32)%Z /\ Forall plain (dNames ex_io) /\ joined (dNames ex_io) <= 64.
Proof. split; [repeat split; cbn; try lia; [repeat constructor|discriminate]|]. split; [cbn [dNObs ex_io]; lia|]. split; [vm_compute; reflexivity|]. split; [cbn; repeat constructor; discriminate|cbn; lia]. Qed.
Example C42_refutations_nonvacuous :
  (let d := mkDset [] ["x"%string] 1 in 0 < dNObs d /\ List.length (dNames d) = dNObs d /\ rows d = []) /\
  (let n := Z.to_nat 10000 in let d := mkDset [mkDevt (repeat 0%Qc n) None] (repeat "x"%string n) n in filled d /\ (Z.of_nat (List.length (rows d)) * 10000 <= values d)%Z) /\
  (let d := mkDset [mkDevt [0%Qc] None] [String.concat "" (repeat "0123456789"%string 7)] 1 in filled d /\ dNObs d < Z.to_nat 10000 /\ (values d < 2 ^ 32)%Z /\ 64 < joined (dNames d)).
Proof.
  split; [cbn; repeat split; lia|]. split.
  - assert (E : Z.of_nat (Z.to_nat 10000) = 10000%Z) by lia. revert E. generalize (Z.to_nat 10000). intros n E. cbv zeta. split.
    + unfold filled, rows. cbn [dNObs dNames dData map dvObs]. rewrite repeat_length. split; [lia|]. split; [reflexivity|]. split; [constructor; [apply repeat_length|constructor]|discriminate].
    + unfold values, rows. cbn [dNObs dData map List.length]. lia.
  - cbv zeta. split; [repeat split; cbn; try lia; [repeat constructor|discriminate]|]. split; [cbn [dNObs]; lia|]. split; [vm_compute; reflexivity|cbn; lia].
Qed.

(** C72 *)
Theorem C72_roundtrip_partial h : h_reach h -> Forall plain (names_of h) -> joined (names_of h) <= 64 ->
  Forall plain (map aLatex (acAxes (hAxes h))) -> joined (map aLatex (acAxes (hAxes h))) <= 64 -> exists f, saveHist h = Ok f /\ loadHist f = Ok h.
Proof. exact (hist_roundtrip_pkg h). Qed.
Print Assumptions C72_roundtrip_partial.
Theorem C72_file h f : h_reach h -> saveHist h = Ok f ->
  f5Cont f = hCont h /\ f5NDims f = List.length (acAxes (hAxes h)) /\ f5NBins f = List.length (hCont h) /\ f5Edges f = map (fun x => (aLow x, aHigh x)) (acAxes (hAxes h)).
Proof. exact (hist_file_pkg h f). Qed.
Print Assumptions C72_file.
(** names longer than 64 characters together: the histogram does not come back *)
Theorem C72_long_names_refuted h : h_reach h -> 64 < joined (names_of h) -> exists f, saveHist h = Ok f /\ loadHist f <> Ok h.
Proof. exact (hist_long_pkg h). Qed.
Print Assumptions C72_long_names_refuted.
Definition ex_axis (n : string) : axis := match mk_equal n 0 1 2 "" with Ok a => a | _ => mkAxis 0 0 0 "" "" [] [] [] [] end.
Definition ex_ioh (n : string) : hist := match addAxis ac_empty (ex_axis n) with Ok ac => mk_hist ac | _ => hist0 end.
Lemma ex_ioh_reach n : h_reach (ex_ioh n).
Proof. apply hr_new; [|discriminate]. apply (ar_add ac_empty (ex_axis n)); [constructor| |reflexivity]. apply (built_equal _ n 0 1 2 ""). vm_compute. reflexivity. Qed.
Example C72_nonvacuous :
  (let h := ex_ioh "energy" in h_reach h /\ Forall plain (names_of h) /\ joined (names_of h) <= 64 /\ Forall plain (map aLatex (acAxes (hAxes h))) /\ joined (map aLatex (acAxes (hAxes h))) <= 64) /\
  (let h := ex_ioh (String.concat "" (repeat "0123456789"%string 7)) in h_reach h /\ 64 < joined (names_of h)).
Proof. split; cbv zeta; (split; [apply ex_ioh_reach|]); [|cbn; lia]. split; [cbn; repeat constructor; discriminate|]. split; [cbn; lia|]. split; [cbn; repeat constructor; discriminate|cbn; lia]. Qed.

(** C73 *)
Theorem C73_format p e : no_char "."%char e -> forall d h,
  (e = "h5"%string -> saveDataSet d (p ++ String "."%char e) = bind (saveData d) (fun f => Ok (SavedH5 f)) /\ saveHistogram h (p ++ String "."%char e) = bind (saveHist h) (fun f => Ok (SavedH5 f))) /\
  (e = "root"%string -> saveDataSet d (p ++ String "."%char e) = Ok (match dNames d with [] => SavedNothing | _ => SavedRoot end) /\
     (h_reach h -> saveHistogram h (p ++ String "."%char e) = if Nat.leb (List.length (shape_of h)) 2 then Ok SavedRoot else Throw IOError)) /\
  (e <> "h5"%string -> e <> "root"%string -> saveDataSet d (p ++ String "."%char e) = Throw IOError /\ saveHistogram h (p ++ String "."%char e) = Throw IOError) /\
  saveDataSet d e = Throw IOError /\ saveHistogram h e = Throw IOError.
Proof. exact (format_pkg p e). Qed.
Print Assumptions C73_format.
Example C73_nonvacuous : no_char "."%char "h5" /\ saveHistogram (ex_ioh "x") "run.1.txt" = Throw IOError /\ saveHistogram (ex_ioh "x") "run.1.root" = Ok SavedRoot.
Proof. split; [cbn; repeat split; discriminate|]. split; reflexivity. Qed.
