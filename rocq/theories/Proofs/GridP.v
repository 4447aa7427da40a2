From Coq Require Import ZArith Sorted.
From Verif Require Import Base.Res Base.Num Base.SMap Model.Axis Model.Hist Model.Rand Model.Grid Spec.GridSpec Proofs.GenP Proofs.GenP8.
From Coq Require Import Lia.
Local Open Scope nat_scope.

(** one axis: minimum, maximum, step *)
Record gax := mkGax { gk : string; gmn : Qc; gmx : Qc; gst : Qc }.
Definition gax_ok (a : gax) : Prop := (0 < gst a)%Qc /\ (gmn a <= gmx a)%Qc.
Definition cnt (a : gax) : nat := Z.to_nat (qtrunc ((gmx a - gmn a) / gst a)).
Definition pt (a : gax) (k : nat) : Qc := (gmn a + qn k * gst a)%Qc.
Definition pts (a : gax) : list Qc := map (pt a) (seq 0 (S (cnt a))).
Lemma pt_S a k : (pt a k + gst a = pt a (S k))%Qc.
Proof. unfold pt. rewrite qn_S. ring. Qed.
Lemma pt_0 a : pt a 0 = gmn a. Proof. unfold pt. rewrite qn_0. ring. Qed.
Lemma div_nonneg x y : (0 < y)%Qc -> (0 <= x)%Qc -> (0 <= x / y)%Qc.
Proof.
  intros Hy Hx. assert (E : ((x / y) * y = x)%Qc) by (rewrite Qcmult_comm; apply Qcmult_div_r; intros C; rewrite C in Hy; exact (Qclt_not_eq _ _ Hy eq_refl)).
  set (z := (x / y)%Qc) in *. clearbody z. qnra.
Qed.
Lemma cnt_spec a k : gax_ok a -> (k <= cnt a <-> (pt a k <= gmx a)%Qc).
Proof.
  intros [Hs Hm]. unfold cnt. assert (E : ((gmx a - gmn a) / gst a * gst a = gmx a - gmn a)%Qc) by (rewrite Qcmult_comm; apply Qcmult_div_r; intros C; rewrite C in Hs; exact (Qclt_not_eq _ _ Hs eq_refl)).
  assert (N : (0 <= (gmx a - gmn a) / gst a)%Qc) by (apply div_nonneg; [exact Hs|]; qlra).
  unfold pt. set (q := ((gmx a - gmn a) / gst a)%Qc) in *. clearbody q.
  assert (T0 : (0 <= qtrunc q)%Z) by (apply (qtrunc_ge q 0); [lia|exact N]).
  split; intros H.
  - assert (L : (qn k <= q)%Qc).
    { destruct (qleb (qn k) q) eqn:C; [apply qleb_le; exact C|]. apply qleb_gt in C. exfalso. assert (qtrunc q < Z.of_nat k)%Z by (apply (qtrunc_bounds q (Z.of_nat k) N C)). lia. }
    clear H. set (n := qn k) in *. clearbody n. qnra.
  - assert (L : (qn k <= q)%Qc) by (set (n := qn k) in *; clearbody n; qnra).
    assert (Z.of_nat k <= qtrunc q)%Z by (apply qtrunc_ge; [lia|exact L]). lia.
Qed.
Lemma pt_inj a j k : gax_ok a -> pt a j = pt a k -> j = k.
Proof.
  intros [Hs _] H. unfold pt in H. apply qn_inj. set (x := qn j) in *. set (y := qn k) in *. clearbody x y.
  assert (D : ((x - y) * gst a = 0)%Qc) by (transitivity ((gmn a + x * gst a) - (gmn a + y * gst a))%Qc; [ring|rewrite H; ring]).
  apply Qcmult_integral in D. destruct D as [D|D]; [transitivity ((x - y) + y)%Qc; [ring|rewrite D; ring]|]. rewrite D in Hs. exfalso. exact (Qclt_not_eq _ _ Hs eq_refl).
Qed.

(** the odometer *)
Fixpoint inc (A : list gax) (xs : list Qc) : option (list Qc) :=
  match A, xs with
  | a :: A', x :: xs' =>
      if qltb (gmx a) (x + gst a)%Qc then option_map (cons (gmn a)) (inc A' xs') else Some ((x + gst a)%Qc :: xs')
  | _, _ => None
  end.
Fixpoint pgrid (A : list gax) : list (list Qc) :=
  match A with
  | [] => [[]]
  | a :: A' => flat_map (fun r => map (fun d => d :: r) (pts a)) (pgrid A')
  end.
Inductive runs {X} (f : X -> option X) : X -> list X -> Prop :=
| runs_end s : f s = None -> runs f s []
| runs_step s y l : f s = Some y -> runs f y l -> runs f s (y :: l).
Lemma row_runs a A r l : gax_ok a -> (match inc A r with Some r' => runs (inc (a :: A)) (gmn a :: r') l | None => l = [] end) ->
  forall n k, k + n = cnt a -> runs (inc (a :: A)) (pt a k :: r) (map (fun d => d :: r) (map (pt a) (seq (S k) n)) ++ match inc A r with Some r' => (gmn a :: r') :: l | None => [] end).
Proof.
  intros Ha Hn. induction n as [|n IH]; intros k Hk.
  - cbn [seq map app]. assert (W : qltb (gmx a) (pt a k + gst a) = true). { apply qltb_lt. rewrite pt_S. destruct (qleb (pt a (S k)) (gmx a)) eqn:E; [|apply qleb_gt; exact E]. apply qleb_le in E. apply cnt_spec in E; [lia|exact Ha]. }
    destruct (inc A r) as [r'|] eqn:Er.
    + apply runs_step; [|exact Hn]. cbn [inc]. rewrite W, Er. reflexivity.
    + apply runs_end. cbn [inc]. rewrite W, Er. reflexivity.
  - cbn [seq map app]. apply runs_step; [|apply IH; lia]. cbn [inc]. rewrite pt_S.
    destruct (qltb (gmx a) (pt a (S k))) eqn:W; [|reflexivity]. apply qltb_lt in W. exfalso. apply (Qclt_not_le _ _ W). apply cnt_spec; [exact Ha|lia].
Qed.
Lemma pgrid_runs A : Forall gax_ok A -> exists rest, pgrid A = map gmn A :: rest /\ runs (inc A) (map gmn A) rest.
Proof.
  induction 1 as [|a A Ha F IH]; [exists []; split; [reflexivity|apply runs_end; reflexivity]|].
  destruct IH as [rest [E R]]. cbn [pgrid map]. rewrite E. cbn [flat_map].
  exists (map (fun d => d :: map gmn A) (map (pt a) (seq 1 (cnt a))) ++ flat_map (fun r => map (fun d => d :: r) (pts a)) rest). split.
  - unfold pts at 1. cbn [seq map app]. rewrite pt_0. reflexivity.
  - rewrite <- (pt_0 a) at 1. clear E. revert R. generalize (map gmn A). intros r0 R. induction R as [s Es|s y l Es R IH].
    + cbn [flat_map]. pose proof (row_runs a A s [] Ha) as H. rewrite Es in H. specialize (H eq_refl (cnt a) 0 eq_refl). exact H.
    + cbn [flat_map]. pose proof (row_runs a A s (map (fun d => d :: y) (map (pt a) (seq 1 (cnt a))) ++ flat_map (fun r => map (fun d => d :: r) (pts a)) l) Ha) as H. rewrite Es in H.
      rewrite (pt_0 a) in IH. specialize (H IH (cnt a) 0 eq_refl). unfold pts at 1. cbn [seq map app]. rewrite (pt_0 a) in H |- *. exact H.
Qed.
Lemma pgrid_in A xs : In xs (pgrid A) <-> Forall2 (fun x a => In x (pts a)) xs A.
Proof.
  revert xs. induction A as [|a A IH]; intros xs; cbn [pgrid].
  - cbn. split; [intros [<-|[]]; constructor|intros H; inversion H; auto].
  - rewrite in_flat_map. split.
    + intros [r [Hr Hx]]. apply in_map_iff in Hx. destruct Hx as [d [<- Hd]]. constructor; [exact Hd|apply IH; exact Hr].
    + intros H. inversion H as [|x ? r ? Hx Hr]; subst. exists r. split; [apply IH; exact Hr|]. apply in_map_iff. eauto.
Qed.
Lemma pts_nodup a : gax_ok a -> NoDup (pts a).
Proof. intros Ha. unfold pts. apply FinFun.Injective_map_NoDup; [|apply seq_NoDup]. intros j k. apply pt_inj. exact Ha. Qed.
Lemma pgrid_nodup A : Forall gax_ok A -> NoDup (pgrid A).
Proof.
  induction 1 as [|a A Ha F IH]; cbn [pgrid]; [repeat constructor; auto|]. induction IH as [|r l Hr N IHl]; cbn [flat_map]; [constructor|].
  assert (D : forall x, In x (map (fun d => d :: r) (pts a)) -> ~ In x (flat_map (fun r => map (fun d => d :: r) (pts a)) l)).
  { intros x Hx Hy. apply in_map_iff in Hx. destruct Hx as [d [<- _]]. apply in_flat_map in Hy. destruct Hy as [r' [Hr' Hy]]. apply in_map_iff in Hy. destruct Hy as [d' [E _]]. injection E as _ ->. contradiction. }
  assert (N1 : NoDup (map (fun d => d :: r) (pts a))) by (apply FinFun.Injective_map_NoDup; [intros x y E; congruence|apply pts_nodup; exact Ha]).
  revert D. induction N1 as [|x m Hx N1 IH1]; intros D; cbn [app]; [exact IHl|]. constructor.
  - intros C. apply in_app_iff in C. destruct C as [C|C]; [contradiction|]. exact (D x (or_introl eq_refl) C).
  - apply IH1. intros y Hy. apply D. right. exact Hy.
Qed.
Lemma pts_in a x : gax_ok a -> (In x (pts a) <-> (x <= gmx a)%Qc /\ exists j : nat, x = (gmn a + qn j * gst a)%Qc).
Proof.
  intros Ha. unfold pts. rewrite in_map_iff. split.
  - intros [k [<- Hk]]. apply in_seq in Hk. split; [apply cnt_spec; [exact Ha|lia]|exists k; reflexivity].
  - intros [Hx [j ->]]. exists j. split; [reflexivity|]. apply in_seq. apply (cnt_spec a j Ha) in Hx. lia.
Qed.
