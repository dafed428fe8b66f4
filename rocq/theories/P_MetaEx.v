(** * P_MetaEx: concrete cases of C107, C108 and C109, on the crust of P_HkEx. *)

From Coq Require Import Reals Lra Psatz.
From Verif Require Import Base Num NumPy Spec HkModel HkProofs HkReal HkFacts HkFacts2 HkFacts3 HkFacts4 P_Hk DrawSpec P_Hk2 P_Hk3 P_Hk4 P_Hk5 P_Hk6 P_HkEx P_HkEx2 P_Meta P_Meta2 P_Meta3.
Local Open Scope R_scope.

Definition exrun (rf : stream RN) (pre : R) (H K : list R) : res (hkres RN) :=
  @hk RN 1 exstack exdraw rf pre H K (Some exVp) (Some (6 / 10)) (Some (3 / 10)) (Some (1 / 10)) None (Some false).

(** C107: the nine-node grid and a four-node part of it. *)
Theorem C107_example : exists r r' a,
  exrun exrf 2 [30; 40] [4 / 3; 17 / 10] = Ok r /\ exrun exrf 2 exH exK = Ok r' /\
  incl [30; 40] exH /\ incl [4 / 3; 17 / 10] exK /\ same_nodes (hr_stk r) (hr_stk r') /\
  nth_error (hr_stk r) (hr_best r) = Some a /\ rS a = 2 /\ length (hr_stk r) = 4%nat /\ length (hr_stk r') = 9%nat.
Proof.
  destruct C78_hk_example as (r' & E' & B').
  assert (exists r, exrun exrf 2 [30; 40] [4 / 3; 17 / 10] = Ok r) as [r E].
  { eapply (drawn_R exdraw [4 / 3; 17 / 10] [30; 40] _ hr_stk).
    { apply (pyplot_draws_R [4 / 3; 17 / 10] [30; 40] 30 40 (4 / 3) (17 / 10)); try (simpl; auto; fail); lra. }
    eapply (C77_hk_completes RN 1 exstack exdraw exrf 2 [30; 40] [4 / 3; 17 / 10] (Some exVp) (Some (6 / 10)) (Some (3 / 10)) (Some (1 / 10)) None (Some false)
     (extr "A") [extr "B"%string] (extr "A")); try reflexivity; try discriminate.
    - rewrite ex_len. lia.
    - intros _ tr [<-|[<-|[]]]; apply le_n.
    - cbn [dflt]. apply ex_neq. unfold exVp. lra. }
  - pose proof (C07_hk_best RN RN_laws _ _ _ _ _ _ _ _ _ _ _ _ _ _ E) as (v & Hv & _). rewrite nth_error_map in Hv.
    destruct (nth_error (hr_stk r) (hr_best r)) as [a|] eqn:Na; [|discriminate].
    destruct (C107_hk RN RN_laws _ _ _ _ _ _ _ _ _ _ _ _ _ _ _ _ _ E E') as [G R]. specialize (R _ _ Na B'). destruct R as [R1 R2].
    exists r, r', a. split; [exact E|]. split; [exact E'|].
    assert (I1 : incl [30; 40] exH) by (intros x [<-|[<-|[]]]; unfold exH; simpl; auto).
    assert (I2 : incl [4 / 3; 17 / 10] exK) by (intros x [<-|[<-|[]]]; unfold exK; simpl; auto).
    split; [exact I1|]. split; [exact I2|]. split; [exact G|]. split; [exact Na|].
    specialize (R1 I1 I2 eq_refl). specialize (R2 I1 I2 eq_refl). cbn [rH rK rS] in R1, R2. apply Rleb_true in R1.
    assert (R2' : @nleb RN 2 (rS a) = true) by (apply R2; simpl; auto). apply Rleb_true in R2'.
    split; [change (F RN) with R in *; lra|]. split; [exact (proj1 (C05_hk_grid _ _ _ _ _ _ _ _ _ _ _ _ _ _ _ E))|exact (proj1 (C05_hk_grid _ _ _ _ _ _ _ _ _ _ _ _ _ _ _ E'))].
Qed.

(** C108: three large samples before the records and one after them. *)
Definition exlong (sta : string) : trace RN := @mkTrace RN ([9; 9; 9] ++ exdata ++ [7]) (1 / 5) exp_ PyF (-2) 0 60 sta "Q" None.
Theorem C108_example : exists r r',
  exrun exrf 2 exH exK = Ok r /\ exrun [exlong "A"; exlong "B"] (2 + INR 3 * (1 / 5)) exH exK = Ok r' /\
  hr_stk r' = hr_stk r /\ nth_error (hr_stk r') (hr_best r') = Some (@mkRow RN 40 (17 / 10) 2).
Proof.
  destruct C78_hk_example as (r & E & B). exists r.
  assert (P : forall s, padded 3 (extr s) (exlong s)) by (intro s; split; [exists [9; 9; 9], [7]; split; reflexivity|split; [reflexivity|split; reflexivity]]).
  pose proof (C108_hk 1 exstack exdraw exrf [exlong "A"; exlong "B"] 3 2 exH exK exVp (Some (6 / 10)) (Some (3 / 10)) (Some (1 / 10)) None false r (extr "A")
     (extr "A") [extr "B"%string] (exlong "A") [exlong "B"%string] E) as G. cbn zeta in G. rewrite ex_len in G. change (tr_delta (extr "A")) with (1 / 5) in G.
  destruct G as (r' & E' & S & Bs); [repeat constructor; apply P|reflexivity|reflexivity|reflexivity|discriminate|lra|lia| |].
  - intros tr h k Htr Hh Hk. unfold ray_used. replace (1 * tr_slow tr) with exp_ by (destruct Htr as [<-|[<-|[]]]; simpl; ring).
    split; [apply ex_precritical|apply ex_covered; assumption].
  - exists r'. split; [exact E|]. split; [exact E'|]. split; [exact S|]. rewrite S, Bs. exact B.
Qed.

(** C109: the synthetic in metres and milliseconds, the trace in another unit and the
    weights doubled. *)
Theorem C109_example : exists r r',
  @hkSynth RN exdraw exdata (@uniform_axis RN (1 / 5) 160 2) exp_ NpF exH exK (Some exVp) (Some (6 / 10)) (Some (3 / 10)) (Some (1 / 10)) None = Ok r /\
  @hkSynth RN exdraw (map (Rmult 5) exdata) (map (Rmult 1000) (@uniform_axis RN (1 / 5) 160 2)) (exp_ * 1000 / 1000) NpF (map (Rmult 1000) exH) exK
    (Some (exVp * 1000 / 1000)) (Some (2 * (6 / 10))) (Some (2 * (3 / 10))) (Some (2 * (1 / 10))) None = Ok r' /\
  hs_best r' = hs_best r /\ exists b, nth_error (hs_stk r') (hs_best r') = Some b /\ rH b = 40000 /\ rK b = 17 / 10 /\ rS b = 10.
Proof.
  destruct C78_hkSynth_example as (r & E & B). exists r.
  destruct (C109_hkSynth 1000 1000 5 2 ltac:(lra) ltac:(lra) ltac:(lra) ltac:(lra) _ _ _ _ _ _ _ _ _ _ _ _ _ E) as (r' & E' & S & Bs);
    [apply (pyplot_draws_R exK (map (Rmult 1000) exH) (1000 * 30) (1000 * 40) (4 / 3) (17 / 10)); try (simpl; auto; fail); lra|apply ex_precritical|].
  exists r'. split; [exact E|]. split; [exact E'|]. split; [exact Bs|]. rewrite Bs.
  revert B. generalize (hs_best r). unfold same_rows in S. induction S as [|x y l l' (S1 & S2 & S3) S IH]; intros n Hn; destruct n as [|n]; try discriminate.
  - cbn [nth_error] in *. injection Hn as ->. exists y. split; [reflexivity|]. cbn [rH rK rS] in *. repeat split; try assumption; rewrite ?S1, ?S3; change (F RN) with R; lra.
  - apply IH. exact Hn.
Qed.
