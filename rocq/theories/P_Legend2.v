(** * P_Legend2: two-decimal rendering of the legend (C96). *)

From Coq Require Import ZArith Reals Lra Lia Floats.SpecFloat.
From Flocq Require Import Core BinarySingleNaN.
From Verif Require Import Base Num NumPy HkModel HkProofs PlotModel PlotProofs ShowModel P_Show P_Legend Float64 FloatErr.

Local Open Scope R_scope.

(** ** Specification: ['%.2f' % x] shows m/100 where m is the integer nearest to 100 x, the
    even one of the two if 100 x is half way (Python formats the exact value of the double). *)
Definition shown (x : R) (m : Z) : Prop :=
  Rabs (100 * x - IZR m) <= 1 / 2 /\ (Rabs (100 * x - IZR m) = 1 / 2 -> Z.even m = true).

Lemma shown_unique x m n : shown x m -> shown x n -> m = n.
Proof.
  intros [A A'] [B B']. assert (L : (m = n \/ m = n + 1 \/ n = m + 1)%Z).
  { assert (Rabs (IZR m - IZR n) <= 1).
    { replace (IZR m - IZR n) with ((100 * x - IZR n) - (100 * x - IZR m)) by ring.
      eapply Rle_trans; [apply Rabs_triang|]. rewrite Rabs_Ropp. lra. }
    rewrite <- minus_IZR, <- abs_IZR in H. apply le_IZR in H. lia. }
  destruct L as [L|[L|L]]; [exact L| |]; exfalso; rewrite L, plus_IZR in *.
  - assert (E1 : 100 * x - (IZR n + 1) = - (1 / 2)) by (apply abs_le_inv in A, B; lra).
    assert (E2 : 100 * x - IZR n = 1 / 2) by lra. rewrite E1, E2 in *. rewrite Rabs_Ropp in *. rewrite Rabs_pos_eq in * by lra.
    specialize (A' eq_refl). specialize (B' eq_refl). rewrite Z.even_add, B' in A'. discriminate.
  - assert (E1 : 100 * x - (IZR m + 1) = - (1 / 2)) by (apply abs_le_inv in A, B; lra).
    assert (E2 : 100 * x - IZR m = 1 / 2) by lra. rewrite E1, E2 in *. rewrite Rabs_Ropp in *. rewrite Rabs_pos_eq in * by lra.
    specialize (A' eq_refl). specialize (B' eq_refl). rewrite Z.even_add, A' in B'. discriminate.
Qed.
Lemma shown_near x m : Rabs (100 * x - IZR m) < 1 / 2 -> shown x m.
Proof. intro H. split; lra. Qed.
Lemma shown_exists x : exists m, shown x m.
Proof.
  exists (ZnearestE (100 * x)). unfold shown.
  pose proof (Znearest_half (fun t => negb (Z.even t)) (100 * x)) as H.
  split; [lra|]. intro E.
  set (c := fun t => negb (Z.even t)) in *.
  pose proof (Znearest_DN_or_UP c (100 * x)) as DU.
  assert (F : 100 * x - IZR (Zfloor (100 * x)) = 1 / 2).
  { pose proof (Zfloor_lb (100 * x)). pose proof (Zfloor_ub (100 * x)).
    destruct DU as [DU|DU]; rewrite DU in E.
    - rewrite Rabs_pos_eq in E by lra. exact E.
    - destruct (Req_dec (IZR (Zfloor (100 * x))) (100 * x)) as [Q|Q].
      + rewrite <- Q in E. rewrite Zceil_IZR in E. rewrite Rminus_diag_eq in E by reflexivity. rewrite Rabs_R0 in E. lra.
      + rewrite (Zceil_floor_neq _ Q), plus_IZR in E. rewrite Rabs_left1 in E by lra. lra. }
  unfold Znearest. replace (100 * x - IZR (Zfloor (100 * x))) with (/ 2) by lra. rewrite Rcompare_Eq by reflexivity.
  unfold c. destruct (Z.even (Zfloor (100 * x))) eqn:Ev; cbn [negb]; [exact Ev|].
  assert (Q : IZR (Zfloor (100 * x)) <> 100 * x) by lra. rewrite (Zceil_floor_neq _ Q), Z.even_add, Ev. reflexivity.
Qed.

(** ** C96 over the reals: exactly when the legend is right.  [m]: the Vp/Vs of the best model to
    two decimals; [n]: what the legend shows. *)
Theorem C96_legend_exact (K : R) m n : shown K m -> shown (K + 1 / 1000) n ->
  (n = m \/ n = m + 1)%Z /\
  (n = (m + 1)%Z <-> 100 * K - IZR m > 4 / 10 \/ (100 * K - IZR m = 4 / 10 /\ Z.even m = false)) /\
  Rabs (IZR n / 100 - K) <= 6 / 1000.
Proof.
  intros HK HL. destruct HK as [A A']. pose proof (abs_le_inv _ _ A) as AA.
  assert (C : (100 * K - IZR m < 4 / 10 /\ n = m) \/ (100 * K - IZR m = 4 / 10 /\ Z.even m = true /\ n = m) \/
              (100 * K - IZR m = 4 / 10 /\ Z.even m = false /\ n = (m + 1)%Z) \/ (100 * K - IZR m > 4 / 10 /\ n = (m + 1)%Z)).
  { destruct (Rtotal_order (100 * K - IZR m) (4 / 10)) as [L|[L|L]].
    - left. split; [exact L|]. apply (shown_unique _ _ _ HL), shown_near. apply Rabs_def1; lra.
    - right. assert (E : 100 * (K + 1 / 1000) - IZR m = 1 / 2) by lra. destruct (Z.even m) eqn:Ev; [left|right; left].
      + repeat split; try assumption. apply (shown_unique _ _ _ HL). unfold shown. rewrite E, Rabs_pos_eq by lra. split; [lra|auto].
      + repeat split; try assumption. apply (shown_unique _ _ _ HL). unfold shown.
        replace (100 * (K + 1 / 1000) - IZR (m + 1)) with (- (1 / 2)) by (rewrite plus_IZR; lra).
        rewrite Rabs_Ropp, Rabs_pos_eq by lra. split; [lra|]. rewrite Z.even_add, Ev. reflexivity.
    - right. right. right. split; [exact L|]. apply (shown_unique _ _ _ HL), shown_near. rewrite plus_IZR. apply Rabs_def1; lra. }
  split; [destruct C as [[_ ->]|[(_ & _ & ->)|[(_ & _ & ->)|[_ ->]]]]; auto|]. split.
  - split.
    + intro E. destruct C as [[_ C]|[(_ & _ & C)|[(C & D & _)|[C _]]]]; [lia|lia|auto|auto].
    + intros [L|[L Ev]]; destruct C as [[C Cn]|[(C & D & Cn)|[(C & D & Cn)|[C Cn]]]]; try lra; try congruence; assumption.
  - destruct HL as [B _]. apply abs_le_inv in B. apply Rabs_le. lra.
Qed.

(** ** C96 in double precision: the same, up to the rounding of the sum.  The legend is right if
    100 K is at most 0.399999 above the shown integer and one hundredth too high if it is at
    least 0.400001 above it. *)
Lemma lit_val : fdouble (sf_lit 1 1000) /\ Rabs (real (sf_lit 1 1000) - 1 / 1000) <= / 1000000000000000.
Proof.
  split; [split; [reflexivity|exact I]|].
  unfold sf_lit. vm_compute (SFdiv _ _ _ _). unfold real, SF2R, F2R. simpl. apply Rabs_le; lra.
Qed.
Theorem C96_legend_double (K : B64) m n : fdouble K -> Rabs (real K) <= 1000 -> shown (real K) m -> shown (real (@nadd B64 K (@nlit B64 1 1000))) n ->
  (n = m \/ n = m + 1)%Z /\
  (100 * real K - IZR m <= 399999 / 1000000 -> n = m) /\
  (100 * real K - IZR m >= 400001 / 1000000 -> n = (m + 1)%Z) /\
  Rabs (IZR n / 100 - real K) <= 7 / 1000.
Proof.
  intros HK HB Hm Hn. change (@nadd B64 K (@nlit B64 1 1000)) with (sf_add K (sf_lit 1 1000)) in Hn.
  destruct lit_val as [HF HL]. apply abs_le_inv in HB, HL.
  assert (S : Rabs (real K + real (sf_lit 1 1000)) <= 1001) by (apply Rabs_le; lra).
  destruct (add_fd K (sf_lit 1 1000) HK HF) as (_ & _ & E).
  { eapply Rle_trans; [exact S|]. eapply Rle_trans; [|apply pow2_1023]. lra. }
  assert (E' : Rabs (real (sf_add K (sf_lit 1 1000)) - (real K + real (sf_lit 1 1000))) <= 1 / 1000000000).
  { eapply Rle_trans; [exact E|]. pose proof (us_le _ _ S). pose proof u_bounds. lra. }
  clear E. set (y := real (sf_add K (sf_lit 1 1000))) in *. apply abs_le_inv in E'.
  destruct Hm as [A A']. pose proof (abs_le_inv _ _ A) as AA. pose proof Hn as [B _]. apply abs_le_inv in B.
  assert (C : (m <= n <= m + 1)%Z).
  { split.
    - apply le_IZR. destruct (Z_le_gt_dec m n) as [L|L]; [apply IZR_le; exact L|exfalso].
      assert (IZR n + 1 <= IZR m) by (rewrite <- plus_IZR; apply IZR_le; lia). lra.
    - apply le_IZR. rewrite plus_IZR. destruct (Z_le_gt_dec n (m + 1)) as [L|L]; [rewrite <- plus_IZR; apply IZR_le; exact L|exfalso].
      assert (IZR m + 2 <= IZR n) by (rewrite <- plus_IZR; apply IZR_le; lia). lra. }
  split; [lia|]. split; [|split].
  - intro L. apply (shown_unique _ _ _ Hn), shown_near. apply Rabs_def1; lra.
  - intro L. apply (shown_unique _ _ _ Hn), shown_near. rewrite plus_IZR. apply Rabs_def1; lra.
  - apply Rabs_le. lra.
Qed.

(** ** C96 is refuted: a result whose best Vp/Vs is a node of the documented grid
    linspace(1.65, 1.95, 121), namely 1.65 + 2*0.0025 = 1.6549999999999998; plothk succeeds, the
    model shown to two decimals is 1.65 and the legend says 1.66. *)
Definition K2 : B64 := @nadd B64 (@nlit B64 165 100) (@nmul B64 (@nofZ B64 2) (@ndiv B64 (@nsub B64 (@nlit B64 195 100) (@nlit B64 165 100)) (@nofZ B64 120))).
Definition ex_leg : hkres B64 :=
  let z := sf_ofZ in
  mkHkRes (N := B64)
    [mkTrace (N := B64) [z 1; z 2; z 3]%Z (z 1%Z) (z 6%Z) PyF (z (-1)%Z) (z 90%Z) (z 60%Z) "STA" "HHR" None]
    [z 1; z 2; z 3]%Z [z (-1); z 0; z 1]%Z 1 "STA" (sf_lit 65 10)
    [mkRow (N := B64) (z 30%Z) K2 (z (-1)%Z); mkRow (N := B64) (z 31%Z) K2 (z 2%Z)]
    "Moho" false "HHR" (z 6%Z) [z 30; z 31]%Z [K2].
Definition leg_labels (es : list (pev B64)) : list (B64 * B64) :=
  flat_map (fun e => match e with EBest h k lab => [(k, snd lab)] | _ => [] end) es.
Definition ex_out := @plothk B64 (fun _ _ => None) (sf_lit 9 1000) "out" None None None (mkPst [] ex_leg).
Definition K2v : spec_float := Eval vm_compute in K2.
Definition L2v : spec_float := Eval vm_compute in (@nadd B64 K2 (@nlit B64 1 1000)).
Lemma K2_shown : shown (real K2v) 165.
Proof. apply shown_near. unfold real, SF2R, F2R. simpl. apply Rabs_def1; lra. Qed.
Lemma L2_shown : shown (real L2v) 166.
Proof. apply shown_near. unfold real, SF2R, F2R. simpl. apply Rabs_def1; lra. Qed.
Theorem C96_refuted :
  exists s', ex_out = (s', Ok tt) /\ saves (ps_ev s') = ["out/STA_HHR_Moho.pdf"%string] /\
  exists k lab, In (EBest (sf_ofZ 31) k (sf_ofZ 31, lab)) (ps_ev s') /\ shown (real k) 165 /\ shown (real lab) 166.
Proof.
  destruct ex_out as [s' r] eqn:E. exists s'.
  assert (R : r = Ok tt).
  { assert (X : match snd ex_out with Ok _ => true | _ => false end = true) by (vm_compute; reflexivity).
    rewrite E in X. cbn [snd] in X. destruct r as [[]|]; [reflexivity|discriminate]. }
  split; [rewrite R; reflexivity|].
  assert (S : saves (ps_ev (fst ex_out)) = ["out/STA_HHR_Moho.pdf"%string]) by (vm_compute; reflexivity).
  rewrite E in S. split; [exact S|]. exists K2v, L2v.
  split; [|split; [exact K2_shown|exact L2_shown]].
  assert (T : nth_error (ps_ev (fst ex_out)) 1 = Some (EBest (sf_ofZ 31) K2v (sf_ofZ 31, L2v))) by exact (eq_refl (nth_error (ps_ev (fst ex_out)) 1) <: nth_error (ps_ev (fst ex_out)) 1 = Some (EBest (sf_ofZ 31) K2v (sf_ofZ 31, L2v))).
  rewrite E in T. apply nth_error_In in T. exact T.
Qed.
