(** * P_FloatEx3: a concrete double-precision run meeting the hypotheses of C124 and not those of C86 and C91. *)

From Coq Require Import ZArith Reals Lra Lia Psatz Floats.SpecFloat.
From Flocq Require Import Core BinarySingleNaN.
From Verif Require Import Base Num NumPy Spec HkModel HkProofs HkReal HkFacts HkFacts4 P_Hk DrawSpec P_Hk5 P_Hk6 Float64 FloatErr FloatHk FloatStack FloatSeq P_Float P_Float2 P_FloatEx FloatTable FloatOne P_Float3 P_Float4 P_FloatEx2 P_Float5.

Local Open Scope R_scope.

(** Direct P of 3 at sample 8, pulses 1/2, 1/4 and -1/4 at the arrivals of (32, 7/4), noise of 1/16. *)
Definition g14 : B64 := Eval vm_compute in dbl 1 4.
Definition gm14 : B64 := Eval vm_compute in dbl (-1) 4.
Definition g116 : B64 := Eval vm_compute in dbl 1 16.
Definition gm116 : B64 := Eval vm_compute in dbl (-1) 16.
Lemma v_g14 : real g14 = 1 / 4. Proof. rv. Qed.
Lemma v_gm14 : real gm14 = - (1 / 4). Proof. rv. Qed.
Lemma v_g116 : real g116 = 1 / 16. Proof. rv. Qed.
Lemma v_gm116 : real gm116 = - (1 / 16). Proof. rv. Qed.

Definition gsample (i : nat) : B64 :=
  if Nat.eqb i 8 then f3 else if Nat.eqb i 24 then dh else if Nat.eqb i 60 then g14 else if Nat.eqb i 76 then gm14
  else if Nat.even i then g116 else gm116.
Definition gdata : list B64 := map gsample (seq 0 120).
Definition gtr (sta : string) : trace B64 := @mkTrace B64 gdata edelta eslow PyF (SFopp epre) d0 (dbl 60 1) sta "Q" None.
Definition grf : stream B64 := [gtr "A"%string; gtr "B"%string].

Lemma g_len : length gdata = 120%nat. Proof. reflexivity. Qed.
Lemma g_nth i : (i < 120)%nat -> nth_error gdata i = Some (gsample i).
Proof. intro Hi. unfold gdata. rewrite nth_error_map, nth_seq by exact Hi. reflexivity. Qed.
Lemma g_vals i : fdouble (gsample i) /\ Rabs (real (gsample i)) <= 3.
Proof.
  unfold gsample. destruct (Nat.eqb i 8); [|destruct (Nat.eqb i 24); [|destruct (Nat.eqb i 60); [|destruct (Nat.eqb i 76); [|destruct (Nat.even i)]]]];
    (split; [fdl|]); rewrite ?v_3, ?v_h, ?v_g14, ?v_gm14, ?v_g116, ?v_gm116; apply Rabs_le; lra.
Qed.
Lemma g_bounded : bounded64 gdata 3.
Proof. intros x Hx. unfold gdata in Hx. apply in_map_iff in Hx. destruct Hx as (i & <- & _). apply g_vals. Qed.
Lemma g_dsane : dsane gdata.
Proof.
  intros x Hx. unfold gdata in Hx. apply in_map_iff in Hx. destruct Hx as (i & <- & _). destruct (g_vals i) as [F B]. split; [exact F|]. lra.
Qed.

Lemma g_times h k : In h eH -> In k eK -> 1 < t_Ps (13 / 2) (1 / 16) (real h) (real k) /\ 6 < t_PpPs (13 / 2) (1 / 16) (real h) (real k).
Proof.
  intros Hh Hk. unfold t_Ps, t_PpPs. pose proof e_qp. pose proof e_qs6. pose proof e_qs7. pose proof e_qs8.
  destruct Hh as [<-|[<-|[<-|[]]]]; destruct Hk as [<-|[<-|[<-|[]]]]; rewrite ?v_24, ?v_32, ?v_40, ?v_k6, ?v_k7, ?v_k8; split; lra.
Qed.

Lemma g_clear : clear64 gdata (1 / 4) (17 / 8) 120 (1 / 2) (1 / 4) (1 / 8) (t_Ps (13 / 2) (1 / 16)) (t_PpPs (13 / 2) (1 / 16)) (t_PsPs (13 / 2) (1 / 16)) eH eK e32 k7 (1 / 64).
Proof.
  split; [lra|]. split; [lra|]. split; [lra|]. exists (1 / 2), (1 / 4), (1 / 4), (1 / 16), (1 / 4), (1 / 16).
  destruct e_T as (T1 & T2 & T3). pose proof e_tol as E.
  assert (N8 : INR 8 = 8) by (rewrite INR_IZR_INZ; reflexivity).
  assert (N24 : INR 24 = 24) by (rewrite INR_IZR_INZ; reflexivity). assert (N60 : INR 60 = 60) by (rewrite INR_IZR_INZ; reflexivity).
  assert (N76 : INR 76 = 76) by (rewrite INR_IZR_INZ; reflexivity).
  assert (Out : forall i n T, INR n = IZR (Z.of_nat n) -> Rabs (1 / 4 * INR i - 17 / 8 - T) <= tol (1 / 4) (17 / 8) 120 -> 1 / 4 * INR n - 17 / 8 + 1 < T -> i <> n).
  { intros i n T _ D L ->. apply abs_le_inv in D. lra. }
  split; [|split; [|split; [|lra]]]; intros i x Hi Hx t e; rewrite g_nth in Hx by exact Hi; injection Hx as <-; rewrite v_32, v_k7; unfold t, e; split.
  - intro D. apply abs_le_inv in D. assert (i = 24)%nat as -> by (apply e_pick; rewrite N24; lra). change (gsample 24) with dh. rewrite v_h. ring.
  - intros h k Hh Hk D D0. destruct (g_times h k Hh Hk) as [L1 L2].
    assert (X8 : i <> 8%nat) by (eapply Out; [apply INR_IZR_INZ|exact D|rewrite N8; lra]).
    assert (X24 : i <> 24%nat) by (intros ->; revert D0; apply Rle_not_lt; rewrite N24; apply Rabs_le; lra).
    unfold gsample. rewrite (proj2 (Nat.eqb_neq _ _) X8), (proj2 (Nat.eqb_neq _ _) X24).
    destruct (Nat.eqb i 60), (Nat.eqb i 76), (Nat.even i); rewrite ?v_g14, ?v_gm14, ?v_g116, ?v_gm116; lra.
  - intro D. apply abs_le_inv in D. assert (i = 60)%nat as -> by (apply e_pick; rewrite N60; lra). change (gsample 60) with g14. rewrite v_g14. ring.
  - intros h k Hh Hk D D0. destruct (g_times h k Hh Hk) as [L1 L2].
    assert (X8 : i <> 8%nat) by (eapply Out; [apply INR_IZR_INZ|exact D|rewrite N8; lra]).
    assert (X24 : i <> 24%nat) by (eapply Out; [apply INR_IZR_INZ|exact D|rewrite N24; lra]).
    assert (X60 : i <> 60%nat) by (intros ->; revert D0; apply Rle_not_lt; rewrite N60; apply Rabs_le; lra).
    unfold gsample. rewrite (proj2 (Nat.eqb_neq _ _) X8), (proj2 (Nat.eqb_neq _ _) X24), (proj2 (Nat.eqb_neq _ _) X60).
    destruct (Nat.eqb i 76), (Nat.even i); rewrite ?v_gm14, ?v_g116, ?v_gm116; lra.
  - intro D. apply abs_le_inv in D. assert (i = 76)%nat as -> by (apply e_pick; rewrite N76; lra). change (gsample 76) with gm14. rewrite v_gm14. ring.
  - intros h k Hh Hk D D0.
    assert (X76 : i <> 76%nat) by (intros ->; revert D0; apply Rle_not_lt; rewrite N76; apply Rabs_le; lra).
    unfold gsample. rewrite (proj2 (Nat.eqb_neq _ _) X76).
    destruct (Nat.eqb i 8), (Nat.eqb i 24), (Nat.eqb i 60), (Nat.even i); rewrite ?v_3, ?v_h, ?v_g14, ?v_g116, ?v_gm116; lra.
Qed.

(** The record is not one of C86 and C91, whatever the amplitudes. *)
Theorem C124_not_pulses A B : 0 <= B < A ->
  ~ pulses A B gdata (1 / 4) (17 / 8) 120 (tol (1 / 4) (17 / 8) 120) (t_Ps (13 / 2) (1 / 16) 32 (7 / 4)) (t_PpPs (13 / 2) (1 / 16) 32 (7 / 4)) (t_PsPs (13 / 2) (1 / 16) 32 (7 / 4)).
Proof.
  intros HAB HP. destruct e_T as (T1 & T2 & T3). pose proof e_tol as E.
  assert (N24 : INR 24 = 24) by (rewrite INR_IZR_INZ; reflexivity). assert (N60 : INR 60 = 60) by (rewrite INR_IZR_INZ; reflexivity).
  pose proof (proj1 (HP 24%nat dh ltac:(lia) eq_refl) ltac:(rewrite N24; apply Rabs_le; lra)) as X.
  pose proof (proj1 (proj2 (HP 60%nat g14 ltac:(lia) eq_refl)) ltac:(rewrite N60; apply Rabs_le; lra)) as Y.
  rewrite v_h in X. rewrite v_g14 in Y. lra.
Qed.

Lemma g_small : / 2 ^ 1000 <= / 2 ^ 20.
Proof. apply Rinv_le_contravar; [lra|apply Rle_pow; [lra|lia]]. Qed.

Lemma g_node h k : In h eH -> In k eK -> node64 ekm eVp epre (gtr "A") grf h k.
Proof.
  intros Hh Hk. destruct (C84_example h k Hh Hk) as [N1 N2 N3 N4 N5]. constructor.
  - exact N1.
  - exact N2.
  - cbn [gtr tr_data]. rewrite g_len. lia.
  - vm_compute. discriminate.
  - intros tr Htr. destruct (N5 (etr "A") (or_introl eq_refl)) as (F & _ & S & C).
    destruct Htr as [<-|[<-|[]]]; (split; [exact F|]; split; [exact g_dsane|]; split; [exact S|exact C]).
Qed.

Lemma g_resolved h k : In h eH -> In k eK -> (h, k) <> (e32, k7) -> resolved64 (tol (1 / 4) (17 / 8) 120) (13 / 2) (1 / 16) (real e32) (real k7) (real h) (real k).
Proof.
  intros Hh Hk Hne. rewrite v_32, v_k7. pose proof e_tol. pose proof e_qp. pose proof e_qs6. pose proof e_qs7. pose proof e_qs8. unfold resolved64.
  destruct Hh as [<-|[<-|[<-|[]]]]; destruct Hk as [<-|[<-|[<-|[]]]]; rewrite ?v_24, ?v_32, ?v_40, ?v_k6, ?v_k7, ?v_k8;
    try (exfalso; apply Hne; reflexivity);
    first [ right; apply max_abs; lra
          | left; replace (24 - 32) with (-8) by ring; rewrite Rabs_left by lra; lra
          | left; replace (40 - 32) with 8 by ring; rewrite Rabs_right by lra; lra ].
Qed.

Theorem C124_example : exists r,
  @hk B64 ekm estack edraw grf epre eH eK (Some eVp) (Some ew1) (Some ew2) (Some ew3) None (Some false) = Ok r /\
  exists s, nth_error (hr_stk r) (hr_best r) = Some (@mkRow B64 e32 k7 s).
Proof.
  match goal with |- exists r, ?x = Ok r /\ _ =>
    assert (E : chk x (fun _ => true) = true) by (vm_compute; reflexivity) end.
  apply chk_true in E. destruct E as [r [E _]]. exists r. split; [exact E|].
  assert (Hr : forall tr, In tr grf -> real ekm * real (tr_slow tr) = 1 / 16) by (intros tr [<-|[<-|[]]]; cbn [gtr tr_slow]; rewrite v_km, v_slow; lra).
  apply (C124_hk ekm estack edraw grf epre eH eK eVp ew1 ew2 ew3 None r (gtr "A") e32 k7 3 (1 / 64) E eq_refl e_wsane g_node).
  - right; left; reflexivity.
  - right; left; reflexivity.
  - intros tr Htr. rewrite (Hr tr Htr). replace (tr_data tr) with gdata by (destruct Htr as [<-|[<-|[]]]; reflexivity).
    split; [exact g_bounded|]. cbn [gtr tr_delta tr_data]. rewrite v_delta, v_pre, v_w1, v_w2, v_w3, v_Vp, g_len. exact g_clear.
  - intros h k Hh Hk Hne. exists (gtr "A"). split; [left; reflexivity|]. rewrite (Hr (gtr "A")) by (left; reflexivity).
    cbn [gtr tr_delta tr_data]. rewrite v_delta, v_pre, v_Vp, g_len. apply g_resolved; assumption.
  - lra.
  - rewrite v_w1, v_w2, v_w3. change (INR (length grf)) with 2. pose proof g_small. set (z := / 2 ^ 1000) in *. lra.
Qed.

Theorem C124_hkSynth_example : exists r,
  @hkSynth B64 edraw gdata (@uniform_axis B64 edelta 120 epre) fp16 PyF eH eK (Some eVp) (Some ew1) (Some ew2) (Some ew3) None = Ok r /\
  exists s, nth_error (hs_stk r) (hs_best r) = Some (@mkRow B64 e32 k7 s).
Proof.
  match goal with |- exists r, ?x = Ok r /\ _ =>
    assert (E : chk x (fun _ => true) = true) by (vm_compute; reflexivity) end.
  apply chk_true in E. destruct E as [r [E _]]. exists r. split; [exact E|].
  apply (C124_hkSynth edraw gdata edelta epre 120 fp16 PyF eH eK eVp ew1 ew2 ew3 None r e32 k7 3 (1 / 64) E).
  - constructor; [split; fdl| |lia|exact g_dsane]. rewrite v_delta, v_pre. constructor; [lra|apply Rabs_le; lra|vm_compute; discriminate].
  - exact e_wsane.
  - fdl.
  - exact f_grid.
  - intros h k Hh Hk. rewrite v_delta, v_pre, v_Vp, v_p16. unfold covered. rewrite e_inr. unfold t_Ps, t_PpPs, t_PsPs.
    pose proof e_qp. pose proof e_qs6. pose proof e_qs7. pose proof e_qs8.
    destruct Hh as [<-|[<-|[<-|[]]]]; destruct Hk as [<-|[<-|[<-|[]]]]; rewrite ?v_24, ?v_32, ?v_40, ?v_k6, ?v_k7, ?v_k8; lra.
  - right; left; reflexivity.
  - right; left; reflexivity.
  - exact g_bounded.
  - rewrite v_delta, v_pre, v_w1, v_w2, v_w3, v_Vp, v_p16. exact g_clear.
  - split; [lra|]. rewrite v_w1, v_w2, v_w3. pose proof g_small. set (z := / 2 ^ 1000) in *. lra.
  - intros h k Hh Hk Hne. rewrite v_delta, v_pre, v_Vp, v_p16. apply g_resolved; assumption.
Qed.
