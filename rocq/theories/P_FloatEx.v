(** * P_FloatEx: a concrete double-precision run meeting the hypotheses of C82-C86. *)

From Coq Require Import ZArith Reals Lra Lia Psatz Floats.SpecFloat.
From Flocq Require Import Core BinarySingleNaN.
From Verif Require Import Base Num NumPy Spec HkModel HkProofs HkReal HkFacts HkFacts4 P_Hk DrawSpec P_Hk5 P_Hk6 Float64 FloatErr FloatHk FloatStack P_Float P_Float2.

Local Open Scope R_scope.

Definition dbl (n : Z) (d : positive) : B64 := sf_lit n d.
Definition eVp : B64 := Eval vm_compute in dbl 13 2.
Definition ekm : B64 := Eval vm_compute in dbl 1 2.
Definition eslow : B64 := Eval vm_compute in dbl 1 8.
Definition epre : B64 := Eval vm_compute in dbl 17 8.
Definition edelta : B64 := Eval vm_compute in dbl 1 4.
Definition e24 : B64 := Eval vm_compute in dbl 24 1.
Definition e32 : B64 := Eval vm_compute in dbl 32 1.
Definition e40 : B64 := Eval vm_compute in dbl 40 1.
Definition k6 : B64 := Eval vm_compute in dbl 3 2.
Definition k7 : B64 := Eval vm_compute in dbl 7 4.
Definition k8 : B64 := Eval vm_compute in dbl 2 1.
Definition ew1 : B64 := Eval vm_compute in dbl 1 2.
Definition ew2 : B64 := Eval vm_compute in dbl 1 4.
Definition ew3 : B64 := Eval vm_compute in dbl 1 8.
Definition d0 : B64 := Eval vm_compute in dbl 0 1.
Definition d1_ : B64 := Eval vm_compute in dbl 1 1.
Definition dm1 : B64 := Eval vm_compute in dbl (-1) 1.
Definition dh : B64 := Eval vm_compute in dbl 1 2.

Ltac rv := unfold real, SF2R, F2R; simpl; lra.
Lemma v_Vp : real eVp = 13 / 2. Proof. rv. Qed.
Lemma v_km : real ekm = 1 / 2. Proof. rv. Qed.
Lemma v_slow : real eslow = 1 / 8. Proof. rv. Qed.
Lemma v_pre : real epre = 17 / 8. Proof. rv. Qed.
Lemma v_delta : real edelta = 1 / 4. Proof. rv. Qed.
Lemma v_24 : real e24 = 24. Proof. rv. Qed.
Lemma v_32 : real e32 = 32. Proof. rv. Qed.
Lemma v_40 : real e40 = 40. Proof. rv. Qed.
Lemma v_k6 : real k6 = 3 / 2. Proof. rv. Qed.
Lemma v_k7 : real k7 = 7 / 4. Proof. rv. Qed.
Lemma v_k8 : real k8 = 2. Proof. rv. Qed.
Lemma v_w1 : real ew1 = 1 / 2. Proof. rv. Qed.
Lemma v_w2 : real ew2 = 1 / 4. Proof. rv. Qed.
Lemma v_w3 : real ew3 = 1 / 8. Proof. rv. Qed.
Lemma v_0 : real d0 = 0. Proof. reflexivity. Qed.
Lemma v_1 : real d1_ = 1. Proof. rv. Qed.
Lemma v_m1 : real dm1 = -1. Proof. rv. Qed.
Lemma v_h : real dh = 1 / 2. Proof. rv. Qed.
Ltac fdl := split; [reflexivity|exact I].

(** Slownesses: qp = sqrt(4/169 - 1/256), qs(k) = sqrt((2k/13)^2 - 1/256). *)
Lemma sqrt_between x a b : 0 <= a -> 0 <= b -> a * a <= x <= b * b -> a <= sqrt x <= b.
Proof.
  intros Ha Hb [H1 H2]. pose proof (Rle_0_sqr a) as Qa. unfold Rsqr in Qa. split.
  - rewrite <- (sqrt_square a) by lra. apply sqrt_le_1; lra.
  - rewrite <- (sqrt_square b) by lra. apply sqrt_le_1; lra.
Qed.
Lemma e_qp : 1405 / 10000 <= qp (13 / 2) (1 / 16) <= 1406 / 10000.
Proof. unfold qp. apply sqrt_between; lra. Qed.
Lemma e_qs6 : 2221 / 10000 <= qs (13 / 2) (3 / 2) (1 / 16) <= 2222 / 10000.
Proof. unfold qs. apply sqrt_between; lra. Qed.
Lemma e_qs7 : 2618 / 10000 <= qs (13 / 2) (7 / 4) (1 / 16) <= 2619 / 10000.
Proof. unfold qs. apply sqrt_between; lra. Qed.
Lemma e_qs8 : 3012 / 10000 <= qs (13 / 2) 2 (1 / 16) <= 3013 / 10000.
Proof. unfold qs. apply sqrt_between; lra. Qed.

(** Arrivals of (32, 7/4): 3.88, 12.88, 16.76 s, nearest samples 24, 60 and 76. *)
Lemma e_T : 38784 / 10000 <= t_Ps (13 / 2) (1 / 16) 32 (7 / 4) <= 38848 / 10000 /\
  128736 / 10000 <= t_PpPs (13 / 2) (1 / 16) 32 (7 / 4) <= 128800 / 10000 /\
  167552 / 10000 <= t_PsPs (13 / 2) (1 / 16) 32 (7 / 4) <= 167616 / 10000.
Proof. unfold t_Ps, t_PpPs, t_PsPs. pose proof e_qp. pose proof e_qs7. lra. Qed.

Definition esample (i : nat) : B64 :=
  if Nat.eqb i 24 then d1_ else if Nat.eqb i 60 then d1_ else if Nat.eqb i 76 then dm1 else if Nat.eqb i 8 then dh else d0.
Definition edata : list B64 := map esample (seq 0 120).
Definition etr (sta : string) : trace B64 := @mkTrace B64 edata edelta eslow PyF (SFopp epre) d0 (dbl 60 1) sta "Q" None.
Definition erf : stream B64 := [etr "A"%string; etr "B"%string].
Definition eH : list B64 := [e24; e32; e40].
Definition eK : list B64 := [k6; k7; k8].

Lemma e_len : length edata = 120%nat. Proof. reflexivity. Qed.
Lemma e_nth i : (i < 120)%nat -> nth_error edata i = Some (esample i).
Proof. intro Hi. unfold edata. rewrite nth_error_map, nth_seq by exact Hi. reflexivity. Qed.

Lemma e_dsane : dsane edata.
Proof.
  assert (H : forall i, fdouble (esample i) /\ Rabs (real (esample i)) <= 2 ^ 50).
  { intro i. unfold esample. repeat destruct (Nat.eqb _ _); (split; [fdl|]);
      rewrite ?v_0, ?v_1, ?v_m1, ?v_h; apply Rabs_le; lra. }
  intros x Hx. unfold edata in Hx. apply in_map_iff in Hx. destruct Hx as (i & <- & _). apply H.
Qed.

Lemma e_ray tr : In tr erf -> real ekm * real (tr_slow tr) = 1 / 16.
Proof. intros [<-|[<-|[]]]; cbn [etr tr_slow]; rewrite v_km, v_slow; lra. Qed.
Lemma e_data tr : In tr erf -> tr_data tr = edata.
Proof. intros [<-|[<-|[]]]; reflexivity. Qed.

Lemma e_inr : INR (120 - 1) = 119. Proof. rewrite INR_IZR_INZ. reflexivity. Qed.
Lemma e_inr' : INR 120 = 120. Proof. rewrite INR_IZR_INZ. reflexivity. Qed.

(** Every node of the grid is of usual size and covered by the record. *)
Theorem C84_example h k : In h eH -> In k eK -> node64 ekm eVp epre (etr "A") erf h k.
Proof.
  intros Hh Hk.
  assert (V1 : fdouble h /\ fdouble k). { destruct Hh as [<-|[<-|[<-|[]]]]; destruct Hk as [<-|[<-|[<-|[]]]]; split; fdl. }
  constructor.
  - split; [fdl|]. split; [fdl|]. split; [fdl|]. split; [fdl|]. exact V1.
  - cbn [etr tr_delta tr_data]. rewrite v_delta, v_pre, e_len. constructor; [lra|apply Rabs_le; lra|vm_compute; discriminate].
  - cbn [etr tr_data]. rewrite e_len. lia.
  - vm_compute. discriminate.
  - intros tr Htr. rewrite (e_ray tr Htr), (e_data tr Htr). split. { destruct Htr as [<-|[<-|[]]]; fdl. }
    split; [apply e_dsane|]. cbn [etr tr_delta tr_data]. rewrite v_delta, v_pre, e_len, v_Vp. split.
    + destruct Hh as [<-|[<-|[<-|[]]]]; destruct Hk as [<-|[<-|[<-|[]]]]; rewrite ?v_24, ?v_32, ?v_40, ?v_k6, ?v_k7, ?v_k8; constructor; lra.
    + unfold covered3, covered. rewrite e_inr. unfold t_Ps, t_PpPs, t_PsPs. pose proof e_qp. pose proof e_qs6. pose proof e_qs7. pose proof e_qs8.
      destruct Hh as [<-|[<-|[<-|[]]]]; destruct Hk as [<-|[<-|[<-|[]]]]; rewrite ?v_24, ?v_32, ?v_40, ?v_k6, ?v_k7, ?v_k8; lra.
Qed.

Lemma e_wsane : wsane ew1 ew2 ew3.
Proof. split; [split; [fdl|split; fdl]|]. rewrite v_w1, v_w2, v_w3. repeat split; apply Rabs_le; lra. Qed.

Definition estack (s : stream B64) : res (list (trace B64)) := Ok s.
Definition edraw : list (row B64) -> res unit := @pyplot B64.

Lemma e_tol : 125 / 1000 <= tol (1 / 4) (17 / 8) 120 <= 1251 / 10000.
Proof. unfold tol. rewrite e_inr'. rewrite (Rabs_right (17 / 8)) by lra. lra. Qed.

(** A sample within [e] of [T] is sample [n]. *)
Lemma e_pick i n : INR n - 1 < INR i < INR n + 1 -> i = n.
Proof.
  intros [A B]. assert (INR i < INR (n + 1)) by (rewrite plus_INR; simpl; lra). assert (INR n < INR (i + 1)) by (rewrite plus_INR; simpl; lra).
  apply INR_lt in H, H0. lia.
Qed.

Lemma e_pulses : pulses 1 (1 / 2) edata (1 / 4) (17 / 8) 120 (tol (1 / 4) (17 / 8) 120)
  (t_Ps (13 / 2) (1 / 16) 32 (7 / 4)) (t_PpPs (13 / 2) (1 / 16) 32 (7 / 4)) (t_PsPs (13 / 2) (1 / 16) 32 (7 / 4)).
Proof.
  intros i x Hi Hx t. rewrite e_nth in Hx by exact Hi. injection Hx as <-.
  destruct e_T as (T1 & T2 & T3). pose proof e_tol as E.
  assert (N24 : INR 24 = 24) by (rewrite INR_IZR_INZ; reflexivity). assert (N60 : INR 60 = 60) by (rewrite INR_IZR_INZ; reflexivity).
  assert (N76 : INR 76 = 76) by (rewrite INR_IZR_INZ; reflexivity).
  split; [|split; [|split]].
  - intro D. apply abs_le_inv in D. unfold t in D. assert (i = 24%nat) as ->; [|exact v_1]. apply e_pick. rewrite N24. lra.
  - intro D. apply abs_le_inv in D. unfold t in D. assert (i = 60%nat) as ->; [|exact v_1]. apply e_pick. rewrite N60. lra.
  - intro D. apply abs_le_inv in D. unfold t in D. assert (i = 76%nat) as ->; [|exact v_m1].
    (* sample 75 is 0.13 s away *)
    assert (G : INR i < 77 /\ 75 < INR i) by lra. apply e_pick. rewrite N76. lra.
  - intros D1 D2 D3. unfold esample.
    destruct (Nat.eqb_spec i 24) as [->|X1]. { exfalso. revert D1. apply Rle_not_lt. unfold t. rewrite N24. apply Rabs_le. lra. }
    destruct (Nat.eqb_spec i 60) as [->|X2]. { exfalso. revert D2. apply Rle_not_lt. unfold t. rewrite N60. apply Rabs_le. lra. }
    destruct (Nat.eqb_spec i 76) as [->|X3]. { exfalso. revert D3. apply Rle_not_lt. unfold t. rewrite N76. apply Rabs_le. lra. }
    destruct (Nat.eqb i 8); rewrite ?v_h, ?v_0; apply Rabs_le; lra.
Qed.

Lemma e_resolved h k : In h eH -> In k eK -> (h, k) <> (e32, k7) ->
  resolved64 (tol (1 / 4) (17 / 8) 120) (13 / 2) (1 / 16) 32 (7 / 4) (real h) (real k).
Proof.
  intros Hh Hk Hne. pose proof e_tol as E. pose proof e_qp as Q. pose proof e_qs6. pose proof e_qs7. pose proof e_qs8. unfold resolved64.
  assert (M : forall x y, x < y \/ x < - y -> x < Rabs y) by (intros x y [?|?]; [pose proof (Rle_abs y)|pose proof (Rle_abs (- y)) as B; rewrite Rabs_Ropp in B]; lra).
  destruct Hh as [<-|[<-|[<-|[]]]]; destruct Hk as [<-|[<-|[<-|[]]]]; rewrite ?v_24, ?v_32, ?v_40, ?v_k6, ?v_k7, ?v_k8;
    try (exfalso; apply Hne; reflexivity);
    first [ right; apply M; lra
          | left; replace (24 - 32) with (-8) by ring; rewrite Rabs_left by lra; lra
          | left; replace (40 - 32) with 8 by ring; rewrite Rabs_right by lra; lra ].
Qed.

(** The run in double precision returns, and reports the true crust. *)
Theorem C86_example : exists r,
  @hk B64 ekm estack edraw erf epre eH eK (Some eVp) (Some ew1) (Some ew2) (Some ew3) None (Some false) = Ok r /\
  exists s, nth_error (hr_stk r) (hr_best r) = Some (@mkRow B64 e32 k7 s).
Proof.
  match goal with |- exists r, ?x = Ok r /\ _ =>
    assert (E : chk x (fun _ => true) = true) by (vm_compute; reflexivity) end.
  apply chk_true in E. destruct E as [r [E _]].
  - exists r. split; [exact E|].
    destruct (C86_hk_recovers ekm estack edraw erf epre eH eK eVp ew1 ew2 ew3 None r (etr "A") e32 k7 1 (1 / 2) (1 / 8) E eq_refl e_wsane)
      as (s & Hs & _); rewrite ?v_w1, ?v_w2, ?v_w3; try lra.
    + exact C84_example.
    + right; left; reflexivity.
    + right; left; reflexivity.
    + intros tr Htr. rewrite (e_data tr Htr), (e_ray tr Htr). cbn [etr tr_delta tr_data]. rewrite v_delta, v_pre, e_len, v_Vp, v_32, v_k7. apply e_pulses.
    + intros tr Htr. rewrite (e_ray tr Htr). cbn [etr tr_delta tr_data]. rewrite v_delta, v_pre, e_len, v_Vp, v_32. pose proof e_qp. pose proof e_tol. lra.
    + intros h k Hh Hk Hne. exists (etr "A"). split; [now left|]. rewrite (e_ray (etr "A")) by now left.
      cbn [etr tr_delta tr_data]. rewrite v_delta, v_pre, e_len, v_Vp, v_32, v_k7. apply e_resolved; assumption.
    + change (length erf) with 2%nat. simpl INR. assert (/ 2 ^ 1000 <= / 2 ^ 10) by (apply Rinv_le_contravar; [lra|apply Rle_pow; [lra|lia]]).
      set (z := / 2 ^ 1000) in *.
      lra.
    + exists s. exact Hs.
Qed.
