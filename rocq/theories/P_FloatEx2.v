(** * P_FloatEx2: concrete double-precision runs meeting the hypotheses of C89-C91. *)

From Coq Require Import ZArith Reals Lra Lia Psatz Floats.SpecFloat.
From Flocq Require Import Core BinarySingleNaN.
From Verif Require Import Base Num NumPy Spec HkModel HkProofs HkReal HkFacts HkFacts4 P_Hk DrawSpec P_Hk5 P_Hk6 Float64 FloatErr FloatHk FloatStack FloatSeq P_Float P_Float2 P_FloatEx FloatTable FloatOne P_Float3 P_Float4.

Local Open Scope R_scope.

Definition fp16 : B64 := Eval vm_compute in dbl 1 16.
Definition f3 : B64 := Eval vm_compute in dbl 3 1.
Definition f52 : B64 := Eval vm_compute in dbl 5 2.
Definition f72 : B64 := Eval vm_compute in dbl 7 2.
Lemma v_p16 : real fp16 = 1 / 16. Proof. rv. Qed.
Lemma v_3 : real f3 = 3. Proof. rv. Qed.
Lemma v_52 : real f52 = 5 / 2. Proof. rv. Qed.
Lemma v_72 : real f72 = 7 / 2. Proof. rv. Qed.

(** A record of 140 samples with the three pulses and a smaller arrival at sample 8. *)
Definition fsample (i1 i2 i3 i : nat) : B64 :=
  if Nat.eqb i i1 then d1_ else if Nat.eqb i i2 then d1_ else if Nat.eqb i i3 then dm1 else if Nat.eqb i 8 then dh else d0.
Definition fdata (i1 i2 i3 : nat) : list B64 := map (fsample i1 i2 i3) (seq 0 140).

Lemma f_len i1 i2 i3 : length (fdata i1 i2 i3) = 140%nat. Proof. unfold fdata. rewrite map_length, seq_length. reflexivity. Qed.
Lemma f_nth i1 i2 i3 i : (i < 140)%nat -> nth_error (fdata i1 i2 i3) i = Some (fsample i1 i2 i3 i).
Proof. intro Hi. unfold fdata. rewrite nth_error_map, nth_seq by exact Hi. reflexivity. Qed.
Lemma f_inr : INR (140 - 1) = 139. Proof. rewrite INR_IZR_INZ. reflexivity. Qed.
Lemma f_inr' : INR 140 = 140. Proof. rewrite INR_IZR_INZ. reflexivity. Qed.
Lemma f_tol : 125 / 1000 <= tol (1 / 4) (17 / 8) 140 <= 1251 / 10000.
Proof. unfold tol. rewrite f_inr'. rewrite (Rabs_right (17 / 8)) by lra. lra. Qed.

Lemma f_rec i1 i2 i3 : rec64 (fdata i1 i2 i3) edelta epre 140.
Proof.
  constructor; [split; fdl| |lia|].
  - rewrite v_delta, v_pre. constructor; [lra|apply Rabs_le; lra|vm_compute; discriminate].
  - intros x Hx. unfold fdata in Hx. apply in_map_iff in Hx. destruct Hx as (i & <- & _).
    unfold fsample. repeat destruct (Nat.eqb _ _); (split; [fdl|]); rewrite ?v_0, ?v_1, ?v_m1, ?v_h; apply Rabs_le; lra.
Qed.

Lemma f_pulses i1 i2 i3 T1 T2 T3 : i1 <> i2 -> i1 <> i3 -> i2 <> i3 ->
  - (1248 / 10000) <= 1 / 4 * INR i1 - 17 / 8 - T1 <= 1248 / 10000 ->
  - (1248 / 10000) <= 1 / 4 * INR i2 - 17 / 8 - T2 <= 1248 / 10000 ->
  - (1248 / 10000) <= 1 / 4 * INR i3 - 17 / 8 - T3 <= 1248 / 10000 ->
  pulses 1 (1 / 2) (fdata i1 i2 i3) (real edelta) (real epre) 140 (tol (real edelta) (real epre) 140) T1 T2 T3.
Proof.
  intros N12 N13 N23 B1 B2 B3. rewrite v_delta, v_pre. intros i x Hi Hx t. rewrite f_nth in Hx by exact Hi. injection Hx as <-.
  pose proof f_tol as E. unfold fsample. split; [|split; [|split]].
  - intro D. apply abs_le_inv in D. unfold t in D. assert (i = i1) as -> by (apply e_pick; lra). rewrite Nat.eqb_refl. exact v_1.
  - intro D. apply abs_le_inv in D. unfold t in D. assert (i = i2) as -> by (apply e_pick; lra).
    destruct (Nat.eqb i2 i1); [exact v_1|]. rewrite Nat.eqb_refl. exact v_1.
  - intro D. apply abs_le_inv in D. unfold t in D. assert (i = i3) as -> by (apply e_pick; lra).
    destruct (Nat.eqb_spec i3 i1); [congruence|]. destruct (Nat.eqb_spec i3 i2); [congruence|]. rewrite Nat.eqb_refl. exact v_m1.
  - intros D1 D2 D3.
    destruct (Nat.eqb_spec i i1) as [->|X1]. { exfalso. revert D1. apply Rle_not_lt. unfold t. apply Rabs_le. lra. }
    destruct (Nat.eqb_spec i i2) as [->|X2]. { exfalso. revert D2. apply Rle_not_lt. unfold t. apply Rabs_le. lra. }
    destruct (Nat.eqb_spec i i3) as [->|X3]. { exfalso. revert D3. apply Rle_not_lt. unfold t. apply Rabs_le. lra. }
    destruct (Nat.eqb i 8); rewrite ?v_h, ?v_0; apply Rabs_le; lra.
Qed.

Lemma f_stands : stands_out ew1 ew2 ew3 1 (1 / 2) (1 / 8).
Proof.
  unfold stands_out. rewrite v_w1, v_w2, v_w3. assert (/ 2 ^ 1000 <= / 2 ^ 10) by (apply Rinv_le_contravar; [lra|apply Rle_pow; [lra|lia]]).
  set (z := / 2 ^ 1000) in *. repeat split; lra.
Qed.

Lemma f_grid : grid64 eVp (real fp16) eH eK.
Proof.
  split; [fdl|]. intros h k Hh Hk. rewrite v_Vp, v_p16.
  destruct Hh as [<-|[<-|[<-|[]]]]; destruct Hk as [<-|[<-|[<-|[]]]]; (split; [fdl|split; [fdl|]]);
    rewrite ?v_24, ?v_32, ?v_40, ?v_k6, ?v_k7, ?v_k8; constructor; lra.
Qed.

(** Sediment: Vp 3 km/s, grid {2.5, 3.5} km x {2, 2.5}. *)
Definition sH : list B64 := [f52; f72].
Definition sK : list B64 := [k8; f52].
Lemma s_grid : grid64 f3 (real fp16) sH sK.
Proof.
  split; [fdl|]. intros h k Hh Hk. rewrite v_3, v_p16.
  destruct Hh as [<-|[<-|[]]]; destruct Hk as [<-|[<-|[]]]; (split; [fdl|split; [fdl|]]); rewrite ?v_52, ?v_72, ?v_k8; constructor; lra.
Qed.
Lemma s_qp : 3274 / 10000 <= qp 3 (1 / 16) <= 3275 / 10000.
Proof. unfold qp. apply sqrt_between; lra. Qed.
Lemma s_qs2 : 6637 / 10000 <= qs 3 2 (1 / 16) <= 6638 / 10000.
Proof. unfold qs. apply sqrt_between; lra. Qed.
Lemma s_qs52 : 8309 / 10000 <= qs 3 (5 / 2) (1 / 16) <= 8310 / 10000.
Proof. unfold qs. apply sqrt_between; lra. Qed.

Lemma s_covers : covers edelta epre 140 (t_Ps (real f3) (real fp16)) (t_PpPs (real f3) (real fp16)) (t_PsPs (real f3) (real fp16)) sH sK.
Proof.
  intros h k Hh Hk. rewrite v_delta, v_pre, v_3, v_p16. unfold covered. rewrite f_inr. unfold t_Ps, t_PpPs, t_PsPs.
  pose proof s_qp. pose proof s_qs2. pose proof s_qs52.
  destruct Hh as [<-|[<-|[]]]; destruct Hk as [<-|[<-|[]]]; rewrite ?v_52, ?v_72, ?v_k8; lra.
Qed.

Lemma max_abs x y : x < y \/ x < - y -> x < Rabs y.
Proof. intros [?|?]; [pose proof (Rle_abs y)|pose proof (Rle_abs (- y)) as B; rewrite Rabs_Ropp in B]; lra. Qed.

Lemma s_resolved : all_resolved (tol (real edelta) (real epre) 140) f3 (real fp16) f72 k8 sH sK.
Proof.
  intros h k Hh Hk Hne. rewrite v_delta, v_pre, v_3, v_p16. pose proof f_tol. pose proof s_qp. pose proof s_qs2. pose proof s_qs52. unfold resolved64.
  destruct Hh as [<-|[<-|[]]]; destruct Hk as [<-|[<-|[]]]; rewrite ?v_52, ?v_72, ?v_k8; try (exfalso; apply Hne; reflexivity);
    first [ right; apply max_abs; lra | left; replace (5 / 2 - 7 / 2) with (-1) by lra; rewrite Rabs_left by lra; lra ].
Qed.

Lemma m_resolved : all_resolved (tol (real edelta) (real epre) 140) eVp (real fp16) e32 k7 eH eK.
Proof.
  intros h k Hh Hk Hne. rewrite v_delta, v_pre, v_Vp, v_p16, v_32, v_k7. pose proof f_tol. pose proof e_qp. pose proof e_qs6. pose proof e_qs7. pose proof e_qs8. unfold resolved64.
  destruct Hh as [<-|[<-|[<-|[]]]]; destruct Hk as [<-|[<-|[<-|[]]]]; rewrite ?v_24, ?v_32, ?v_40, ?v_k6, ?v_k7, ?v_k8;
    try (exfalso; apply Hne; reflexivity);
    first [ right; apply max_abs; lra
          | left; replace (24 - 32) with (-8) by ring; rewrite Rabs_left by lra; lra
          | left; replace (40 - 32) with 8 by ring; rewrite Rabs_right by lra; lra ].
Qed.

Lemma f_axis_ne : @uniform_axis B64 edelta 140 epre <> []. Proof. discriminate. Qed.
Lemma f_axis_len i1 i2 i3 : (length (@uniform_axis B64 edelta 140 epre) <= length (fdata i1 i2 i3))%nat.
Proof. rewrite f_len. unfold uniform_axis. rewrite map_length, seq_length. apply le_n. Qed.

Ltac inrs := rewrite ?(INR_IZR_INZ 24), ?(INR_IZR_INZ 60), ?(INR_IZR_INZ 76), ?(INR_IZR_INZ 25), ?(INR_IZR_INZ 63), ?(INR_IZR_INZ 80),
  ?(INR_IZR_INZ 13), ?(INR_IZR_INZ 22), ?(INR_IZR_INZ 27), ?(INR_IZR_INZ 29), ?(INR_IZR_INZ 74), ?(INR_IZR_INZ 94); simpl IZR.

Theorem C91_hkSynth_example : exists r,
  @hkSynth B64 edraw (fdata 24 60 76) (@uniform_axis B64 edelta 140 epre) fp16 PyF eH eK (Some eVp) (Some ew1) (Some ew2) (Some ew3) None = Ok r /\
  reports (hs_stk r) (hs_best r) e32 k7 (7 / 8).
Proof.
  match goal with |- exists r, ?x = Ok r /\ _ =>
    assert (E : chk x (fun _ => true) = true) by (vm_compute; reflexivity) end.
  apply chk_true in E. destruct E as [r [E _]].
  exists r. split; [exact E|].
  replace (7 / 8) with (1 * (real ew1 + real ew2 + real ew3)) by (rewrite v_w1, v_w2, v_w3; lra).
  apply (C91_hkSynth edraw (fdata 24 60 76) edelta epre 140 fp16 PyF eH eK eVp ew1 ew2 ew3 None r e32 k7 1 (1 / 2) (1 / 8) E
    (f_rec _ _ _) e_wsane ltac:(fdl) f_grid).
  - intros h k Hh Hk. rewrite v_delta, v_pre, v_Vp, v_p16. unfold covered. rewrite f_inr. unfold t_Ps, t_PpPs, t_PsPs.
    pose proof e_qp. pose proof e_qs6. pose proof e_qs7. pose proof e_qs8.
    destruct Hh as [<-|[<-|[<-|[]]]]; destruct Hk as [<-|[<-|[<-|[]]]]; rewrite ?v_24, ?v_32, ?v_40, ?v_k6, ?v_k7, ?v_k8; lra.
  - exact f_stands.
  - right; left; reflexivity.
  - right; left; reflexivity.
  - rewrite v_Vp, v_p16, v_32, v_k7. destruct e_T as (T1 & T2 & T3). apply f_pulses; try lia; inrs; lra.
  - rewrite v_delta, v_pre, v_Vp, v_p16, v_32. pose proof e_qp. pose proof f_tol. lra.
  - exact m_resolved.
Qed.

(** hkYu: tlag 1 s, sediment Vp 2 km/s, Vs 1 km/s: delays 0.25, 0.75 and 1 s on top of those of the crust. *)
Theorem C91_hkYu_example : exists r,
  @hkYu B64 edraw (fdata 25 63 80) (@uniform_axis B64 edelta 140 epre) d1_ PyF fp16 PyF eH eK (Some eVp) (Some k8) (Some d1_) (Some ew1) (Some ew2) (Some ew3) = Ok r /\
  reports (yr_stk r) (yr_best r) e32 k7 (7 / 8).
Proof.
  match goal with |- exists r, ?x = Ok r /\ _ =>
    assert (E : chk x (fun _ => true) = true) by (vm_compute; reflexivity) end.
  apply chk_true in E. destruct E as [r [E _]].
  exists r. split; [exact E|].
  replace (7 / 8) with (1 * (real ew1 + real ew2 + real ew3)) by (rewrite v_w1, v_w2, v_w3; lra).
  destruct (sed_closed 1 2 1) as (D1 & D2 & D3); [lra|lra|].
  apply (C91_hkYu edraw (fdata 25 63 80) edelta epre 140 d1_ PyF fp16 PyF eH eK eVp k8 d1_ ew1 ew2 ew3 r e32 k7 1 (1 / 2) (1 / 8) E
    (f_rec _ _ _) e_wsane); try fdl.
  - rewrite v_1, v_k8. constructor; lra.
  - exact f_grid.
  - intros h k Hh Hk. cbn beta. rewrite v_delta, v_pre, v_Vp, v_p16, v_1, v_k8, D1, D2, D3. unfold covered. rewrite f_inr. unfold t_Ps, t_PpPs, t_PsPs.
    pose proof e_qp. pose proof e_qs6. pose proof e_qs7. pose proof e_qs8.
    destruct Hh as [<-|[<-|[<-|[]]]]; destruct Hk as [<-|[<-|[<-|[]]]]; rewrite ?v_24, ?v_32, ?v_40, ?v_k6, ?v_k7, ?v_k8; lra.
  - exact f_stands.
  - right; left; reflexivity.
  - right; left; reflexivity.
  - rewrite v_Vp, v_p16, v_32, v_k7, v_1, v_k8, D1, D2, D3. destruct e_T as (T1 & T2 & T3). apply f_pulses; try lia; inrs; lra.
  - rewrite v_delta, v_pre, v_Vp, v_p16, v_32. pose proof e_qp. pose proof f_tol. lra.
  - exact m_resolved.
Qed.

(** hkSeqSynth: sediment (3.5 km, 2) over crust (32 km, 1.75). *)
Theorem C91_hkSeqSynth_example : exists r,
  @hkSeqSynth B64 edraw (fdata 13 22 27) (fdata 29 74 94) (@uniform_axis B64 edelta 140 epre) fp16 PyF sH sK (Some f3) (Some ew1) (Some ew2) (Some ew3)
    eH eK (Some eVp) (Some ew1) (Some ew2) (Some ew3) = Ok r /\
  reports (ss_stkSed r) (ss_bestSed r) f72 k8 (7 / 8) /\ reports (ss_stkMoho r) (ss_bestMoho r) e32 k7 (7 / 8).
Proof.
  match goal with |- exists r, ?x = Ok r /\ _ =>
    assert (E : chk x (fun _ => true) = true) by (vm_compute; reflexivity) end.
  apply chk_true in E. destruct E as [r [E _]].
  exists r. split; [exact E|].
  replace (7 / 8) with (1 * (real ew1 + real ew2 + real ew3)) by (rewrite v_w1, v_w2, v_w3; lra).
  pose proof s_qp. pose proof s_qs2. pose proof e_qp. pose proof e_qs6. pose proof e_qs7. pose proof e_qs8. pose proof f_tol.
  apply (C91_hkSeqSynth edraw (fdata 13 22 27) (fdata 29 74 94) edelta epre 140 fp16 PyF sH sK f3 ew1 ew2 ew3 eH eK eVp ew1 ew2 ew3 r f72 k8 e32 k7
    1 (1 / 2) (1 / 8) 1 (1 / 2) (1 / 8) E (f_rec _ _ _) (f_rec _ _ _) e_wsane e_wsane ltac:(fdl) s_grid f_grid f_stands f_stands).
  - right; left; reflexivity.
  - left; reflexivity.
  - right; left; reflexivity.
  - right; left; reflexivity.
  - exact s_covers.
  - intros h k Hh Hk. rewrite v_delta, v_pre, v_Vp, v_p16, v_3, v_72. unfold covered, t2_Ps, t2_PpPs, t2_PsPs. rewrite f_inr. unfold t_Ps, t_PpPs, t_PsPs.
    destruct Hh as [<-|[<-|[<-|[]]]]; destruct Hk as [<-|[<-|[<-|[]]]]; rewrite ?v_24, ?v_32, ?v_40, ?v_k6, ?v_k7, ?v_k8; lra.
  - rewrite v_3, v_p16, v_72, v_k8. unfold t_Ps, t_PpPs, t_PsPs. apply f_pulses; try lia; inrs; lra.
  - rewrite v_Vp, v_3, v_p16, v_72, v_k8, v_32, v_k7. unfold t2_Ps, t2_PpPs, t2_PsPs, t_Ps, t_PpPs, t_PsPs. apply f_pulses; try lia; inrs; lra.
  - rewrite v_delta, v_pre, v_3, v_p16, v_72. lra.
  - rewrite v_delta, v_pre, v_Vp, v_p16, v_32. lra.
  - exact s_resolved.
  - exact m_resolved.
Qed.
