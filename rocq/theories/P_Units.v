(** * P_Units: synthetics and receiver functions do not depend on the choice of units (C110).

    [D], [L], [T]: how many new units of density, length and time make one old one. *)

From Coq Require Import Reals Lra.
From Verif Require Import Base Num NumPy Cplx Mat4 DFT ReverbModel DeconModel HaskellModel SynModel.
Local Open Scope R_scope.

Section Units.
Variables D L T : R.
Context (HD : 0 < D) (HL : 0 < L) (HT : 0 < T).

(** Velocities, slownesses in the new units. *)
Definition vel (v : R) : R := v * L / T.
Definition slow (p : R) : R := p * T / L.
(** Stress = density x length / time^2 ([omega*rho*beta] in the code). *)
Definition sU : R := D * L / (T * T).
Lemma sU_pos : 0 < sU.
Proof. unfold sU. apply Rdiv_lt_0_compat; apply Rmult_lt_0_compat; assumption. Qed.
Lemma LT_pos : 0 < L / T. Proof. apply Rdiv_lt_0_compat; assumption. Qed.
Lemma TL_pos : 0 < T / L. Proof. apply Rdiv_lt_0_compat; assumption. Qed.

(** ** One layer *)
Lemma rad_units v p : v <> 0 -> 1 / (vel v * vel v) - slow p * slow p = (T / L) ^ 2 * (1 / (v * v) - p * p).
Proof. intro. unfold vel, slow. field. repeat split; lra. Qed.
Lemma vslow_units v p : v <> 0 -> sqrt (1 / (vel v * vel v) - slow p * slow p) = T / L * sqrt (1 / (v * v) - p * p).
Proof. intro. rewrite rad_units by assumption. rewrite sqrt_mult_alt by apply pow2_ge_0. rewrite sqrt_pow2 by (left; exact TL_pos). reflexivity. Qed.
Lemma eta_units b p : b <> 0 -> eta_of (vel b) (slow p) = T / L * eta_of b p.
Proof. apply vslow_units. Qed.
Lemma xi_units a p : a <> 0 -> xi_of (vel a) (slow p) = T / L * xi_of a p.
Proof. apply vslow_units. Qed.
Lemma bp_units b p : 1 - 2 * (vel b * vel b) * (slow p * slow p) = 1 - 2 * (b * b) * (p * p).
Proof. unfold vel, slow. field. split; lra. Qed.
Lemma bp_units' b p : bp_of (vel b) (slow p) = bp_of b p.
Proof. unfold bp_of, vel, slow. field. split; lra. Qed.
Lemma vel_nz v : v <> 0 -> vel v <> 0.
Proof. intro. unfold vel. replace (v * L / T) with (v * (L / T)) by (field; lra). apply Rmult_integral_contrapositive_currified; [assumption|]. pose proof LT_pos. lra. Qed.
Lemma Rltb_units c x : 0 < c -> Rltb 0 (c * x) = Rltb 0 x.
Proof.
  intro Hc. unfold Rltb. destruct (Rlt_dec 0 (c * x)), (Rlt_dec 0 x); try reflexivity; exfalso; nra.
Qed.
Lemma finite_units omega rho alpha beta p :
  finite_layer (omega / T) (D * rho) (vel alpha) (vel beta) (slow p) = finite_layer omega rho alpha beta p.
Proof.
  unfold finite_layer. assert (E : omega / T * (D * rho) * vel alpha * vel beta = D / T * (L / T) * (L / T) * (omega * rho * alpha * beta)) by (unfold vel; field; lra).
  assert (Hc : 0 < D / T * (L / T) * (L / T)) by (pose proof LT_pos; assert (0 < D / T) by (apply Rdiv_lt_0_compat; assumption); apply Rmult_lt_0_compat; [apply Rmult_lt_0_compat|]; assumption).
  rewrite E. destruct (Req_EM_T (omega * rho * alpha * beta) 0) as [Z|Z].
  - rewrite Z, Rmult_0_r. destruct (Req_EM_T 0 0); [reflexivity|lra].
  - destruct (Req_EM_T (D / T * (L / T) * (L / T) * (omega * rho * alpha * beta)) 0) as [Q|_].
    { apply Rmult_integral in Q as [Q|Q]; lra. }
    assert (alpha <> 0 /\ beta <> 0) as [Ha Hb] by (split; intro Q; apply Z; rewrite Q; ring).
    rewrite !rad_units by assumption. rewrite !Rltb_units by (apply pow_lt; exact TL_pos). reflexivity.
Qed.
Lemma finite_nz omega rho alpha beta p : finite_layer omega rho alpha beta p = true ->
  omega <> 0 /\ rho <> 0 /\ alpha <> 0 /\ beta <> 0 /\ 0 < xi_of alpha p /\ 0 < eta_of beta p.
Proof.
  unfold finite_layer. destruct (Req_EM_T (omega * rho * alpha * beta) 0) as [|Z]; [discriminate|]. intro H. apply andb_prop in H as [H1 H2].
  unfold Rltb in *. destruct (Rlt_dec 0 (1 / (beta * beta) - p * p)) as [Hb|]; [|discriminate]. destruct (Rlt_dec 0 (1 / (alpha * alpha) - p * p)) as [Ha|]; [|discriminate].
  repeat split; try (intro Q; apply Z; rewrite Q; ring); apply sqrt_lt_R0; assumption.
Qed.

(** Change of the unit of stress in a motion-stress vector, and back. *)
Definition Su : M4 := mdiag C1 C1 (RtoC sU) (RtoC sU).
Definition Si : M4 := mdiag C1 C1 (RtoC (/ sU)) (RtoC (/ sU)).
Lemma SiSu : mmul Si Su = mI.
Proof.
  pose proof sU_pos as Hs. assert (E : (RtoC (/ sU) * RtoC sU)%C = C1) by (rewrite <- RtoC_mul; unfold C1, RtoC; f_equal; field; lra).
  revert E. unfold Si, Su. generalize (RtoC sU) (RtoC (/ sU)). intros a b E. apply M4_eq; unfold mmul, mdiag, mI; cbn [m00 m01 m02 m03 m10 m11 m12 m13 m20 m21 m22 m23 m30 m31 m32 m33];
    try ring; rewrite <- E; ring.
Qed.
Definition sim (A : M4) : M4 := mmul Su (mmul A Si).
Lemma sim_mul A B : mmul (sim A) (sim B) = sim (mmul A B).
Proof. unfold sim. rewrite <- !mmul_assoc. rewrite (mmul_assoc Si Su (mmul B Si)), SiSu, mmul_1_l. reflexivity. Qed.
Lemma sim_eq A : sim A = mkM
  (m00 A) (m01 A) (m02 A * RtoC (/ sU))%C (m03 A * RtoC (/ sU))%C (m10 A) (m11 A) (m12 A * RtoC (/ sU))%C (m13 A * RtoC (/ sU))%C
  (RtoC sU * m20 A)%C (RtoC sU * m21 A)%C (m22 A) (m23 A) (RtoC sU * m30 A)%C (RtoC sU * m31 A)%C (m32 A) (m33 A).
Proof.
  pose proof sU_pos as Hs. assert (E : (RtoC (/ sU) * RtoC sU)%C = C1) by (rewrite <- RtoC_mul; unfold C1, RtoC; f_equal; field; lra).
  revert E. unfold sim, Si, Su. generalize (RtoC sU) (RtoC (/ sU)). intros a b E.
  apply M4_eq; unfold mmul, mdiag, mI; cbn [m00 m01 m02 m03 m10 m11 m12 m13 m20 m21 m22 m23 m30 m31 m32 m33]; try ring.
  - transitivity ((b * a) * m22 A)%C; [ring|rewrite E; ring].
  - transitivity ((b * a) * m23 A)%C; [ring|rewrite E; ring].
  - transitivity ((b * a) * m32 A)%C; [ring|rewrite E; ring].
  - transitivity ((b * a) * m33 A)%C; [ring|rewrite E; ring].
Qed.
Lemma Si_r A : mmul A Si = mkM
  (m00 A) (m01 A) (m02 A * RtoC (/ sU))%C (m03 A * RtoC (/ sU))%C (m10 A) (m11 A) (m12 A * RtoC (/ sU))%C (m13 A * RtoC (/ sU))%C
  (m20 A) (m21 A) (m22 A * RtoC (/ sU))%C (m23 A * RtoC (/ sU))%C (m30 A) (m31 A) (m32 A * RtoC (/ sU))%C (m33 A * RtoC (/ sU))%C.
Proof.
  unfold Si. generalize (RtoC (/ sU)). intro b.
  apply M4_eq; unfold mmul, mdiag, mI; cbn [m00 m01 m02 m03 m10 m11 m12 m13 m20 m21 m22 m23 m30 m31 m32 m33]; ring.
Qed.
Lemma RtoC_r a b : (RtoC a * RtoC b)%C = RtoC (a * b). Proof. symmetry. apply RtoC_mul. Qed.
Lemma imag_r a b : (imag a * RtoC b)%C = imag (a * b). Proof. unfold imag. creal; ring. Qed.
Lemma imag_l a b : (RtoC a * imag b)%C = imag (a * b). Proof. unfold imag. creal; ring. Qed.
Lemma RtoC_opp a : (- RtoC a)%C = RtoC (- a). Proof. creal; ring. Qed.
Lemma imag_opp a : (- imag a)%C = imag (- a). Proof. unfold imag. creal; ring. Qed.
Lemma prop_units omega rho alpha beta p z :
  propagator_sol (omega / T) (D * rho) (vel alpha) (vel beta) (slow p) (L * z) =
  match propagator_sol omega rho alpha beta p z with Ok A => Ok (sim A) | Err e => Err e end.
Proof.
  unfold propagator_sol. rewrite finite_units. destruct (finite_layer omega rho alpha beta p) eqn:Ef; [|reflexivity]. cbn [negb].
  apply finite_nz in Ef as (Ho & Hr & Ha & Hb & Hx & He). cbv zeta. rewrite !bp_units. rewrite ?(xi_units alpha p Ha), ?(eta_units beta p Hb).
  set (xi := xi_of alpha p) in *. set (eta := eta_of beta p) in *.
  replace (omega / T * (T / L * xi) * (L * z)) with (omega * xi * z) by (field; lra).
  replace (omega / T * (T / L * eta) * (L * z)) with (omega * eta * z) by (field; lra).
  generalize (cos (omega * xi * z)) (cos (omega * eta * z)) (sin (omega * xi * z)) (sin (omega * eta * z)). intros cx ce sx se.
  apply f_equal. rewrite sim_eq. cbn [m00 m01 m02 m03 m10 m11 m12 m13 m20 m21 m22 m23 m30 m31 m32 m33].
  rewrite ?RtoC_r, ?imag_r, ?imag_l. unfold vel, slow, sU. clearbody xi eta.
  apply M4_eq; cbn [m00 m01 m02 m03 m10 m11 m12 m13 m20 m21 m22 m23 m30 m31 m32 m33]; first [reflexivity|apply (f_equal RtoC)|apply (f_equal imag)]; field; repeat split; lra.
Qed.
Lemma einv_units omega rho alpha beta p :
  e_inverse (omega / T) (D * rho) (vel alpha) (vel beta) (slow p) =
  match e_inverse omega rho alpha beta p with Ok A => Ok (mmul A Si) | Err e => Err e end.
Proof.
  unfold e_inverse. rewrite finite_units. destruct (finite_layer omega rho alpha beta p) eqn:Ef; [|reflexivity]. cbn [negb].
  apply finite_nz in Ef as (Ho & Hr & Ha & Hb & Hx & He). cbv zeta. rewrite !bp_units'. rewrite ?(xi_units alpha p Ha), ?(eta_units beta p Hb).
  set (xi := xi_of alpha p) in *. set (eta := eta_of beta p) in *.
  apply f_equal. rewrite Si_r. cbn [m00 m01 m02 m03 m10 m11 m12 m13 m20 m21 m22 m23 m30 m31 m32 m33].
  rewrite ?RtoC_opp, ?imag_opp, ?RtoC_r, ?imag_r, ?imag_l. unfold vel, slow, sU. clearbody xi eta.
  apply M4_eq; cbn [m00 m01 m02 m03 m10 m11 m12 m13 m20 m21 m22 m23 m30 m31 m32 m33]; first [reflexivity|apply (f_equal RtoC)|apply (f_equal imag)]; field; repeat split; lra.
Qed.

(** ** C110: the response of the medium *)
Lemma getitem_units {A B} (f : A -> B) l i : getitem (map f l) i = match getitem l i with Ok x => Ok (f x) | Err e => Err e end.
Proof. unfold getitem. rewrite nth_error_map. destruct (nth_error l i); reflexivity. Qed.
Lemma lastitem_units {A B} (f : A -> B) l : lastitem (map f l) = match lastitem l with Ok x => Ok (f x) | Err e => Err e end.
Proof.
  unfold lastitem. destruct l as [|a l]; [reflexivity|]. cbn [map]. change (f a :: map f l) with (map f (a :: l)).
  rewrite map_length. apply getitem_units.
Qed.
Lemma layer_units omega p alpha beta rho h i :
  layer_prop (omega / T) (slow p) (map vel alpha) (map vel beta) (map (Rmult D) rho) (map (Rmult L) h) i =
  match layer_prop omega p alpha beta rho h i with Ok A => Ok (sim A) | Err e => Err e end.
Proof.
  unfold layer_prop. rewrite !getitem_units. destruct (getitem rho i), (getitem alpha i), (getitem beta i), (getitem h i); try reflexivity.
  cbn [bind]. apply prop_units.
Qed.
Lemma loop_units omega p alpha beta rho h idx : forall A,
  prop_loop (omega / T) (slow p) (map vel alpha) (map vel beta) (map (Rmult D) rho) (map (Rmult L) h) idx (sim A) =
  match prop_loop omega p alpha beta rho h idx A with Ok A => Ok (sim A) | Err e => Err e end.
Proof.
  induction idx as [|i idx IH]; intro A; cbn [prop_loop]; [reflexivity|]. rewrite layer_units.
  destruct (layer_prop omega p alpha beta rho h i) as [B|e]; [|reflexivity]. cbn [bind]. rewrite sim_mul. apply IH.
Qed.
Theorem C110_response omega p nl ipha alpha beta rho h :
  haskell (omega / T) (slow p) nl ipha (map vel alpha) (map vel beta) (map (Rmult D) rho) (map (Rmult L) h) =
  haskell omega p nl ipha alpha beta rho h.
Proof.
  unfold haskell. rewrite !lastitem_units. destruct (lastitem rho) as [rl|]; [|reflexivity]. destruct (lastitem alpha) as [al|]; [|reflexivity].
  destruct (lastitem beta) as [bl|]; [|reflexivity]. cbn [bind]. rewrite einv_units. destruct (e_inverse omega rl al bl p) as [E|]; [|reflexivity]. cbn [bind].
  rewrite layer_units. destruct (layer_prop omega p alpha beta rho h 0) as [P0|]; [|reflexivity]. cbn [bind]. rewrite loop_units.
  destruct (prop_loop omega p alpha beta rho h (seq 1 (nl - 1)) P0) as [P|]; [|reflexivity]. cbn [bind].
  assert (Q : (if (1 <? nl)%nat then mmul (mmul E Si) (sim P) else mmul E Si) = mmul (if (1 <? nl)%nat then mmul E P else E) Si).
  { destruct (1 <? nl)%nat; [|reflexivity]. unfold sim. rewrite <- !mmul_assoc. rewrite (mmul_assoc Si Su (mmul P Si)), SiSu, mmul_1_l. reflexivity. }
  rewrite Q. rewrite Si_r. cbn [m00 m01 m02 m03 m10 m11 m12 m13 m20 m21 m22 m23 m30 m31 m32 m33]. reflexivity.
Qed.

(** ** C110: the seismograms *)
Lemma freq_units rayp dt n ipha alpha beta rho h idx : forall fr fz,
  freq_loop (slow rayp) (T * dt) n ipha (map vel alpha) (map vel beta) (map (Rmult D) rho) (map (Rmult L) h) idx fr fz =
  freq_loop rayp dt n ipha alpha beta rho h idx fr fz.
Proof.
  induction idx as [|i idx IH]; intros fr fz; cbn [freq_loop]; [reflexivity|].
  destruct (Req_EM_T (INR n * dt) 0) as [Z|Z].
  - destruct (Req_EM_T (INR n * (T * dt)) 0) as [|Q]; [reflexivity|]. exfalso. apply Q. replace (INR n * (T * dt)) with (T * (INR n * dt)) by ring. rewrite Z. ring.
  - destruct (Req_EM_T (INR n * (T * dt)) 0) as [Q|_].
    { exfalso. apply Z. replace (INR n * (T * dt)) with (T * (INR n * dt)) in Q by ring. apply Rmult_integral in Q as [Q|Q]; lra. }
    assert (INR n <> 0 /\ dt <> 0) as [Hn Hd] by (split; intro Q; apply Z; rewrite Q; ring).
    replace (2 * PI * INR i / (INR n * (T * dt))) with (2 * PI * INR i / (INR n * dt) / T) by (field; repeat split; lra).
    rewrite map_length, C110_response. destruct (haskell _ rayp (length h) ipha alpha beta rho h) as [rz|]; [|reflexivity]. cbn [bind].
    destruct (setitem fr i (fst rz)); [|reflexivity]. cbn [bind]. destruct (setitem fz i (snd rz)); [|reflexivity]. cbn [bind]. apply IH.
Qed.
Theorem C110_seismograms rayp dt npts ipha alpha beta rho h :
  fwd_seis (slow rayp) (T * dt) npts ipha (map vel alpha) (map vel beta) (map (Rmult D) rho) (map (Rmult L) h) =
  fwd_seis rayp dt npts ipha alpha beta rho h.
Proof. unfold fwd_seis. destruct (next_pow_2 npts) as [n|]; [|reflexivity]. cbn [bind]. rewrite freq_units. reflexivity. Qed.
End Units.
