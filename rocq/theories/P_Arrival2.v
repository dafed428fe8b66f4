(** * P_Arrival2: the delays of C94 are those the H-k programs stack at; a uniform medium;
    a concrete case. *)

From Coq Require Import Reals Lra.
From Verif Require Import Base Num NumPy Spec HkModel HkReal Cplx Mat4 SpecElastic SpecArrival DFT ReverbModel DeconModel HaskellModel HaskellProofs HaskellProofs2 HaskellProofs3 HaskellProofs4 HaskellProofs5 HaskellProofs6 P_Haskell P_Arrival.
Local Open Scope R_scope.

(** A crustal layer as the H-k programs describe it. *)
Definition crust (rho Vp K H : R) : layer := mkLayer (mkMat rho Vp (Vp / K)) H.

Lemma adm_precritical p rho Vp K H : admissible p (mat (crust rho Vp K H)) -> precritical Vp p.
Proof.
  intros (_ & _ & Hv & _ & H2). cbn [crust mat vp_of] in *. split; [exact Hv|].
  assert (0 < Vp * Vp) by (apply Rmult_lt_0_compat; exact Hv).
  assert (E : (1 / Vp) ^ 2 - p ^ 2 = (1 - p * p * (Vp * Vp)) / (Vp * Vp)) by (field; lra).
  assert (0 < (1 / Vp) ^ 2 - p ^ 2) by (rewrite E; apply Rdiv_lt_0_compat; lra). lra.
Qed.
Lemma crust_pslow p rho Vp K H : 0 < Vp -> pslow p (mat (crust rho Vp K H)) = qp Vp p.
Proof. intro Hv. unfold pslow, qp. cbn. f_equal. field. lra. Qed.
Lemma crust_sslow p rho Vp K H : 0 < Vp -> 0 < K -> sslow p (mat (crust rho Vp K H)) = qs Vp K p.
Proof. intros Hv HK. unfold sslow, qs. cbn. f_equal. field. lra. Qed.

(** The three delays at which [hk] (and [hkSynth]) read a trace are the delays of the
    three delayed legs. *)
Theorem C94_hk_delays p pk rho Vp K H : 1 <= K -> admissible p (mat (crust rho Vp K H)) ->
  let l := crust rho Vp K H in
  @hk_times RN Vp p pk H K = Ok (TR (leg_delay p l LPs), TR (leg_delay p l LPpPs), TR (leg_delay p l LPsPs)).
Proof.
  intros HK HA l. pose proof (adm_precritical p rho Vp K H HA) as HP. destruct HP as [Hv HP].
  rewrite (hk_times_R Vp p pk H K (conj Hv HP)). unfold l. cbn [leg_delay]. rewrite !crust_pslow, !crust_sslow by lra. cbn [crust thick]. reflexivity.
Qed.
(** The three delays at which the Moho stage of [hkSeq] reads a trace are delays of paths
    through sediment and crust. *)
Theorem C94_hkSeq_delays p pk rho1 V1 K1 H1 rho2 V2 K2 H2 : 1 <= K1 -> 1 <= K2 ->
  admissible p (mat (crust rho1 V1 K1 H1)) -> admissible p (mat (crust rho2 V2 K2 H2)) ->
  let ls := [crust rho1 V1 K1 H1; crust rho2 V2 K2 H2] in
  @hkSeqMoho_times RN H1 K1 V1 (Some V2) p pk H2 K2 =
    Ok (TR (path_delay p ls [LPs; LPs]), TR (path_delay p ls [LPpPs; LPpPs]), TR (path_delay p ls [LPsPs; LPsPs])).
Proof.
  intros HK1 HK2 A1 A2 ls. pose proof (adm_precritical _ _ _ _ _ A1) as P1. pose proof (adm_precritical _ _ _ _ _ A2) as P2.
  rewrite (hkSeqMoho_times_R H1 K1 V1 V2 p pk H2 K2 P1 P2). destruct P1 as [Hv1 _]. destruct P2 as [Hv2 _].
  unfold ls. cbn [path_delay leg_delay]. rewrite !crust_pslow, !crust_sslow by lra. cbn [crust thick].
  unfold t2_Ps, t2_PpPs, t2_PsPs, t_Ps, t_PpPs, t_PsPs. apply ok3; ring.
Qed.

(** ** One layer over a half-space: four spikes in each component, the first at delay 0
    and the others exactly where [hk] reads the trace. *)
Definition four_spikes (omega t1 t2 t3 : R) (a : R * R * R * R) : C :=
  let '(a0, a1, a2, a3) := a in
  (RtoC a0 + RtoC a1 * cis (omega * t1) + RtoC a2 * cis (omega * t2) + RtoC a3 * cis (omega * t3))%C.

Lemma spikes_one omega p l a : spikes omega p [l] a =
  four_spikes omega (leg_delay p l LPs) (leg_delay p l LPpPs) (leg_delay p l LPsPs) (a [Direct], a [LPs], a [LPpPs], a [LPsPs]).
Proof.
  unfold spikes, four_spikes. cbn [length paths legs flat_map map app lsum path_delay leg_delay].
  rewrite !Rplus_0_r, Rmult_0_r, cis_0. ring.
Qed.

Theorem C94_one_layer p pk rho Vp K H l : 1 <= K ->
  admissible p (mat (crust rho Vp K H)) -> admissible p (mat l) ->
  let all := [crust rho Vp K H; l] in
  exists tPs tPpPs tPsPs (aR aZ : R * R * R * R),
    @hk_times RN Vp p pk H K = Ok (TR tPs, TR tPpPs, TR tPsPs) /\
    forall omega, omega <> 0 ->
    exists ur uz, haskell omega p 2 1 (vps all) (vss all) (rhos all) (thicks all) = Ok (ur, uz) /\
      (ur * four_spikes omega tPs tPpPs tPsPs aZ)%C = (uz * four_spikes omega tPs tPpPs tPsPs aR)%C /\
      ~ (four_spikes omega tPs tPpPs tPsPs aR = C0 /\ four_spikes omega tPs tPpPs tPsPs aZ = C0).
Proof.
  intros HK A1 A2 all. set (c := crust rho Vp K H) in *.
  assert (HA : Forall (fun l => admissible p (mat l)) ([c] ++ [l])) by (constructor; [exact A1|constructor; [exact A2|constructor]]).
  destruct (C94_receiver_function p [c] l 1 ltac:(discriminate) HA) as (aR & aZ & Hh).
  exists (leg_delay p c LPs), (leg_delay p c LPpPs), (leg_delay p c LPsPs), (aR [Direct], aR [LPs], aR [LPpPs], aR [LPsPs]), (aZ [Direct], aZ [LPs], aZ [LPpPs], aZ [LPsPs]).
  split; [apply C94_hk_delays; assumption|]. intros omega Ho. destruct (Hh omega Ho) as (ur & uz & E & E1 & E2 & _).
  exists ur, uz. rewrite !spikes_one in E1, E2. split; [exact E|]. split; [exact E1|exact E2].
Qed.

(** ** Without a contrast there is nothing but the first arrival: for layers of the same
    material the quotient of the components is the same at every frequency (and is the
    tangent of twice the angle of the S wave, the apparent angle of incidence). *)
Lemma row3_uniform omega p m ls : finm omega p m -> Forall (fun l => mat l = m) ls ->
  vrow (crow omega (irow p m Direct)) (stackP omega p ls) = vscal (cis (- (omega * s_time p ls))) (crow omega (irow p m Direct)).
Proof.
  intros F HM. induction HM as [|l ls El _ IH].
  - cbn [stackP s_time]. rewrite vrow_1, Rmult_0_r, Ropp_0, cis_0. apply V4_eq; cbn; ring.
  - cbn [stackP s_time]. rewrite vrow_mmul, IH, vrow_vscal, El.
    assert (X : vrow (crow omega (irow p m Direct)) (Pm omega p m (thick l)) = vscal (cis (- (omega * (thick l * sslow p m)))) (crow omega (irow p m Direct))).
    { rewrite (crow_irow omega p m Direct F). pose proof (Ei_P _ _ _ _ _ F (thick l)) as Q.
      fold (Eim omega p m) (Lm omega p m (thick l)) in Q. change (Pmat omega (density m) (vs_of m) p (xi_of (vp_of m) p) (eta_of (vs_of m) p) (thick l)) with (Pm omega p m (thick l)) in Q.
      replace (omega * (thick l * sslow p m)) with (omega * sslow p m * thick l) by ring.
      unfold Lm, Lam in Q. rewrite mdiag_l in Q.
      apply V4_eq.
      - exact (f_equal m30 Q).
      - exact (f_equal m31 Q).
      - exact (f_equal m32 Q).
      - exact (f_equal m33 Q). }
    rewrite X. replace (- (omega * (thick l * sslow p m + s_time p ls))) with (- (omega * s_time p ls) + - (omega * (thick l * sslow p m))) by ring.
    rewrite cis_add. apply V4_eq; cbn; ring.
Qed.
Theorem C94_uniform p m ls z : ls <> [] -> admissible p m -> Forall (fun l => mat l = m) ls ->
  let all := ls ++ [mkLayer m z] in
  let vs := vs_of m in
  forall omega, omega <> 0 ->
  exists ur uz, haskell omega p (length all) 1 (vps all) (vss all) (rhos all) (thicks all) = Ok (ur, uz) /\
    (ur * RtoC (1 - 2 * vs * vs * p * p))%C = (- (uz * RtoC (2 * vs * vs * p * sslow p m)))%C.
Proof.
  intros Hne HA HM all vs omega Ho.
  assert (HAll : Forall (fun l => admissible p (mat l)) all).
  { unfold all. apply Forall_app. split; [eapply Forall_impl; [|exact HM]; intros l ->; exact HA|constructor; [exact HA|constructor]]. }
  pose proof (admissible_fin omega p m Ho HA) as F.
  assert (Fl : Forall (fun l => finm omega p (mat l)) ls) by (eapply Forall_impl; [|exact HM]; intros l ->; exact F).
  pose proof (response_spikes omega p 1 ls m z Ho Hne HAll) as (HD & ur & uz & E & U). cbn [Z.leb Z.compare] in U. destruct U as [U1 U2].
  exists ur, uz. split; [exact E|].
  pose proof (row_spikes omega p (irow p m Direct) ls Fl) as (Q0 & Q1). cbv zeta in Q0, Q1.
  rewrite (row3_uniform omega p m ls F HM) in Q0, Q1. cbn [vscal v0 v1 crow] in Q0, Q1.
  assert (Can : forall a x y : C, a <> C0 -> (a * x)%C = (a * y)%C -> x = y).
  { intros a x y Na Exy. transitivity (a * x / a)%C; [field; exact Na|]. rewrite Exy. field. exact Na. }
  apply (Can _ _ _ (cis_neq0 _)) in Q0. apply (Can _ _ _ (cis_neq0 _)) in Q1.
  change (spikes omega p ls (fun c => r0 (path_row p (irow p m Direct) ls c))) with (spikes omega p ls (aSr p ls m)) in Q0.
  change (spikes omega p ls (fun c => r1 (path_row p (irow p m Direct) ls c))) with (spikes omega p ls (aSz p ls m)) in Q1.
  set (D := (spikes omega p ls (aPr p ls m) * spikes omega p ls (aSz p ls m) - spikes omega p ls (aPz p ls m) * spikes omega p ls (aSr p ls m))%C) in *.
  rewrite <- Q0 in U2. rewrite <- Q1 in U1.
  apply (Can D); [exact HD|].
  transitivity (ur * D * RtoC (1 - 2 * vs * vs * p * p))%C; [ring|].
  transitivity (- (uz * D * RtoC (2 * vs * vs * p * sslow p m)))%C; [|ring].
  rewrite U1, U2. cbn [irow r0 r1].
  pose proof (f_b _ _ _ _ _ F) as Nb. pose proof (eta_nz _ _ _ _ _ F) as Ne. fold vs in Nb, Ne |- *. rewrite sslow_eta. fold vs.
  assert (Y : (RtoC (- (- vs * p)) * RtoC (1 - 2 * vs * vs * p * p))%C = (RtoC (bp_of vs p / (2 * vs * eta_of vs p)) * RtoC (2 * vs * vs * p * eta_of vs p))%C).
  { rewrite <- !RtoC_mul. f_equal. unfold bp_of. field. split; assumption. }
  match goal with |- (?c * _ * _)%C = _ => transitivity (c * (RtoC (- (- vs * p)) * RtoC (1 - 2 * vs * vs * p * p)))%C; [ring|]; rewrite Y; ring end.
Qed.

(** ** A concrete case: 35 km of crust (6.5 km/s, Vp/Vs 1.75) over a mantle, p = 0.06 s/km;
    and the same crust over a sediment. *)
Definition ex_crust : layer := crust 2.9 6.5 1.75 35.
Definition ex_sed : layer := crust 2.2 2.5 2.2 2.
Definition ex_mantle : layer := mkLayer (mkMat 3.3 8.1 4.5) 50.
Example ex_one_layer : 1 <= 1.75 /\ admissible 0.06 (mat (crust 2.9 6.5 1.75 35)) /\ admissible 0.06 (mat ex_mantle).
Proof. unfold admissible; cbn. repeat split; lra. Qed.
Example ex_two_layers : [ex_sed; ex_crust] <> [] /\ Forall (fun l => admissible 0.06 (mat l)) ([ex_sed; ex_crust] ++ [ex_mantle]).
Proof. split; [discriminate|]. unfold admissible. repeat constructor; cbn; lra. Qed.
(** With a sediment there are sixteen paths; without, four, and the delays differ. *)
Example ex_paths : length (paths 2) = 16%nat /\ 0 < leg_delay 0.06 ex_crust LPs < leg_delay 0.06 ex_crust LPpPs /\ leg_delay 0.06 ex_crust LPpPs < leg_delay 0.06 ex_crust LPsPs.
Proof.
  split; [reflexivity|]. unfold leg_delay, ex_crust, crust. cbn [thick mat].
  assert (A : 0 < pslow 0.06 (mkMat 2.9 6.5 (6.5 / 1.75))) by (unfold pslow; cbn; apply sqrt_lt_R0; lra).
  assert (B : pslow 0.06 (mkMat 2.9 6.5 (6.5 / 1.75)) < sslow 0.06 (mkMat 2.9 6.5 (6.5 / 1.75))).
  { unfold pslow, sslow; cbn. apply sqrt_lt_1; lra. }
  lra.
Qed.
Example ex_uniform : exists m ls, ls <> [] /\ admissible 0.06 m /\ Forall (fun l => mat l = m) ls /\ (1 < length ls)%nat.
Proof.
  exists (mkMat 2.9 6.5 3.75), [mkLayer (mkMat 2.9 6.5 3.75) 10; mkLayer (mkMat 2.9 6.5 3.75) 25].
  split; [discriminate|]. split; [unfold admissible; cbn; lra|]. split; [repeat constructor|cbn; lia].
Qed.
