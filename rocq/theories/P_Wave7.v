(** * P_Wave7: what a row of the waveform-fitting table measures, end to end (C71). *)

From Coq Require Import Reals Lra Psatz.
From Verif Require Import DFT SynModel WaveSyn DeconModel HaskellModel P_Haskell2 Cplx SpecElastic SpecSignal.
From Verif Require Import Base Num NumPy Spec HkModel WaveModel WaveProofs P_Wave P_Wave2 P_Wave5.
Local Open Scope R_scope.

(** The elastic model of the grid point (h, k): sediment of thickness HSed, crust down to
    depth h with Vs = Vp/k, mantle half-space. *)
Definition earth (HS VpS VpC h k : R) : list layer :=
  [mkLayer (mkMat (rho_of VpS) VpS (P_Wave5.vs_of VpS)) HS; mkLayer (mkMat (rho_of VpC) VpC (VpC / k)) (h - HS)].
Definition mantle (h : R) : layer := mkLayer (mkMat (3299/1000) (8045/1000) (449/100)) (775/10 - h).

(** C71: a row of the table of WaveformFitting holds the RMSE between the 25 s windows of
    the stacked record and of a record made as follows: the surface response of the elastic
    model of that row to a P wave from below (equations of motion, Hooke's law, free
    surface), radial and vertical, band-passed twice between 0.05 and 1.25 Hz, the radial
    deconvolved by the vertical with the default settings. *)
Theorem C71_pipeline bp stackR pgO (rf : stream RN) (po HS VpS VpC rp : R) (Ks Hs : list RN) (ga a b c : R) (wf : @wfit RN) (r : @srow RN) :
  WaveformFitting stackR (code_syn bp) pgO rf po HS VpS VpC rp Ks Hs ga a b c = Ok wf -> In r (wf_sols wf) ->
  Forall (fun l => admissible rp (mat l)) (earth HS VpS VpC (sr_H r) (sr_K r) ++ [mantle (sr_H r)]) ->
  exists tr0 rf' st0 SR s e ur uz ur1 uz1 ur2 uz2 rms it rec Hr Hz,
    let npts := length (tr_data st0) in let dt := tr_delta tr0 in
    let n := (2 ^ Nat.log2_up npts)%nat in
    rf = tr0 :: rf' /\ stackR rf = Ok (st0 :: SR) /\ fit_window (@taxis RN dt (length (tr_data tr0)) po) dt = Ok (s, e) /\
    (forall i, (1 <= i <= n / 2)%nat ->
       free_surface_response (freq dt n i) rp (earth HS VpS VpC (sr_H r) (sr_K r) ++ [mantle (sr_H r)]) (mat (mantle (sr_H r))) C1 C0 (Hr i) (Hz i)) /\
    length ur = npts /\ length uz = npts /\
    (forall j, (j < npts)%nat -> rnth ur j = series dt n Hr (INR (j + 1) * dt) /\ rnth uz j = - series dt n Hz (INR (j + 1) * dt)) /\
    bp dt (5/100) (125/100) 2%nat true ur = Ok ur1 /\ bp dt (5/100) (125/100) 2%nat true uz = Ok uz1 /\
    bp dt (5/100) (125/100) 2%nat true ur1 = Ok ur2 /\ bp dt (5/100) (125/100) 2%nat true uz1 = Ok uz2 /\
    deconv_iterative ur2 uz2 dt None (Rabs po) ga 400 (1/1000) "P" = Ok (rec, rms, it) /\
    sr_rmse r = rms_diff (slice (tr_data st0) s e) (slice rec s e) /\
    (varies (slice (tr_data st0) s e) -> varies (slice rec s e) -> sr_corr r = pearson (slice (tr_data st0) s e) (slice rec s e)).
Proof.
  intros HW Hr0 Ha.
  destruct (C70_rows _ _ _ _ _ _ _ _ _ _ _ _ _ _ _ _ HW) as (tr0 & rf' & st0 & SR & s & e & F1 & F2 & F3 & _ & FR).
  destruct (FR r Hr0) as (sy & Q & L & Ne & R1 & R2 & _).
  assert (Hd : tr_delta tr0 <> 0).
  { intro Z. apply C44_any_arithmetic in F3 as (_ & _ & D & _). cbn [neqb RN nofZ] in D. assert (D' : Reqb (tr_delta tr0) 0 = false) by exact D. rewrite (proj2 (Reqb_true _ _) Z) in D'. discriminate. }
  assert (Hp : (0 < length (tr_data st0))%nat).
  { destruct (tr_data st0); [|cbn; lia]. exfalso. apply Ne. unfold slice. rewrite skipn_nil. apply firstn_nil. }
  unfold synthetic_for in Q. destruct (proj1 (C71_synthetic _ _ _ _ _ _ _ _ _ _ _) Q) as (ur & uz & ur1 & uz1 & ur2 & uz2 & rms & it & S0 & S1 & S2 & S3 & S4 & S5).
  destruct (C64_seismograms rp (tr_delta tr0) (length (tr_data st0)) 1 (earth HS VpS VpC (sr_H r) (sr_K r)) (mantle (sr_H r)) Hp Hd ltac:(discriminate) Ha) as (ur' & uz' & Hr & Hz & G0 & G1 & G2 & G3 & G4).
  assert (E : Ok (ur, uz) = Ok (ur', uz')) by (rewrite <- S0, <- G0; reflexivity). injection E as <- <-.
  exists tr0, rf', st0, SR, s, e, ur, uz, ur1, uz1, ur2, uz2, rms, it, sy, Hr, Hz. cbv zeta.
  split; [exact F1|]. split; [exact F2|]. split; [exact F3|]. split; [exact G3|]. split; [exact G1|]. split; [exact G2|]. split; [exact G4|].
  split; [exact S1|]. split; [exact S2|]. split; [exact S3|]. split; [exact S4|]. split; [exact S5|]. split; [exact R1|exact R2].
Qed.

(** The hypothesis of C71 is met by a usual model: 2 km of sediment with Vp 3 km/s, crust
    with Vp 6.5 km/s and Vp/Vs 1.75 to 35 km, slowness 0.06 s/km. *)
Example C71_example : Forall (fun l => admissible (6/100) (mat l)) (earth 2 3 (65/10) 35 (175/100) ++ [mantle 35]).
Proof.
  unfold earth, mantle, admissible, P_Wave5.vs_of, rho_of. cbn [app].
  repeat constructor; cbn [mat density vs_of vp_of SpecElastic.vs_of]; lra.
Qed.
