(** * WaveSyn: the forward model of the waveform fit is the modelled class [synrf] (C71).

    WaveformFitting.py:156-162 (and the three other copies: 388-394,
    WaveformFittingMultiproc.py:183-189, 451-457): construct, run_fwd, filter, run_deconvolution,
    take the samples of trace 0.  [rayp] is a float (another type: C43). *)

From Coq Require Import Reals Lra.
From Verif Require Import Base Num NumPy Cplx Mat4 DFT DFT2 SpecSignal SpecElastic ReverbModel DeconModel DeconProofs HaskellModel P_Decon P_Haskell2 SynModel.
Local Open Scope R_scope.

Definition no_kw : kwargs := mkKw None None None None None None None None false.
Definition code_syn (bp : R -> R -> R -> nat -> bool -> list R -> res (list R))
    (depth vp vs rho : list R) (rayp dt : R) (n : nat) (preonset gaussian : R) : res (list R) :=
  o <- syn_init depth vp vs rho (PyFloat rayp) dt n 1 ;;
  let '(o1, r1) := run_fwd o in _ <- r1 ;;
  let '(o2, r2) := syn_filter bp o1 (PF4 (5 / 100) (125 / 100) 2 true) in _ <- r2 ;;
  let '(o3, r3) := run_deconvolution bp o2 (Some (PF2 (5 / 100) (125 / 100))) preonset gaussian None no_kw in
  ts <- r3 ;; t <- getitem ts 0 ;; Ok (rf_data t).

(** C71: the record is the iterative deconvolution (default settings) of the radial by the
    vertical free-surface record of the layered model, both band-passed twice between
    0.05 and 1.25 Hz with two corners and zero phase. *)
Theorem C71_synthetic bp depth vp vs rho rayp dt n po ga d :
  code_syn bp depth vp vs rho rayp dt n po ga = Ok d <->
  exists ur uz ur1 uz1 ur2 uz2 rms it,
    fwd_seis rayp dt n 1 vp vs rho (thickness depth) = Ok (ur, uz) /\
    bp dt (5 / 100) (125 / 100) 2%nat true ur = Ok ur1 /\ bp dt (5 / 100) (125 / 100) 2%nat true uz = Ok uz1 /\
    bp dt (5 / 100) (125 / 100) 2%nat true ur1 = Ok ur2 /\ bp dt (5 / 100) (125 / 100) 2%nat true uz1 = Ok uz2 /\
    deconv_iterative ur2 uz2 dt None po ga 400 (1 / 1000) "P" = Ok (d, rms, it).
Proof.
  unfold code_syn, syn_init. cbn [bind]. unfold run_fwd. cbn [s_rayp fwd_loop s_dt s_npts s_ipha s_vp s_vs s_rho s_thickness with_streams].
  destruct (fwd_seis rayp dt n 1 vp vs rho (thickness depth)) as [[ur uz]|e]; [|cbn [bind]; split; [discriminate|intros (?&?&?&?&?&?&?&?&E&_); discriminate]].
  cbn [fwd_loop app bind]. unfold syn_filter at 1. cbn [with_streams s_rstream s_zstream filter_stream tr_delta tr_data s_vp s_vs s_rho s_dt s_npts s_thickness s_rayp s_ipha].
  destruct (bp dt (5 / 100) (125 / 100) 2%nat true ur) as [ur1|e1] eqn:E1; [|cbn [bind]; split; [discriminate|intros (a&b&?&?&?&?&?&?&E&X&_); injection E as <- <-; rewrite E1 in X; discriminate]].
  destruct (bp dt (5 / 100) (125 / 100) 2%nat true uz) as [uz1|e2] eqn:E2; [|cbn [bind]; split; [discriminate|intros (a&b&?&?&?&?&?&?&E&_&X&_); injection E as <- <-; rewrite E2 in X; discriminate]].
  cbn [bind]. unfold run_deconvolution, syn_filter. cbn [with_streams s_rstream s_zstream filter_stream tr_delta tr_data s_vp s_vs s_rho s_dt s_npts s_thickness s_rayp s_ipha].
  destruct (bp dt (5 / 100) (125 / 100) 2%nat true ur1) as [ur2|e3] eqn:E3; [|cbn [bind]; split; [discriminate|intros (a&b&c1&d1&?&?&?&?&E&X&Y&Z&_); injection E as <- <-; rewrite E1 in X; injection X as <-; rewrite E3 in Z; discriminate]].
  destruct (bp dt (5 / 100) (125 / 100) 2%nat true uz1) as [uz2|e4] eqn:E4; [|cbn [bind]; split; [discriminate|intros (a&b&c1&d1&?&?&?&?&E&X&Y&_&Z&_); injection E as <- <-; rewrite E2 in Y; injection Y as <-; rewrite E4 in Z; discriminate]].
  cbn [with_streams s_vp s_vs s_rho s_dt s_npts s_thickness s_ipha s_rayp length seq decon_loop stream_item s_rstream s_zstream getitem nth_error bind].
  unfold rftrace_deconvolve, deconvolve. cbn [dflt tr_data tr_delta]. change (String.eqb (lower "iter") "iter") with true. cbn match.
  unfold call_iterative. cbn [kw_wlevel kw_normalize kw_other kw_nt kw_preonset kw_gaussian kw_itmax kw_minderr kw_phase no_kw given orb dflt].
  destruct (deconv_iterative ur2 uz2 dt None po ga 400 (1 / 1000) "P") as [[[rf rms] it]|e5] eqn:E5.
  - cbn [bind getitem nth_error rf_data rf_result]. split.
    + intro H. injection H as <-. exists ur, uz, ur1, uz1, ur2, uz2, rms, it. repeat split; assumption.
    + intros (a&b&c1&d1&a2&b2&r'&i'&E&X&Y&Z&W&V). injection E as <- <-. rewrite E1 in X. injection X as <-. rewrite E2 in Y. injection Y as <-.
      rewrite E3 in Z. injection Z as <-. rewrite E4 in W. injection W as <-. rewrite E5 in V. injection V as <- <- <-. reflexivity.
  - cbn [bind]. split; [discriminate|]. intros (a&b&c1&d1&a2&b2&r'&i'&E&X&Y&Z&W&V). injection E as <- <-. rewrite E1 in X. injection X as <-. rewrite E2 in Y. injection Y as <-.
    rewrite E3 in Z. injection Z as <-. rewrite E4 in W. injection W as <-. rewrite E5 in V. discriminate.
Qed.
