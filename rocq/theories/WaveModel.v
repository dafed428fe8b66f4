(** * WaveModel: WaveformFitting.py and WaveformFittingMultiproc.py.

    Polymorphic in the arithmetic.  Parameters: [stackR] (select(component='R').stack()),
    [synO] (WaveformFitting.py:156-162: build the synrf object, run_fwd, filter, run_deconvolution,
    [rf_synth[0].data]; instantiated with the modelled class in [WaveSyn]), [pgO]
    (obspy.signal.tf_misfit.pg with the constants of the code; arguments: the two
    sign-normalised records and dt), [draw] (the pyplot calls of one figure; may raise).
    Presentation (colours, legends, labels, ticks) is not modelled.  numpy's [x**n] is
    repeated multiplication. *)

From Verif Require Import Base Num NumPy HkModel PlotModel PoolModel.

Section Wave.
Context {N : Num}.

(** WaveformFitting.py:113-118, WaveformFittingMultiproc.py:100-105 (VsCrust is computed and not used) *)
Fixpoint npow (x : N) (n : nat) : N :=
  match n with 0 => nofZ 1 | 1 => x | S n' => nmul (npow x n') x end.
Definition brocher_vs (v : N) : N :=
  nadd (nsub (nadd (nsub (nlit 7858 10000) (nmul (nlit 12344 10000) v)) (nmul (nlit 7949 10000) (npow v 2)))
             (nmul (nlit 1238 10000) (npow v 3))) (nmul (nlit 64 10000) (npow v 4)).
Definition brocher_rho (v : N) : N :=
  nadd (nsub (nadd (nsub (nmul (nlit 16612 10000) v) (nmul (nlit 4721 10000) (npow v 2))) (nmul (nlit 671 10000) (npow v 3)))
             (nmul (nlit 43 10000) (npow v 4))) (nmul (nlit 106 1000000) (npow v 5)).

(** [np.where(t==0)[0]]: the indices of the zeros. *)
Definition where_zero (t : list N) : list nat :=
  filter (fun i => match nth_error t i with Some x => neqb x (nofZ 0) | None => false end) (seq 0 (length t)).

(** WaveformFitting.py:136-140, WaveformFittingMultiproc.py:122-126: (start, end).
    [delta] is a Python float.  obspy's delta is positive, so int(25/delta) >= 0; a
    negative value (which would count from the end of the arrays) is not modelled. *)
Definition fit_window (t : list N) (delta : N) : res (nat * nat) :=
  tzero <- getitem (where_zero t) 0 ;;
  if neqb delta (nofZ 0) then Err ZeroDivisionError else
  match ntrunc (ndiv (nofZ 25) delta) with
  | None => Err ValueError
  | Some z => if (z <? 0)%Z then Err (LibError 2) else Ok (tzero, tzero + Z.to_nat z)
  end.

(** numpy sums and means of elementwise products *)
Definition zipN (f : N -> N -> N) (x y : list N) : list N := map (fun p => f (fst p) (snd p)) (combine x y).
Definition centred (x : list N) : list N := map (fun a => nsub a (npmean x)) x.
(** [np.cov(x, y)[i, j]] *)
Definition cov (x y : list N) : N :=
  nmul (nsum (zipN nmul (centred x) (centred y))) (ndiv (nofZ 1) (nofZ (Z.of_nat (length x) - 1))).
Definition clip1 (x : N) : N :=
  if nltb x (nofZ (-1)) then nofZ (-1) else if nltb (nofZ 1) x then nofZ 1 else x.
(** [np.corrcoef(x, y)[0,1]] (numpy/lib/function_base.py: cov, divide by both standard
    deviations, clip); different lengths: ValueError. *)
Definition corrcoef (x y : list N) : res N :=
  if length x =? length y then Ok (clip1 (ndiv (ndiv (cov x y) (nroot (cov x x))) (nroot (cov y y))))
  else Err ValueError.
(** [math.sqrt(mean_squared_error(x, y))]: sklearn raises ValueError on empty input,
    NaN, infinity (a - a is then NaN) or different lengths. *)
Definition rmse (x y : list N) : res N :=
  if (length x =? length y) && negb (length x =? 0) && forallb (fun a => negb (nisnan (nsub a a))) (x ++ y)
  then Ok (nroot (npmean (zipN (fun a b => nsq (nsub a b)) x y)))
  else Err ValueError.
(** [np.where(abs(x) == 0, abs(x), x/abs(x))] *)
Definition signs (x : list N) : list N :=
  map (fun a => if neqb (nabs a) (nofZ 0) then nabs a else ndiv a (nabs a)) x.

(** One solution [[Correlation, RMSE, PG, Htemp, Ktemp]] *)
Record sol := mkSol { so_corr : N; so_rmse : N; so_pg : N; so_H : N; so_K : N }.
Definition zsol : sol := mkSol (nofZ 0) (nofZ 0) (nofZ 0) (nofZ 0) (nofZ 0).
(** One row of WaveformSolutions: the same with GoF in fourth place. *)
Record srow := mkSrow { sr_corr : N; sr_rmse : N; sr_pg : N; sr_gof : N; sr_H : N; sr_K : N }.

Context (stackR : stream N -> res (list (trace N)))
        (synO : list N -> list N -> list N -> list N -> N -> N -> nat -> N -> N -> res (list N))
        (pgO : list N -> list N -> N -> res N).

(** The layered model of a node: depth, vp, vs, rho.  WaveformFitting.py:152-162,
    378-387, WaveformFittingMultiproc.py:178-188, 441-451. *)
Definition synth (HSed VpSed VsSed SedDen VpCrust CrustDen H K rayp delta : N) (n : nat) (preonset gaussian : N) : res (list N) :=
  synO [HSed; H; nlit 775 10] [VpSed; VpCrust; nlit 8045 1000] [VsSed; ndiv VpCrust K; nlit 449 100]
       [SedDen; CrustDen; nlit 3299 1000] rayp delta n preonset gaussian.

(** WaveformPara, WaveformFittingMultiproc.py:48-136: the dictionary it returns (in a
    one-element list); WaveformFitting.py:113-140 computes the same local values. *)
Record wparams := mkWp {
  wp_stream : stream N; wp_rayp : N; wp_gauss : N; wp_HSed : N; wp_VpSed : N; wp_VpCrust : N;
  wp_VsSed : N; wp_SedDen : N; wp_CrustDen : N; wp_HMoho : list N; wp_KMoho : list N; wp_delta : N;
  wp_time : list N; wp_sta : string; wp_data : list N; wp_preonset : N; wp_n : nat; wp_start : nat; wp_end : nat }.
Definition WaveformPara (rfstream : stream N) (preonset HSed VpSed VpCrust rayp : N) (KMoho HMoho : list N) (gaussian : N)
  : res (list wparams) :=
  tr0 <- getitem rfstream 0 ;;                                             (* 108 *)
  let delta := tr_delta tr0 in
  let t := taxis delta (length (tr_data tr0)) preonset in
  Stacked <- stackR rfstream ;;                                            (* 113 *)
  st0 <- getitem Stacked 0 ;;
  t0 <- getitem t 0 ;;                                                     (* 119 *)
  w <- fit_window t delta ;;
  Ok [mkWp rfstream rayp gaussian HSed VpSed VpCrust (brocher_vs VpSed) (brocher_rho VpSed) (brocher_rho VpCrust)
           HMoho KMoho delta t (tr_sta tr0) (tr_data st0) (nabs t0) (length (tr_data st0)) (fst w) (snd w)].

(** The body of the grid loop: WaveformFitting.py:145-196, WaveformFittingMultiproc.py:
    172-223 (two copies of the same statements). *)
Definition eval_node (P : wparams) (Htemp Ktemp : N) : res sol :=
  rf_synth <- synth (wp_HSed P) (wp_VpSed P) (wp_VsSed P) (wp_SedDen P) (wp_VpCrust P) (wp_CrustDen P) Htemp Ktemp
                (wp_rayp P) (wp_delta P) (wp_n P) (wp_preonset P) (wp_gauss P) ;;
  let RealData := slice (wp_data P) (wp_start P) (wp_end P) in
  let SynthData := slice rf_synth (wp_start P) (wp_end P) in
  c <- corrcoef RealData SynthData ;;
  r <- rmse RealData SynthData ;;
  p <- pgO (signs RealData) (signs SynthData) (wp_delta P) ;;
  Ok (mkSol c r p Htemp Ktemp).

(** WaveformFitting.py:197-200, WaveformFittingMultiproc.py:337-343: rows written into
    [np.zeros((n, 5))]. *)
Definition fill (n : nat) (rows : list sol) : res (list sol) :=
  zt <- forM rows (fun r (s : nat * list sol) => let '(z, tb) := s in tb' <- setitem tb z r ;; Ok (S z, tb')) (0, repeat zsol n) ;;
  Ok (snd zt).

(** The four reported rows, in the order of the prints: WaveformFitting.py:225-228 and 300-304,
    WaveformFittingMultiproc.py:368-371. *)
Record best := mkBest { b_corr : srow; b_rmse : srow; b_pg : srow; b_gof : srow }.
Definition best_rows (t : list srow) : res best :=
  i <- argmax (map sr_corr t) ;; a <- getitem t i ;;
  j <- argmin (map sr_rmse t) ;; b <- getitem t j ;;
  k <- argmax (map sr_pg t) ;; c <- getitem t k ;;
  l <- argmax (map sr_gof t) ;; d <- getitem t l ;;
  Ok (mkBest a b c d).

(** WaveformFitting.py:204-224, WaveformFittingMultiproc.py:347-367: normalisation, GoF,
    the table with GoF. *)
Definition rank (wtCorr wtRMSE wtPG : N) (A : list sol) : res (list srow) :=
  MaxCorr <- pymax (map so_corr A) ;;
  MaxRMSE <- pymax (map so_rmse A) ;;
  MaxPG <- pymax (map so_pg A) ;;
  Ok (map (fun s =>
    let GoF := nadd (nadd (nmul wtCorr (ndiv (so_corr s) MaxCorr)) (nmul wtRMSE (nsub (nofZ 1) (ndiv (so_rmse s) MaxRMSE))))
                    (nmul wtPG (ndiv (so_pg s) MaxPG)) in
    mkSrow (so_corr s) (so_rmse s) (so_pg s) GoF (so_H s) (so_K s)) A).

(** The dictionary returned by WaveformFitting, and what it printed. *)
Record wfit := mkWf {
  wf_sols : list srow; wf_stream : stream N; wf_HSed : N; wf_VpSed : N; wf_VpCrust : N; wf_rayp : N;
  wf_KMoho : list N; wf_HMoho : list N; wf_gauss : N; wf_printed : best }.

(** WaveformFitting.py:44-242 [WaveformFitting]: for every K, for every H.  [savepath],
    [format] and the weights are only stored in the dictionary. *)
Definition WaveformFitting (rfstream : stream N) (preonset HSed VpSed VpCrust rayp : N) (KMoho HMoho : list N)
    (gaussian wtCorr wtRMSE wtPG : N) : res wfit :=
  Ps <- WaveformPara rfstream preonset HSed VpSed VpCrust rayp KMoho HMoho gaussian ;;   (* 113-140, same statements *)
  P <- getitem Ps 0 ;;
  MohoSol <- forM KMoho (fun Ktemp acc => forM HMoho (fun Htemp acc => s <- eval_node P Htemp Ktemp ;; Ok (acc ++ [s])) acc) [] ;;
  AllSolutions <- fill (length MohoSol) MohoSol ;;
  W <- rank wtCorr wtRMSE wtPG AllSolutions ;;
  b <- best_rows W ;;
  Ok (mkWf W rfstream HSed VpSed VpCrust rayp KMoho HMoho gaussian b).

(** WaveformFittingMultiproc.py:139-224 [WaveformFit_multiproc]; the argument is
    ((H,), ModelParams). *)
Definition WaveformFit_multiproc (inp : list N * list wparams) : res (list sol) :=
  let '(Hs, Ps) := inp in
  H <- getitem Hs 0 ;; P <- getitem Ps 0 ;;
  forM (wp_KMoho P) (fun Ktemp acc => s <- eval_node P H Ktemp ;; Ok (acc ++ [s])) [].

(** WaveformFittingMultiproc.py:227-269 [run_waveformfitting] *)
Definition run_waveformfitting (nproc : nat) (HMoho : list N) (ModelParams : list wparams)
    (r : res (list (option (list sol)))) : Prop :=
  pool_map_returns WaveformFit_multiproc nproc (map (fun h => ([h], ModelParams)) HMoho) r.

(** [np.std(x, axis=0)] of a one-dimensional array. *)
Definition np_std (x : list N) : N := nroot (npmean (map nsq (centred x))).
(** One saved figure. *)
Record figure := mkFig {
  f_label : string; f_x : list N; f_y : list N; f_crit : list N; f_H : N; f_K : N;  (* contour and mark *)
  f_xlim : N * N; f_ylim : N * N;
  f_t : list N; f_data : list N;                                        (* stacked RF *)
  f_st : list N; f_synth : list N;                                      (* synthetic RF *)
  f_plus : list N; f_minus : list N;                                    (* edges of the band labelled 'RF Data Std' *)
  f_dep : list N; f_vp : list N; f_vs : list N;                         (* velocity profile *)
  f_legend : N * N;                            (* the two numbers of the legend, before %.2f; its station name is not modelled *)
  f_file : string }.
Context (draw : figure -> res unit).

Definition labels : list string :=
  ["Correlation Coefficient"; "Root-mean-square Error"; "Phase Goodness of Fit"; "Overall Goodness of Fit"]%string.
(** The pairs (label, criterion column, best row) of the loop over the labels:
    WaveformFitting.py:310-326, WaveformFittingMultiproc.py:380-396. *)
Definition panels (t : list srow) (b : best) : list (string * list N * srow) :=
  [("Correlation Coefficient"%string, map sr_corr t, b_corr b); ("Root-mean-square Error"%string, map sr_rmse t, b_rmse b);
   ("Phase Goodness of Fit"%string, map sr_pg t, b_pg b); ("Overall Goodness of Fit"%string, map sr_gof t, b_gof b)].

(** WaveformFitting.py:314-428, WaveformFittingMultiproc.py:384-491, one pass of the loop.
    [po]: the pre-onset given to the synthetic ([None]: |t[0]| of the plotted axis, as in
    WaveformFitting.py:359).  The file name has the station of the stream's first trace
    (360, Multiproc 431). *)
Definition one_figure (rfstream : stream N) (t : list srow) (lim : res (N * N * (N * N))) (po : option N)
    (HSed VpSed VsSed SedDen VpCrust CrustDen rayp gaussian : N) (savepath format : string)
    (p : string * list N * srow) : res figure :=
  let '(suff, Criteria, BestModel) := p in
  l <- lim ;;
  tr0 <- getitem rfstream 0 ;;
  let delta := tr_delta tr0 in
  let tt := map (fun i => nadd (nmul (nofZ (Z.of_nat i)) delta) (tr_b tr0)) (seq 0 (length (tr_data tr0))) in
  t0 <- (match po with Some x => Ok x | None => x <- getitem tt 0 ;; Ok (nabs x) end) ;;
  Stacked <- stackR rfstream ;;
  st0 <- getitem Stacked 0 ;;
  let n := length (tr_data st0) in
  let H := sr_H BestModel in let K := sr_K BestModel in
  rf_synth <- synth HSed VpSed VsSed SedDen VpCrust CrustDen H K rayp delta n t0 gaussian ;;
  let fig := mkFig suff (map sr_H t) (map sr_K t) Criteria H K (fst l) (snd l)
    tt (tr_data st0)
    (map (fun i => nsub (nmul delta (nofZ (Z.of_nat i))) t0) (seq 0 (length rf_synth))) rf_synth
    (map (fun x => nadd x (np_std (tr_data st0))) (tr_data st0)) (map (fun x => nsub x (np_std (tr_data st0))) (tr_data st0))   (* 364-366, 396 *)
    [nofZ 0; HSed; HSed; H; H; nofZ 50] [VpSed; VpSed; VpCrust; VpCrust; nlit 8045 1000; nlit 8045 1000]
    [VsSed; VsSed; ndiv VpCrust K; ndiv VpCrust K; nlit 449 100; nlit 449 100]
    (H, nadd K (nlit 1 1000))                                                               (* 341-343 *)
    (savepath ++ "/" ++ tr_sta tr0 ++ "_" ++ suff ++ "." ++ format)%string in
  _ <- draw fig ;; Ok fig.

(** The loop over the four labels: the figures saved, and how it ended. *)
Fixpoint figures (body : string * list N * srow -> res figure) (ps : list (string * list N * srow)) : list figure * res unit :=
  match ps with
  | [] => ([], Ok tt)
  | p :: ps' => match body p with Err e => ([], Err e) | Ok f => let '(fs, r) := figures body ps' in (f :: fs, r) end
  end.

(** [l[0]], [l[-1]] *)
Definition ends (l : list N) : res (N * N) := a <- getitem l 0 ;; b <- getitem l (length l - 1) ;; Ok (a, b).
(** [min(l)], [max(l)] *)
Definition minmax (l : list N) : res (N * N) := a <- pymin l ;; b <- pymax l ;; Ok (a, b).

(** WaveformFitting.py:244-431 [PlotWaveformFitting]; the weights are not read. *)
Definition PlotWaveformFitting (W : wfit) (wtCorr wtRMSE wtPG : N) (savepath format : string) : list figure * res unit :=
  match (tr0 <- getitem (wf_stream W) 0 ;; b <- best_rows (wf_sols W) ;; Ok (tr0, b)) with
  | Err e => ([], Err e)
  | Ok (tr0, b) =>
      figures (one_figure (wf_stream W) (wf_sols W) (a <- ends (wf_HMoho W) ;; c <- ends (wf_KMoho W) ;; Ok (a, c)) None
                 (wf_HSed W) (wf_VpSed W) (brocher_vs (wf_VpSed W)) (brocher_rho (wf_VpSed W)) (wf_VpCrust W) (brocher_rho (wf_VpCrust W))
                 (wf_rayp W) (wf_gauss W) savepath format)
        (panels (wf_sols W) b)
  end.

(** WaveformFittingMultiproc.py:272-494 [plotbestmodel]: the prints and the figures. *)
Record pbm := mkPbm { pb_printed : option best; pb_figs : list figure; pb_end : res unit }.
Definition plotbestmodel (WaveformResults : list (list sol)) (ModelParams : list wparams) (wtCorr wtRMSE wtPG : option N)
    (savepath format : string) : pbm :=
  let a := dflt wtCorr (nlit 4 10) in let b := dflt wtRMSE (nlit 4 10) in let c := dflt wtPG (nlit 2 10) in  (* 334-336 *)
  match (P <- getitem ModelParams 0 ;;
         AllSolutions <- fill (length (wp_HMoho P) * length (wp_KMoho P)) (concat WaveformResults) ;;
         W <- rank a b c AllSolutions ;;
         bm <- best_rows W ;; Ok (P, W, bm)) with
  | Err e => mkPbm None [] (Err e)
  | Ok (P, W, bm) =>
      let '(fs, r) := figures (one_figure (wp_stream P) W (k <- minmax (wp_KMoho P) ;; h <- minmax (wp_HMoho P) ;; Ok (h, k)) (Some (wp_preonset P))
                 (wp_HSed P) (wp_VpSed P) (wp_VsSed P) (wp_SedDen P) (wp_VpCrust P) (wp_CrustDen P)
                 (wp_rayp P) (wp_gauss P) savepath format) (panels W bm) in
      mkPbm (Some bm) fs r
  end.
End Wave.
