(** * HaskellModel: the layered-medium response of synrf.py (lines 350-452) and the
    thickness loop of synrf.__init__ (lines 496-505).

    Exact arithmetic over R and C.  numpy's complex dtype is [C]; a (4,4) complex array
    is [M4]; np.matmul is [mmul].  Where numpy would go on with NaN or inf (a layer in
    which a wave is evanescent or the slowness is exactly critical, a zero velocity or
    density, a zero determinant) the model stops with [NaNResult]. *)

From Coq Require Import Reals Lra.
From Verif Require Import Base Num NumPy Cplx Mat4 DFT ReverbModel DeconModel.
Local Open Scope R_scope.

(** synrf.py:361, 391 [eta = np.sqrt(1.0/(beta*beta) - p*p)] *)
Definition eta_of (beta p : R) : R := sqrt (1 / (beta * beta) - p * p).
(** synrf.py:362, 392 [xi = np.sqrt(1.0/(alpha*alpha) - p*p)] *)
Definition xi_of (alpha p : R) : R := sqrt (1 / (alpha * alpha) - p * p).
(** synrf.py:363, 390 [bp = 1.0 - 2.0*beta*beta*p*p] *)
Definition bp_of (beta p : R) : R := 1 - 2 * beta * beta * p * p.

(** The quantities numpy divides by at synrf.py:361-379 and 391-414 are positive (or,
    for omega and rho, nonzero) numbers. *)
Definition finite_layer (omega rho alpha beta p : R) : bool :=
  if Req_EM_T (omega * rho * alpha * beta) 0 then false
  else Rltb 0 (1 / (beta * beta) - p * p) && Rltb 0 (1 / (alpha * alpha) - p * p).

(** [x * ei] with [ei = 0+1j], synrf.py:350, for a real [x]: the number 0+xj *)
Definition imag (x : R) : C := (0, x).

(** synrf.py:352-379 [e_inverse] *)
Definition e_inverse (omega rho alpha beta p : R) : res M4 :=
  if negb (finite_layer omega rho alpha beta p) then Err NaNResult else
  let eta := eta_of beta p in
  let xi := xi_of alpha p in
  let bp := bp_of beta p in
  let e00 := RtoC (beta * beta * p / alpha) in
  let e01 := RtoC (bp / (2 * alpha * xi)) in
  let e02 := imag (- p / (2 * omega * rho * alpha * xi)) in
  let e03 := imag (- 1 / (2 * omega * rho * alpha)) in
  let e10 := RtoC (bp / (2 * beta * eta)) in
  let e11 := RtoC (- beta * p) in
  let e12 := imag (- 1 / (2 * omega * rho * beta)) in
  let e13 := imag (p / (2 * omega * rho * beta * eta)) in
  Ok (mkM e00 e01 e02 e03
          e10 e11 e12 e13
          e00 (- e01)%C (- e02)%C e03
          e10 (- e11)%C (- e12)%C e13).

(** synrf.py:382-416 [propagator_sol] *)
Definition propagator_sol (omega rho alpha beta p z : R) : res M4 :=
  if negb (finite_layer omega rho alpha beta p) then Err NaNResult else
  let beta2 := beta * beta in
  let p2 := p * p in
  let bp := 1 - 2 * beta2 * p2 in
  let eta := eta_of beta p in
  let xi := xi_of alpha p in
  let cos_xi := cos (omega * xi * z) in
  let cos_eta := cos (omega * eta * z) in
  let sin_xi := sin (omega * xi * z) in
  let sin_eta := sin (omega * eta * z) in
  let p00 := RtoC (2 * beta2 * p2 * cos_xi + bp * cos_eta) in
  let p01 := imag (p * (bp / xi * sin_xi - 2 * beta2 * eta * sin_eta)) in
  let p02 := RtoC ((p2 / xi * sin_xi + eta * sin_eta) / (omega * rho)) in
  let p03 := imag (p * (- cos_xi + cos_eta) / (omega * rho)) in
  let p10 := imag (p * (2 * beta2 * xi * sin_xi - bp / eta * sin_eta)) in
  let p11 := RtoC (bp * cos_xi + 2 * beta2 * p2 * cos_eta) in
  let p13 := RtoC ((xi * sin_xi + p2 / eta * sin_eta) / (omega * rho)) in
  let p20 := RtoC (omega * rho * (- 4 * beta2 * beta2 * p2 * xi * sin_xi - bp * bp / eta * sin_eta)) in
  let p21 := imag (2 * omega * beta2 * rho * p * bp * (cos_xi - cos_eta)) in
  let p31 := RtoC (- omega * rho * (bp * bp / xi * sin_xi + 4 * beta2 * beta2 * p2 * eta * sin_eta)) in
  Ok (mkM p00 p01 p02 p03
          p10 p11 p03 p13
          p20 p21 p00 p10
          p21 p31 p01 p11).

(** Python's [l[-1]] *)
Definition lastitem {A} (l : list A) : res A :=
  match l with [] => Err IndexError | _ => getitem l (length l - 1) end.

(** [propagator_sol(omega, rho[i], alpha[i], beta[i], p, h[i])], synrf.py:422, 424 *)
Definition layer_prop (omega p : R) (alpha beta rho h : list R) (i : nat) : res M4 :=
  r <- getitem rho i ;; a <- getitem alpha i ;; b <- getitem beta i ;; z <- getitem h i ;;
  propagator_sol omega r a b p z.

(** synrf.py:423-425 [for i in range(i0+1, nl): p_mat = np.matmul(p_mat2, p_mat)] *)
Fixpoint prop_loop (omega p : R) (alpha beta rho h : list R) (idx : list nat) (p_mat : M4) : res M4 :=
  match idx with
  | [] => Ok p_mat
  | i :: idx' =>
      p_mat2 <- layer_prop omega p alpha beta rho h i ;;
      prop_loop omega p alpha beta rho h idx' (mmul p_mat2 p_mat)
  end.

(** synrf.py:418-437 [haskell(omega, p, nl, ipha, alpha, beta, rho, h)] *)
Definition haskell (omega p : R) (nl : nat) (ipha : Z) (alpha beta rho h : list R) : res (C * C) :=
  rl <- lastitem rho ;; al <- lastitem alpha ;; bl <- lastitem beta ;;
  e_inv <- e_inverse omega rl al bl p ;;                                   (* 421 *)
  p_mat <- layer_prop omega p alpha beta rho h 0 ;;                        (* 422 *)
  p_mat <- prop_loop omega p alpha beta rho h (seq 1 (nl - 1)) p_mat ;;    (* 423-425 *)
  let sl := if (1 <? nl)%nat then mmul e_inv p_mat else e_inv in           (* 426-429 *)
  let denom := (m20 sl * m31 sl - m21 sl * m30 sl)%C in                    (* 430 *)
  if Req_EM_T (Cnorm2 denom) 0 then Err NaNResult else
  if (0 <=? ipha)%Z
  then Ok ((m31 sl / denom)%C, (- (m30 sl / denom))%C)                     (* 432-433 *)
  else Ok ((- (m21 sl / denom))%C, (m20 sl / denom)%C).                    (* 435-436 *)

(** synrf.py:445-448, the frequency loop [for i in range(1, nhalf)]; the arrays start
    at zero, so entry 0 and the entries from nhalf on stay 0. *)
Fixpoint freq_loop (rayp dt : R) (npts_max : nat) (ipha : Z) (alpha beta rho h : list R)
    (idx : list nat) (fr fz : list C) : res (list C * list C) :=
  match idx with
  | [] => Ok (fr, fz)
  | i :: idx' =>
      if Req_EM_T (INR npts_max * dt) 0 then Err ZeroDivisionError else
      let omg := 2 * PI * INR i / (INR npts_max * dt) in
      rz <- haskell omg rayp (length h) ipha alpha beta rho h ;;
      fr <- setitem fr i (fst rz) ;;
      fz <- setitem fz i (snd rz) ;;
      freq_loop rayp dt npts_max ipha alpha beta rho h idx' fr fz
  end.

(** synrf.py:439-452 [fwd_seis(rayp, dt, npts, ipha, alpha, beta, rho, h)] *)
Definition fwd_seis (rayp dt : R) (npts : nat) (ipha : Z) (alpha beta rho h : list R) : res (list R * list R) :=
  npts_max <- next_pow_2 npts ;;                                           (* 441 *)
  let z := repeat C0 npts_max in                                           (* 442-443 *)
  let nhalf := (npts_max / 2 + 1)%nat in                                   (* 444 *)
  frz <- freq_loop rayp dt npts_max ipha alpha beta rho h (seq 1 (nhalf - 1)) z z ;;
  let ur := map (fun x => x / INR npts_max) (rev (map Re (ifft (fst frz) npts_max))) in   (* 449 *)
  let uz := map (fun x => - x / INR npts_max) (rev (map Re (ifft (snd frz) npts_max))) in (* 450 *)
  Ok (slice ur 0 npts, slice uz 0 npts).                                   (* 452 *)

(** synrf.py:496-505, the depth-to-thickness loop of [synrf.__init__]; [prev] is
    [depth[i-1]] ([None] for i = 0). *)
Fixpoint thickness_from (prev : option R) (depth : list R) : list R :=
  match depth with
  | [] => []
  | d :: rest =>
      (match prev with None => d | Some q => d - q end) :: thickness_from (Some d) rest
  end.
Definition thickness (depth : list R) : list R := thickness_from None depth.
