(** * P_Arrival: the synthetic seismograms consist of the arrivals of H-k stacking (C94). *)

From Coq Require Import Reals Lra.
From Verif Require Import Base Num NumPy Cplx Mat4 SpecElastic SpecArrival DFT ReverbModel DeconModel HaskellModel HaskellProofs HaskellProofs2 HaskellProofs3 HaskellProofs4 HaskellProofs5 HaskellProofs6 P_Haskell.
Local Open Scope R_scope.

(** ** Sums over lists *)
Lemma lsum_ext {A} (f g : A -> C) l : (forall x, In x l -> f x = g x) -> lsum f l = lsum g l.
Proof. induction l as [|x l IH]; intro H; cbn; [reflexivity|]. rewrite H by (left; reflexivity). rewrite IH; [reflexivity|]. intros y Hy. apply H. right. exact Hy. Qed.
Lemma lsum_app {A} (f : A -> C) l k : lsum f (l ++ k) = (lsum f l + lsum f k)%C.
Proof. induction l as [|x l IH]; cbn; [ring|]. rewrite IH. ring. Qed.
Lemma lsum_map {A B} (f : B -> C) (g : A -> B) l : lsum f (map g l) = lsum (fun x => f (g x)) l.
Proof. induction l as [|x l IH]; cbn; [reflexivity|]. rewrite IH. reflexivity. Qed.
Lemma lsum_mul {A} (f : A -> C) c l : lsum (fun x => c * f x)%C l = (c * lsum f l)%C.
Proof. induction l as [|x l IH]; cbn; [ring|]. rewrite IH. ring. Qed.
Lemma lsum_add {A} (f g : A -> C) l : lsum (fun x => f x + g x)%C l = (lsum f l + lsum g l)%C.
Proof. induction l as [|x l IH]; cbn; [ring|]. rewrite IH. ring. Qed.
Lemma lsum_flat {A B} (f : B -> C) (g : A -> list B) l : lsum f (flat_map g l) = lsum (fun x => lsum f (g x)) l.
Proof. induction l as [|x l IH]; cbn; [reflexivity|]. rewrite lsum_app, IH. reflexivity. Qed.
Lemma lsum_swap {A B} (f : A -> B -> C) l k : lsum (fun x => lsum (f x) k) l = lsum (fun y => lsum (fun x => f x y) l) k.
Proof.
  induction l as [|x l IH]; cbn.
  - induction k as [|y k IHk]; cbn; [reflexivity|]. rewrite <- IHk. ring.
  - rewrite IH, <- lsum_add. reflexivity.
Qed.

(** ** Row vectors *)
Definition vrow (r : V4) (A : M4) : V4 := mkV
  (v0 r * m00 A + v1 r * m10 A + v2 r * m20 A + v3 r * m30 A)%C
  (v0 r * m01 A + v1 r * m11 A + v2 r * m21 A + v3 r * m31 A)%C
  (v0 r * m02 A + v1 r * m12 A + v2 r * m22 A + v3 r * m32 A)%C
  (v0 r * m03 A + v1 r * m13 A + v2 r * m23 A + v3 r * m33 A)%C.
Lemma vrow_mmul r A B : vrow r (mmul A B) = vrow (vrow r A) B.
Proof. apply V4_eq; cbn; ring. Qed.
Lemma vrow_1 r : vrow r mI = r.
Proof. destruct r. apply V4_eq; cbn; ring. Qed.

Definition vadd (x y : V4) : V4 := mkV (v0 x + v0 y)%C (v1 x + v1 y)%C (v2 x + v2 y)%C (v3 x + v3 y)%C.
Definition vscal (c : C) (x : V4) : V4 := mkV (c * v0 x)%C (c * v1 x)%C (c * v2 x)%C (c * v3 x)%C.
Definition vzero : V4 := mkV C0 C0 C0 C0.
Fixpoint vsum {A} (f : A -> V4) (l : list A) : V4 :=
  match l with [] => vzero | x :: l' => vadd (f x) (vsum f l') end.
Lemma vrow_vsum {A} (f : A -> V4) l M : vrow (vsum f l) M = vsum (fun x => vrow (f x) M) l.
Proof. induction l as [|x l IH]; cbn [vsum]; [apply V4_eq; cbn; ring|]. rewrite <- IH. apply V4_eq; cbn; ring. Qed.
Lemma vrow_vscal c r M : vrow (vscal c r) M = vscal c (vrow r M).
Proof. apply V4_eq; cbn; ring. Qed.
Lemma vsum_ext {A} (f g : A -> V4) l : (forall x, In x l -> f x = g x) -> vsum f l = vsum g l.
Proof. induction l as [|x l IH]; intro H; cbn; [reflexivity|]. rewrite H by (left; reflexivity). rewrite IH; [reflexivity|]. intros y Hy. apply H. right. exact Hy. Qed.
Lemma vsum_app {A} (f : A -> V4) l k : vsum f (l ++ k) = vadd (vsum f l) (vsum f k).
Proof. induction l as [|x l IH]; cbn [vsum app]; [apply V4_eq; cbn; ring|]. rewrite IH. apply V4_eq; cbn; ring. Qed.
Lemma vsum_map {A B} (f : B -> V4) (g : A -> B) l : vsum f (map g l) = vsum (fun x => f (g x)) l.
Proof. induction l as [|x l IH]; cbn; [reflexivity|]. rewrite IH. reflexivity. Qed.
Lemma vsum_flat {A B} (f : B -> V4) (g : A -> list B) l : vsum f (flat_map g l) = vsum (fun x => vsum f (g x)) l.
Proof. induction l as [|x l IH]; cbn; [reflexivity|]. rewrite vsum_app, IH. reflexivity. Qed.
Lemma vsum_add {A} (f g : A -> V4) l : vsum (fun x => vadd (f x) (g x)) l = vadd (vsum f l) (vsum g l).
Proof. induction l as [|x l IH]; cbn [vsum]; [apply V4_eq; cbn; ring|]. rewrite IH. apply V4_eq; cbn; ring. Qed.
Lemma vsum_zero {A} (l : list A) : vsum (fun _ => vzero) l = vzero.
Proof. induction l as [|x l IH]; cbn [vsum]; [reflexivity|]. rewrite IH. apply V4_eq; cbn; ring. Qed.
Lemma vsum_swap {A B} (f : A -> B -> V4) l k : vsum (fun x => vsum (f x) k) l = vsum (fun y => vsum (fun x => f x y) l) k.
Proof.
  induction l as [|x l IH]; cbn [vsum]; [symmetry; apply vsum_zero|]. rewrite IH, <- vsum_add. reflexivity.
Qed.
Lemma v0_vsum {A} (f : A -> V4) l : v0 (vsum f l) = lsum (fun x => v0 (f x)) l.
Proof. induction l as [|x l IH]; cbn; [reflexivity|]. rewrite IH. reflexivity. Qed.
Lemma v1_vsum {A} (f : A -> V4) l : v1 (vsum f l) = lsum (fun x => v1 (f x)) l.
Proof. induction l as [|x l IH]; cbn; [reflexivity|]. rewrite IH. reflexivity. Qed.

(** ** Real rows: displacement entries real, traction entries imaginary and divided by omega *)
Record R4 := mkR { r0 : R; r1 : R; r2 : R; r3 : R }.
Definition crow (omega : R) (r : R4) : V4 := mkV (RtoC (r0 r)) (RtoC (r1 r)) (imag (r2 r / omega)) (imag (r3 r / omega)).
Definition rscal (c : R) (r : R4) : R4 := mkR (c * r0 r) (c * r1 r) (c * r2 r) (c * r3 r).
Lemma crow_scal omega c r : crow omega (rscal c r) = vscal (RtoC c) (crow omega r).
Proof. apply V4_eq; cbn [crow rscal vscal v0 v1 v2 v3 r0 r1 r2 r3]; apply C_eq; c4; unfold Rdiv; ring. Qed.

(** The rows of the inverse eigenvector matrix, without omega: downgoing P, S, upgoing P, S. *)
Definition irow (p : R) (m : material) (g : leg) : R4 :=
  let a := vp_of m in let b := vs_of m in let rh := density m in
  let xi := xi_of a p in let eta := eta_of b p in let bp := bp_of b p in
  match g with
  | LPpPs => mkR (b * b * p / a) (bp / (2 * a * xi)) (- p / (2 * rh * a * xi)) (- 1 / (2 * rh * a))
  | LPsPs => mkR (bp / (2 * b * eta)) (- b * p) (- 1 / (2 * rh * b)) (p / (2 * rh * b * eta))
  | LPs => mkR (b * b * p / a) (- (bp / (2 * a * xi))) (- (- p / (2 * rh * a * xi))) (- 1 / (2 * rh * a))
  | Direct => mkR (bp / (2 * b * eta)) (- (- b * p)) (- (- 1 / (2 * rh * b))) (p / (2 * rh * b * eta))
  end.
(** A row times the column of the eigenvector matrix. *)
Definition ecol (p : R) (m : material) (g : leg) (r : R4) : R :=
  let a := vp_of m in let b := vs_of m in let rh := density m in
  let xi := xi_of a p in let eta := eta_of b p in let bp := bp_of b p in
  match g with
  | LPpPs => r0 r * (a * p) + r1 r * (a * xi) - r2 r * (2 * rh * a * b * b * p * xi) - r3 r * (rh * a * bp)
  | LPsPs => r0 r * (b * eta) - r1 r * (b * p) - r2 r * (rh * b * bp) + r3 r * (2 * rh * b * b * b * p * eta)
  | LPs => r0 r * (a * p) - r1 r * (a * xi) + r2 r * (2 * rh * a * b * b * p * xi) - r3 r * (rh * a * bp)
  | Direct => r0 r * (b * eta) + r1 r * (b * p) + r2 r * (rh * b * bp) + r3 r * (2 * rh * b * b * b * p * eta)
  end.
Definition vslow (p : R) (m : material) (g : leg) : R :=
  match g with LPpPs => pslow p m | LPsPs => sslow p m | LPs => - pslow p m | Direct => - sslow p m end.

Lemma pslow_xi p m : pslow p m = xi_of (vp_of m) p. Proof. reflexivity. Qed.
Lemma sslow_eta p m : sslow p m = eta_of (vs_of m) p.
Proof. reflexivity. Qed.

Lemma crow_irow omega p m g : finm omega p m ->
  crow omega (irow p m g) =
  match g with
  | LPpPs => mkV (m00 (Eim omega p m)) (m01 (Eim omega p m)) (m02 (Eim omega p m)) (m03 (Eim omega p m))
  | LPsPs => mkV (m10 (Eim omega p m)) (m11 (Eim omega p m)) (m12 (Eim omega p m)) (m13 (Eim omega p m))
  | LPs => mkV (m20 (Eim omega p m)) (m21 (Eim omega p m)) (m22 (Eim omega p m)) (m23 (Eim omega p m))
  | Direct => mkV (m30 (Eim omega p m)) (m31 (Eim omega p m)) (m32 (Eim omega p m)) (m33 (Eim omega p m))
  end.
Proof.
  intro F. pose proof (f_om _ _ _ _ _ F). pose proof (f_rho _ _ _ _ _ F). pose proof (f_a _ _ _ _ _ F). pose proof (f_b _ _ _ _ _ F).
  pose proof (xi_nz _ _ _ _ _ F). pose proof (eta_nz _ _ _ _ _ F).
  destruct g; apply V4_eq; cbn [crow irow v0 v1 v2 v3 r0 r1 r2 r3]; unfold Eim, Einv; cbn [m00 m01 m02 m03 m10 m11 m12 m13 m20 m21 m22 m23 m30 m31 m32 m33];
  apply C_eq; c4; try reflexivity; try ring; field; repeat split; assumption.
Qed.

(** ** One layer splits a row into four, each with its own phase *)
Lemma row_E omega p m r : finm omega p m ->
  vrow (crow omega r) (Em omega p m) =
  mkV (RtoC (ecol p m LPpPs r)) (RtoC (ecol p m LPsPs r)) (RtoC (ecol p m LPs r)) (RtoC (ecol p m Direct r)).
Proof.
  intro F. pose proof (f_om _ _ _ _ _ F).
  apply V4_eq; cbn [vrow crow ecol v0 v1 v2 v3]; unfold Em, Emat; cbn [m00 m01 m02 m03 m10 m11 m12 m13 m20 m21 m22 m23 m30 m31 m32 m33];
  apply C_eq; c4; try ring; field; assumption.
Qed.
Lemma row_layer omega p m z r : finm omega p m ->
  vrow (crow omega r) (Pm omega p m z) =
  vsum (fun g => vscal (cis (omega * (vslow p m g * z))) (crow omega (rscal (ecol p m g r) (irow p m g)))) legs.
Proof.
  intro F. unfold Pm. rewrite (Pdec _ _ _ _ _ F). fold (Em omega p m) (Eim omega p m) (Lm omega p m z).
  rewrite !vrow_mmul, (row_E omega p m r F). unfold legs. cbn [vsum]. rewrite !crow_scal, !(crow_irow omega p m _ F).
  unfold Lm, Lam, vslow. rewrite !pslow_xi, !sslow_eta.
  replace (omega * (xi_of (vp_of m) p * z)) with (omega * xi_of (vp_of m) p * z) by ring.
  replace (omega * (eta_of (vs_of m) p * z)) with (omega * eta_of (vs_of m) p * z) by ring.
  replace (omega * (- xi_of (vp_of m) p * z)) with (- (omega * xi_of (vp_of m) p * z)) by ring.
  replace (omega * (- eta_of (vs_of m) p * z)) with (- (omega * eta_of (vs_of m) p * z)) by ring.
  generalize (cis (omega * xi_of (vp_of m) p * z)) (cis (omega * eta_of (vs_of m) p * z)) (cis (- (omega * xi_of (vp_of m) p * z))) (cis (- (omega * eta_of (vs_of m) p * z))).
  intros a b c d. apply V4_eq; cbn; ring.
Qed.

(** ** A stack *)
Fixpoint path_row (p : R) (r : R4) (ls : list layer) (c : list leg) : R4 :=
  match ls, c with
  | l :: ls', g :: c' => let q := path_row p r ls' c' in rscal (ecol p (mat l) g q) (irow p (mat l) g)
  | _, _ => r
  end.
Fixpoint path_phase (p : R) (ls : list layer) (c : list leg) : R :=
  match ls, c with
  | l :: ls', g :: c' => vslow p (mat l) g * thick l + path_phase p ls' c'
  | _, _ => 0
  end.
Lemma row_stack omega p r ls : Forall (fun l => finm omega p (mat l)) ls ->
  vrow (crow omega r) (stackP omega p ls) =
  vsum (fun c => vscal (cis (omega * path_phase p ls c)) (crow omega (path_row p r ls c))) (paths (length ls)).
Proof.
  induction 1 as [|l ls F _ IH].
  - cbn [stackP length paths vsum path_phase path_row]. rewrite vrow_1, Rmult_0_r, cis_0. apply V4_eq; cbn; ring.
  - cbn [stackP length paths]. rewrite vrow_mmul, IH, vrow_vsum, vsum_flat.
    transitivity (vsum (fun c => vsum (fun g => vscal (cis (omega * path_phase p (l :: ls) (g :: c))) (crow omega (path_row p r (l :: ls) (g :: c)))) legs) (paths (length ls))).
    + apply vsum_ext. intros c _. rewrite vrow_vscal, (row_layer omega p (mat l) (thick l) _ F). cbn [path_phase path_row].
      unfold legs. cbn [vsum].
      rewrite !(Rmult_plus_distr_l omega (_ * thick l) (path_phase p ls c)), !cis_add. apply V4_eq; cbn; ring.
    + rewrite vsum_swap. apply vsum_ext. intros g _. rewrite vsum_map. reflexivity.
Qed.

(** The S-wave travel time through the stack. *)
Fixpoint s_time (p : R) (ls : list layer) : R :=
  match ls with [] => 0 | l :: ls' => thick l * sslow p (mat l) + s_time p ls' end.
Lemma phase_delay p ls : forall c, length c = length ls -> path_phase p ls c = path_delay p ls c - s_time p ls.
Proof.
  induction ls as [|l ls IH]; intros c Hc; [cbn; lra|]. destruct c as [|g c]; [discriminate|].
  cbn [path_phase path_delay s_time]. rewrite IH by (injection Hc; intro; assumption). destruct g; cbn [vslow leg_delay]; ring.
Qed.
Lemma paths_length n c : In c (paths n) -> length c = n.
Proof.
  revert c. induction n as [|n IH]; intros c H.
  - destruct H as [<-|[]]. reflexivity.
  - cbn [paths] in H. apply in_flat_map in H as (g & _ & H). apply in_map_iff in H as (c' & <- & H). cbn. rewrite (IH c' H). reflexivity.
Qed.
Lemma row_spikes omega p r ls : Forall (fun l => finm omega p (mat l)) ls ->
  let v := vrow (crow omega r) (stackP omega p ls) in
  v0 v = (cis (- (omega * s_time p ls)) * spikes omega p ls (fun c => r0 (path_row p r ls c)))%C /\
  v1 v = (cis (- (omega * s_time p ls)) * spikes omega p ls (fun c => r1 (path_row p r ls c)))%C.
Proof.
  intros F v. unfold v. rewrite (row_stack omega p r ls F), v0_vsum, v1_vsum. unfold spikes.
  rewrite <- !lsum_mul. split; apply lsum_ext; intros c Hc; cbn [vscal v0 v1 crow]; rewrite (phase_delay p ls c (paths_length _ _ Hc));
  replace (omega * (path_delay p ls c - s_time p ls)) with (omega * path_delay p ls c + - (omega * s_time p ls)) by ring;
  rewrite cis_add; ring.
Qed.

(** ** C94 *)
Lemma mmul_row2 A B : (m20 (mmul A B), m21 (mmul A B)) = (v0 (vrow (mkV (m20 A) (m21 A) (m22 A) (m23 A)) B), v1 (vrow (mkV (m20 A) (m21 A) (m22 A) (m23 A)) B)).
Proof. reflexivity. Qed.
Lemma mmul_row3 A B : (m30 (mmul A B), m31 (mmul A B)) = (v0 (vrow (mkV (m30 A) (m31 A) (m32 A) (m33 A)) B), v1 (vrow (mkV (m30 A) (m31 A) (m32 A) (m33 A)) B)).
Proof. reflexivity. Qed.

(** The amplitudes, for the path [c] in the layers [ls] over the material [m]. *)
Definition aPr p ls m c := r0 (path_row p (irow p m LPs) ls c).
Definition aPz p ls m c := r1 (path_row p (irow p m LPs) ls c).
Definition aSr p ls m c := r0 (path_row p (irow p m Direct) ls c).
Definition aSz p ls m c := r1 (path_row p (irow p m Direct) ls c).

Lemma response_spikes omega p ipha ls m z : omega <> 0 -> ls <> [] ->
  let all := ls ++ [mkLayer m z] in
  Forall (fun l => admissible p (mat l)) all ->
  let PR := spikes omega p ls (aPr p ls m) in let PZ := spikes omega p ls (aPz p ls m) in
  let SR := spikes omega p ls (aSr p ls m) in let SZ := spikes omega p ls (aSz p ls m) in
  let D := (PR * SZ - PZ * SR)%C in
  D <> C0 /\
  exists ur uz, haskell omega p (length all) ipha (vps all) (vss all) (rhos all) (thicks all) = Ok (ur, uz) /\
    if (0 <=? ipha)%Z
    then (ur * D)%C = (cis (omega * (s_time p ls + z * pslow p m)) * SZ)%C /\
         (uz * D)%C = (- (cis (omega * (s_time p ls + z * pslow p m)) * SR))%C
    else (ur * D)%C = (- (cis (omega * (s_time p ls + z * sslow p m)) * PZ))%C /\
         (uz * D)%C = (cis (omega * (s_time p ls + z * sslow p m)) * PR)%C.
Proof.
  intros Ho Hne all HA PR PZ SR SZ D.
  assert (HF : Forall (fun l => finm omega p (mat l)) all) by (apply admissible_all; assumption).
  assert (Fm : finm omega p m) by (apply Forall_app in HF as [_ F2]; inversion_clear F2; assumption).
  assert (Fl : Forall (fun l => finm omega p (mat l)) ls) by (apply Forall_app in HF as [F1 _]; exact F1).
  assert (Eff : eff all = all).
  { unfold eff, all. rewrite app_length. cbn [length]. destruct ls; [contradiction|]. cbn [length]. destruct (Nat.ltb_spec 1 (S (length ls) + 1)); [reflexivity|lia]. }
  pose proof (haskell_eq omega p ls (mkLayer m z) ipha HF) as E. cbv zeta in E. fold all in E. rewrite Eff in E. cbn [mat] in E.
  pose proof (det2_nonzero omega p all m HF Fm) as DN. cbv zeta in DN.
  assert (SB : mmul (Eim omega p m) (stackP omega p all) = mmul (Lm omega p m z) (mmul (Eim omega p m) (stackP omega p ls))) by (apply sl_bottom; exact Fm).
  pose proof (Lm_rows omega p m z (mmul (Eim omega p m) (stackP omega p ls))) as (R1&R2&R3&R4). cbv zeta in *. rewrite <- SB in R1, R2, R3, R4.
  set (sl := mmul (Eim omega p m) (stackP omega p all)) in *.
  pose proof (row_spikes omega p (irow p m LPs) ls Fl) as (Q0 & Q1). pose proof (row_spikes omega p (irow p m Direct) ls Fl) as (Q2 & Q3).
  cbv zeta in Q0, Q1, Q2, Q3. rewrite (crow_irow omega p m LPs Fm) in Q0, Q1. rewrite (crow_irow omega p m Direct Fm) in Q2, Q3.
  pose proof (mmul_row2 (Eim omega p m) (stackP omega p ls)) as M2. pose proof (mmul_row3 (Eim omega p m) (stackP omega p ls)) as M3.
  pose proof (f_equal fst M2) as M20. pose proof (f_equal snd M2) as M21. pose proof (f_equal fst M3) as M30. pose proof (f_equal snd M3) as M31.
  cbn [fst snd] in M20, M21, M30, M31. rewrite Q0 in M20. rewrite Q1 in M21. rewrite Q2 in M30. rewrite Q3 in M31.
  change (spikes omega p ls (fun c => r0 (path_row p (irow p m LPs) ls c))) with PR in M20.
  change (spikes omega p ls (fun c => r1 (path_row p (irow p m LPs) ls c))) with PZ in M21.
  change (spikes omega p ls (fun c => r0 (path_row p (irow p m Direct) ls c))) with SR in M30.
  change (spikes omega p ls (fun c => r1 (path_row p (irow p m Direct) ls c))) with SZ in M31.
  rewrite M20 in R1. rewrite M21 in R2. rewrite M30 in R3. rewrite M31 in R4. clear M2 M3 M20 M21 M30 M31 Q0 Q1 Q2 Q3.
  set (T := omega * s_time p ls) in *.
  assert (DD : (m20 sl * m31 sl - m21 sl * m30 sl)%C = (cis (- (omega * pslow p m * z)) * cis (- (omega * sslow p m * z)) * cis (- T) * cis (- T) * D)%C).
  { rewrite R1, R2, R3, R4. unfold D. ring. }
  assert (D0 : D <> C0).
  { intro Z. apply DN. rewrite DD, Z. ring. }
  split; [exact D0|].
  assert (I1 : forall x, (cis x * cis (- x))%C = C1) by (intro x; rewrite <- cis_add, Rplus_opp_r; apply cis_0).
  assert (TP : cis (omega * (s_time p ls + z * pslow p m)) = (cis T * cis (omega * pslow p m * z))%C) by (rewrite <- cis_add; f_equal; unfold T; ring).
  assert (TS : cis (omega * (s_time p ls + z * sslow p m)) = (cis T * cis (omega * sslow p m * z))%C) by (rewrite <- cis_add; f_equal; unfold T; ring).
  rewrite TP, TS. pose proof (I1 T) as IT. pose proof (I1 (omega * pslow p m * z)) as IP. pose proof (I1 (omega * sslow p m * z)) as IS.
  rewrite E. unfold solve2. destruct (Req_EM_T _ 0) as [Z|_]; [apply Cnorm2_0 in Z; contradiction|].
  rewrite DD, R1, R2, R3, R4.
  pose proof (cis_neq0 (- T)) as N1. pose proof (cis_neq0 (- (omega * pslow p m * z))) as N2. pose proof (cis_neq0 (- (omega * sslow p m * z))) as N3.
  assert (K1 : cis T = (/ cis (- T))%C) by (symmetry; apply cis_neg_inv).
  assert (K2 : cis (omega * pslow p m * z) = (/ cis (- (omega * pslow p m * z)))%C) by (symmetry; apply cis_neg_inv).
  assert (K3 : cis (omega * sslow p m * z) = (/ cis (- (omega * sslow p m * z)))%C) by (symmetry; apply cis_neg_inv).
  rewrite K1, K2, K3. clear - D0 N1 N2 N3.
  destruct (0 <=? ipha)%Z; eexists _, _; (split; [reflexivity|]); split; field; repeat split; assumption.
Qed.

(** The full response.  For every stack of layers over a half-space there are real
    amplitudes, one per path and independent of frequency, in which the free-surface
    motion for an incident P (ipha >= 0) or S wave is expressed at every frequency;
    [T] is the same for both components. *)
Theorem C94_response p ls l : ls <> [] -> Forall (fun l => admissible p (mat l)) (ls ++ [l]) ->
  let all := ls ++ [l] in
  exists aPr aPz aSr aSz : list leg -> R, exists TP TS : R,
  forall omega ipha, omega <> 0 ->
  let PR := spikes omega p ls aPr in let PZ := spikes omega p ls aPz in
  let SR := spikes omega p ls aSr in let SZ := spikes omega p ls aSz in
  let D := (PR * SZ - PZ * SR)%C in
  D <> C0 /\
  exists ur uz, haskell omega p (length all) ipha (vps all) (vss all) (rhos all) (thicks all) = Ok (ur, uz) /\
    if (0 <=? ipha)%Z
    then (ur * D)%C = (cis (omega * TP) * SZ)%C /\ (uz * D)%C = (- (cis (omega * TP) * SR))%C
    else (ur * D)%C = (- (cis (omega * TS) * PZ))%C /\ (uz * D)%C = (cis (omega * TS) * PR)%C.
Proof.
  intros Hne HA all. destruct l as [m z].
  exists (aPr p ls m), (aPz p ls m), (aSr p ls m), (aSz p ls m), (s_time p ls + z * pslow p m), (s_time p ls + z * sslow p m).
  intros omega ipha Ho. apply response_spikes; assumption.
Qed.

(** So the spectral receiver function radial/vertical is the quotient of two series of
    spikes, at exactly the delays of the paths. *)
Theorem C94_receiver_function p ls l ipha : ls <> [] -> Forall (fun l => admissible p (mat l)) (ls ++ [l]) ->
  let all := ls ++ [l] in
  exists aR aZ : list leg -> R, forall omega, omega <> 0 ->
  exists ur uz, haskell omega p (length all) ipha (vps all) (vss all) (rhos all) (thicks all) = Ok (ur, uz) /\
    (ur * spikes omega p ls aZ)%C = (uz * spikes omega p ls aR)%C /\
    ~ (spikes omega p ls aR = C0 /\ spikes omega p ls aZ = C0) /\
    (uz <> C0 -> spikes omega p ls aZ <> C0 /\ (ur / uz)%C = (spikes omega p ls aR / spikes omega p ls aZ)%C).
Proof.
  intros Hne HA all.
  assert (Neg : forall omega a, spikes omega p ls (fun c => - a c) = (- spikes omega p ls a)%C).
  { intros omega a. unfold spikes. rewrite <- (lsum_ext (fun c => (- C1) * (RtoC (a c) * cis (omega * path_delay p ls c)))%C).
    - rewrite lsum_mul. ring.
    - intros c _. rewrite RtoC_opp. ring. }
  destruct (C94_response p ls l Hne HA) as (b1 & b2 & b3 & b4 & TP & TS & H).
  assert (Key : forall (ur uz D X Y c : C), D <> C0 -> c <> C0 -> (ur * D)%C = (c * X)%C -> (uz * D)%C = (c * Y)%C -> ~ (X = C0 /\ Y = C0) ->
    (ur * Y)%C = (uz * X)%C /\ ~ (X = C0 /\ Y = C0) /\ (uz <> C0 -> Y <> C0 /\ (ur / uz)%C = (X / Y)%C)).
  { intros ur uz D X Y c HD Hc E1 E2 N.
    assert (Eur : ur = (c * X / D)%C) by (rewrite <- E1; field; exact HD).
    assert (Euz : uz = (c * Y / D)%C) by (rewrite <- E2; field; exact HD).
    split; [|split; [exact N|]].
    - rewrite Eur, Euz. field. exact HD.
    - intro Hz. assert (HY : Y <> C0) by (intro Z; apply Hz; rewrite Euz, Z; field; exact HD).
      split; [exact HY|]. rewrite Eur, Euz. field. repeat split; assumption. }
  destruct (0 <=? ipha)%Z eqn:Ei.
  - exists b4, (fun c => - b3 c). intros omega Ho. destruct (H omega ipha Ho) as (HD & ur & uz & E & Hu). rewrite Ei in Hu. destruct Hu as [U1 U2].
    exists ur, uz. split; [exact E|]. apply (Key ur uz _ _ _ (cis (omega * TP)) HD (cis_neq0 _)).
    + exact U1.
    + rewrite Neg, U2. ring.
    + intros [Z1 Z2]. apply HD. rewrite Neg in Z2. rewrite Z1.
      assert (Z3 : spikes omega p ls b3 = C0) by (transitivity (- - spikes omega p ls b3)%C; [ring|rewrite Z2; ring]). rewrite Z3. ring.
  - exists (fun c => - b2 c), b1. intros omega Ho. destruct (H omega ipha Ho) as (HD & ur & uz & E & Hu). rewrite Ei in Hu. destruct Hu as [U1 U2].
    exists ur, uz. split; [exact E|]. apply (Key ur uz _ _ _ (cis (omega * TS)) HD (cis_neq0 _)).
    + rewrite Neg, U1. ring.
    + exact U2.
    + intros [Z1 Z2]. apply HD. rewrite Neg in Z1. rewrite Z2.
      assert (Z3 : spikes omega p ls b2 = C0) by (transitivity (- - spikes omega p ls b2)%C; [ring|rewrite Z1; ring]). rewrite Z3. ring.
Qed.
