(** * P_Float3: the sequential, the Yu and the synthetic programs in IEEE double precision (C89, C90). *)

From Coq Require Import ZArith Reals Lra Lia Psatz Floats.SpecFloat.
From Flocq Require Import Core.
From Verif Require Import Base Num NumPy Spec HkModel HkProofs HkReal HkFacts HkFacts2 HkFacts4 P_Hk P_Hk4 P_Hk6 Float64 FloatErr FloatHk FloatStack FloatSeq P_Float P_Float2 FloatTable FloatOne.

Local Open Scope R_scope.

(** ** C89: delays *)

Lemma self_near (p : B64) : Rabs (real p - real p) <= u * Rabs (real p) + tiny.
Proof.
  replace (real p - real p) with 0 by ring. rewrite Rabs_R0. pose proof u_bounds as [U _].
  assert (0 <= tiny) by (unfold tiny; pose proof (bpow_ge_0 radix2 (-1074)); lra).
  assert (0 <= u * Rabs (real p)) by (apply Rmult_le_pos; [lra|apply Rabs_pos]). lra.
Qed.

Lemma ray_near (km1 slow V : B64) h k : fdouble km1 -> fdouble slow -> sane_ray (real V) (real km1 * real slow) h k ->
  fdouble (@nmul B64 km1 slow) /\
  Rabs (real (@nmul B64 km1 slow) - real km1 * real slow) <= u * Rabs (real km1 * real slow) + tiny.
Proof.
  intros F1 F2 S. pose proof S as [[v1 _] _ _ sp]. pose proof (ray_bound _ _ v1 sp) as B.
  pose proof pow2_1023 as P1. destruct (mul_fd km1 slow F1 F2) as (Fm & _ & Em & _); [lra|]. split; [exact Fm|exact Em].
Qed.

(** The two-layer delays of hkSeq and hkSeqSynth: sediment (H1,K1,V1) over crust (H,K,V2). *)
Theorem C89_two_layer (H1 K1 V1 V2 p H K : B64) pk :
  fdouble H1 -> fdouble K1 -> fdouble V1 -> fdouble V2 -> fdouble p -> fdouble H -> fdouble K ->
  sane_ray (real V1) (real p) (real H1) (real K1) -> sane_ray (real V2) (real p) (real H) (real K) ->
  let T1 := t2_Ps (real V1) (real H1) (real K1) (real V2) (real p) (real H) (real K) in
  let T2 := t2_PpPs (real V1) (real H1) (real K1) (real V2) (real p) (real H) (real K) in
  let T3 := t2_PsPs (real V1) (real H1) (real K1) (real V2) (real p) (real H) (real K) in
  exists a b c : B64,
    @hkSeqMoho_times B64 H1 K1 V1 (Some V2) p pk H K = Ok (TR a, TR b, TR c) /\
    @hkSeqSynthMoho_times B64 H1 K1 V1 (Some V2) p pk H K = Ok (TR a, TR b, TR c) /\
    finite a /\ finite b /\ finite c /\ 0 < T2 /\
    Rabs (real a - T1) <= / 2 ^ 45 * T2 /\ Rabs (real b - T2) <= / 2 ^ 45 * T2 /\ Rabs (real c - T3) <= / 2 ^ 45 * T2.
Proof.
  intros FH1 FK1 FV1 FV2 Fp FH FK S1 S2 T1 T2 T3.
  destruct (moho_times_err H1 K1 V1 V2 p H K (real p) pk FH1 FK1 FV1 FV2 Fp FH FK (self_near p) S1 S2)
    as (a & b & c & E & Fa & Fb & Fc & R).
  exists a, b, c. split; [exact E|]. split; [rewrite hkSeqSynthMoho_times_eq; exact E|].
  split; [apply Fa|]. split; [apply Fb|]. split; [apply Fc|exact R].
Qed.

(** The same with the ray parameter hkSeq computes: the rounded product of the conversion factor and the slowness. *)
Theorem C89_two_layer_slowness (km1 slow H1 K1 V1 V2 H K : B64) pk :
  fdouble km1 -> fdouble slow -> fdouble H1 -> fdouble K1 -> fdouble V1 -> fdouble V2 -> fdouble H -> fdouble K ->
  let q := real km1 * real slow in
  sane_ray (real V1) q (real H1) (real K1) -> sane_ray (real V2) q (real H) (real K) ->
  let T1 := t2_Ps (real V1) (real H1) (real K1) (real V2) q (real H) (real K) in
  let T2 := t2_PpPs (real V1) (real H1) (real K1) (real V2) q (real H) (real K) in
  let T3 := t2_PsPs (real V1) (real H1) (real K1) (real V2) q (real H) (real K) in
  exists a b c : B64, @hkSeqMoho_times B64 H1 K1 V1 (Some V2) (@nmul B64 km1 slow) pk H K = Ok (TR a, TR b, TR c) /\
    fdouble a /\ fdouble b /\ fdouble c /\ 0 < T2 /\
    Rabs (real a - T1) <= / 2 ^ 45 * T2 /\ Rabs (real b - T2) <= / 2 ^ 45 * T2 /\ Rabs (real c - T3) <= / 2 ^ 45 * T2.
Proof.
  intros F1 F2 FH1 FK1 FV1 FV2 FH FK q S1 S2. destruct (ray_near _ _ _ _ _ F1 F2 S1) as [Fp Ep].
  exact (moho_times_err H1 K1 V1 V2 _ H K q pk FH1 FK1 FV1 FV2 Fp FH FK Ep S1 S2).
Qed.

(** The vertical two-way delays of the sediment, in closed form. *)
Lemma sed_closed tlag VS vs : 0 < vs -> 0 < VS ->
  let hs := tlag * vs / 2 in
  t_Ps VS 0 hs (VS / vs) = hs / vs - hs / VS /\ t_PpPs VS 0 hs (VS / vs) = tlag - (hs / vs - hs / VS) /\
  t_PsPs VS 0 hs (VS / vs) = tlag.
Proof.
  intros Hv HS hs.
  assert (Q1 : qs VS (VS / vs) 0 = / vs).
  { unfold qs. replace ((VS / vs / VS) ^ 2 - 0 ^ 2) with (Rsqr (/ vs)) by (unfold Rsqr; field; lra).
    apply sqrt_Rsqr. left. apply Rinv_0_lt_compat; lra. }
  assert (Q2 : qp VS 0 = / VS).
  { unfold qp. replace ((1 / VS) ^ 2 - 0 ^ 2) with (Rsqr (/ VS)) by (unfold Rsqr; field; lra).
    apply sqrt_Rsqr. left. apply Rinv_0_lt_compat; lra. }
  unfold t_Ps, t_PpPs, t_PsPs. rewrite Q1, Q2. unfold hs. repeat split; field; lra.
Qed.

(** hkYu: sediment thickness, sediment delay of Ps, and the three delays of every node, which are the
    two-layer delays with vertical sediment legs (C22). *)
Theorem C89_hkYu draw (flt time : list B64) (tlag : B64) tk p pk H K (VM VS vs : B64) a b c r :
  @hkYu B64 draw flt time tlag tk p pk H K (Some VM) (Some VS) (Some vs) a b c = Ok r ->
  fdouble tlag -> fdouble VS -> fdouble vs -> fdouble VM -> fdouble p -> sane_sed (real tlag) (real VS) (real vs) ->
  let hs := real tlag * real vs / 2 in
  finite (yr_SedThick r) /\ Rabs (real (yr_SedThick r) - hs) <= / 2 ^ 50 * hs /\
  finite (yr_Pdelay r) /\ Rabs (real (yr_Pdelay r) - t_Ps (real VS) 0 hs (real VS / real vs)) <= / 2 ^ 48 * real tlag /\
  forall h k, fdouble h -> fdouble k -> sane_ray (real VM) (real p) (real h) (real k) ->
    let T1 := t_Ps (real VS) 0 hs (real VS / real vs) + t_Ps (real VM) (real p) (real h) (real k) in
    let T2 := t_PpPs (real VS) 0 hs (real VS / real vs) + t_PpPs (real VM) (real p) (real h) (real k) in
    let T3 := t_PsPs (real VS) 0 hs (real VS / real vs) + t_PsPs (real VM) (real p) (real h) (real k) in
    exists x y z : B64, @hkYu_times B64 VM p pk tlag (yr_Pdelay r) h k = Ok (TR x, TR y, TR z) /\
      fdouble x /\ fdouble y /\ fdouble z /\ 0 < T2 /\
      Rabs (real x - T1) <= / 2 ^ 45 * T2 /\ Rabs (real y - T2) <= / 2 ^ 45 * T2 /\ Rabs (real z - T3) <= / 2 ^ 45 * T2.
Proof.
  intros E Ft FS Fv FM Fp S hs. apply hkYu_inv in E.
  destruct E as (vs' & q1 & q2 & u0 & Ev & ESed & Eq1 & Eq2 & EP & _). injection Ev as <-. cbn [dflt] in *.
  rewrite ESed in Eq1, Eq2. pose proof S as [[t1 t2] v1 [V1 V2]].
  destruct (sed_delay tlag VS vs tk q1 q2 Ft FS Fv S Eq1 Eq2) as (Fs & Es & Fd & Ed & Rd).
  rewrite <- ESed in Fs, Es. rewrite <- EP in Fd, Ed.
  destruct (sed_closed (real tlag) (real VS) (real vs)) as (D1 & D2 & D3); [lra|lra|]. fold hs in D1, D2, D3, Rd, Ed, Es.
  rewrite D1, D2, D3. split; [apply Fs|]. split; [exact Es|]. split; [apply Fd|]. split; [exact Ed|].
  intros h k Fh Fk Sr.
  exact (yu_times_err VM p tlag (yr_Pdelay r) h k (real p) _ pk FM Fp Ft Fd Fh Fk (self_near p) Sr ltac:(lra) Ed Rd).
Qed.

(** ** C90: values and best model *)

(** Grids of doubles of usual size. *)
Definition grid64 (Vp : B64) (p : R) (H K : list B64) : Prop :=
  fdouble Vp /\ forall h k, In h H -> In k K -> fdouble h /\ fdouble k /\ sane_ray (real Vp) p (real h) (real k).
(** The record covers the arrivals of every node. *)
Definition covers (delta pre : B64) (l : nat) (T1 T2 T3 : R -> R -> R) (H K : list B64) : Prop :=
  forall h k, In h H -> In k K ->
    covered (real delta) l (real pre) (T1 (real h) (real k)) /\ covered (real delta) l (real pre) (T2 (real h) (real k)) /\
    covered (real delta) l (real pre) (T3 (real h) (real k)).

(** Three samples of the record near the exact arrivals of node (h,k). *)
Definition samples3 (data : list B64) (delta pre : B64) (l : nat) (T1 T2 T3 : R -> R -> R) (h k : B64) (a1 a2 a3 : R) : Prop :=
  sample_near data (real delta) (real pre) l (T1 (real h) (real k)) a1 /\
  sample_near data (real delta) (real pre) l (T2 (real h) (real k)) a2 /\
  sample_near data (real delta) (real pre) l (T3 (real h) (real k)) a3.

(** A table that stores, for every node of the grid, the weighted sum of three samples near the exact
    arrivals up to the rounding error [err1]; the row [ib] is a best one up to these errors.  [show] is what is stored of
    a sum: the sum itself, or its positive part (Moho tables of the sequential programs). *)
Definition double_table (data : list B64) (delta pre : B64) (l : nat) (w1 w2 w3 : B64) (T1 T2 T3 : R -> R -> R)
    (show : R -> R) (H K : list B64) (stk : list (row B64)) (ib : nat) : Prop :=
  let v a1 a2 a3 := wsum (real w1) (real w2) (real w3) a1 a2 a3 in
  let e a1 a2 a3 := err1 (real w1) (real w2) (real w3) a1 a2 a3 in
  length stk = (length K * length H)%nat /\
  (forall i j k h, nth_error K i = Some k -> nth_error H j = Some h ->
     exists s, nth_error stk (i * length H + j) = Some (@mkRow B64 h k s)) /\
  exists As, Forall2 (fun row '(a1, a2, a3) => samples3 data delta pre l T1 T2 T3 (rH row) (rK row) a1 a2 a3 /\
       finite (rS row) /\ Rabs (real (rS row) - show (v a1 a2 a3)) <= e a1 a2 a3) stk As /\
    exists b1 b2 b3, nth_error As ib = Some (b1, b2, b3) /\
      forall a1 a2 a3, In (a1, a2, a3) As -> v a1 a2 a3 <= v b1 b2 b3 + e b1 b2 b3 + e a1 a2 a3.

Definition shown (x : R) : R := x.
Definition clipped0 (x : R) : R := Rmax 0 x.

Lemma double_of data delta pre l w1 w2 w3 times (T1 T2 T3 : R -> R -> R) H K rows ib :
  rec64 data delta pre l -> wsane w1 w2 w3 ->
  (forall h k, In h H -> In k K -> accurate times (fun h k => T1 (real h) (real k)) (fun h k => T2 (real h) (real k)) (fun h k => T3 (real h) (real k)) h k) ->
  covers delta pre l T1 T2 T3 H K ->
  is_table (fun k h => one (@contrib B64 w1 w2 w3 data (@taxis B64 delta l pre) (times h k))) K H rows ->
  argmax (map rS rows) = Ok ib ->
  double_table data delta pre l w1 w2 w3 T1 T2 T3 shown H K rows ib.
Proof.
  intros HR HW Ht Cov T Am. destruct (grid_table_of _ _ _ _ T) as [L G].
  destruct (one_best data delta pre l w1 w2 w3 times (fun h k => T1 (real h) (real k)) (fun h k => T2 (real h) (real k)) (fun h k => T3 (real h) (real k)) H K HR HW Ht Cov rows T ib Am)
    as (As & F & b1 & b2 & b3 & Hb & Hm).
  unfold double_table. split; [exact L|]. split; [exact G|]. exists As. split; [|exists b1, b2, b3; split; assumption].
  eapply Forall2_imp; [|exact F]. intros row [[a1 a2] a3] (_ & _ & S & Fs & B). auto.
Qed.

Lemma clip_b64 (r : row B64) : fdouble (rS r) -> finite (rS (clip_row r)) /\ fdouble (rS (clip_row r)) /\ real (rS (clip_row r)) = Rmax 0 (real (rS r)) /\ rH (clip_row r) = rH r /\ rK (clip_row r) = rK r.
Proof.
  intro Fs. destruct (ofZ_fd 0) as [[D0 F0] E0]; [vm_compute; discriminate|]. pose proof Fs as [Ds Fs'].
  unfold clip_row. cbn [nleb nofZ B64].
  destruct (SFleb (rS r) (sf_ofZ 0)) eqn:E.
  - apply leb_iff in E; try assumption. rewrite E0 in E. cbn [rS rH rK]. split; [exact F0|]. split; [split; assumption|].
    split; [|split; reflexivity]. rewrite E0, Rmax_left by exact E. reflexivity.
  - split; [exact Fs'|]. split; [exact Fs|]. split; [|split; reflexivity]. rewrite Rmax_right; [reflexivity|].
    apply Rlt_le, Rnot_le_lt. intro X. rewrite <- E0 in X. apply leb_iff in X; try assumption. congruence.
Qed.

Lemma Rmax_lip x y : Rabs (Rmax 0 x - Rmax 0 y) <= Rabs (x - y).
Proof. unfold Rmax. destruct (Rle_dec 0 x), (Rle_dec 0 y); unfold Rabs; repeat destruct Rcase_abs; lra. Qed.

Lemma double_of_clip data delta pre l w1 w2 w3 times (T1 T2 T3 : R -> R -> R) H K rows ib :
  rec64 data delta pre l -> wsane w1 w2 w3 ->
  (forall h k, In h H -> In k K -> accurate times (fun h k => T1 (real h) (real k)) (fun h k => T2 (real h) (real k)) (fun h k => T3 (real h) (real k)) h k) ->
  covers delta pre l T1 T2 T3 H K ->
  is_table (fun k h => one (@contrib B64 w1 w2 w3 data (@taxis B64 delta l pre) (times h k))) K H rows ->
  argmax (map rS rows) = Ok ib ->
  double_table data delta pre l w1 w2 w3 T1 T2 T3 clipped0 H K (map clip_row rows) ib.
Proof.
  intros HR HW Ht Cov T Am. pose proof (double_of data delta pre l w1 w2 w3 times T1 T2 T3 H K rows ib HR HW Ht Cov T Am) as D.
  assert (FD : forall row, In row rows -> fdouble (rS row)).
  { intros row Hr. destruct (one_row data delta pre l w1 w2 w3 times (fun h k => T1 (real h) (real k)) (fun h k => T2 (real h) (real k)) (fun h k => T3 (real h) (real k)) H K HR HW Ht Cov rows T row Hr)
      as (_ & _ & _ & F & _). exact F. }
  unfold double_table in *. destruct D as (L & G & As & F & R).
  destruct (grid_table_clip K H rows (conj L G)) as [L' G'].
  split; [exact L'|]. split; [exact G'|]. exists As. split; [|exact R]. clear - F FD.
  induction F as [|row [[a1 a2] a3] rows As (S & Fs & B) F IH]; [constructor|].
  cbn [map]. constructor; [|apply IH; intros; apply FD; right; assumption].
  destruct (clip_b64 row (FD row (or_introl eq_refl))) as (F1 & _ & V & Eh & Ek). rewrite Eh, Ek, V.
  split; [exact S|]. split; [exact F1|]. unfold clipped0. eapply Rle_trans; [apply Rmax_lip|exact B].
Qed.
