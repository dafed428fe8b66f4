(** * P_Float4: values, best models and recovery of the synthetic, sequential and Yu programs
    in IEEE double precision (C90, C91). *)

From Coq Require Import ZArith Reals Lra Lia Psatz Floats.SpecFloat.
From Flocq Require Import Core.
From Verif Require Import Base Num NumPy Spec HkModel HkProofs HkReal HkFacts HkFacts2 HkFacts4 P_Hk P_Hk4 P_Hk6 Float64 FloatErr FloatHk FloatStack FloatSeq P_Float P_Float2 FloatTable FloatOne P_Float3.

Local Open Scope R_scope.

(** ** Accuracy of the delays of each program, per node *)

Lemma acc_layer (Vp rp : B64) (p : R) pk h k times :
  fdouble Vp -> fdouble rp -> Rabs (real rp - p) <= u * Rabs p + tiny ->
  fdouble h -> fdouble k -> sane_ray (real Vp) p (real h) (real k) -> times h k = @hk_times B64 Vp rp pk h k ->
  accurate times (fun h k => t_Ps (real Vp) p (real h) (real k)) (fun h k => t_PpPs (real Vp) p (real h) (real k))
    (fun h k => t_PsPs (real Vp) p (real h) (real k)) h k.
Proof.
  intros FV Fp Ep Fh Fk S Et. destruct (ray_times_err Vp rp h k p pk FV Fp Fh Fk Ep S) as (a & b & c & E & Fa & Fb & Fc & P & Ea & Eb & Ec).
  exists a, b, c. rewrite Et. split; [exact E|]. do 3 (split; [assumption|]). split; [exact P|].
  assert (G : / 2 ^ 46 * t_PpPs (real Vp) p (real h) (real k) <= / 2 ^ 45 * t_PpPs (real Vp) p (real h) (real k)) by lra.
  repeat split; (eapply Rle_trans; [eassumption|exact G]).
Qed.

Lemma acc_moho (H1 K1 V1 V2 rp : B64) (p : R) pk h k times :
  fdouble H1 -> fdouble K1 -> fdouble V1 -> fdouble V2 -> fdouble rp -> Rabs (real rp - p) <= u * Rabs p + tiny ->
  fdouble h -> fdouble k -> sane_ray (real V1) p (real H1) (real K1) -> sane_ray (real V2) p (real h) (real k) ->
  times h k = @hkSeqMoho_times B64 H1 K1 V1 (Some V2) rp pk h k ->
  accurate times (fun h k => t2_Ps (real V1) (real H1) (real K1) (real V2) p (real h) (real k))
    (fun h k => t2_PpPs (real V1) (real H1) (real K1) (real V2) p (real h) (real k))
    (fun h k => t2_PsPs (real V1) (real H1) (real K1) (real V2) p (real h) (real k)) h k.
Proof.
  intros FH1 FK1 FV1 FV2 Fp Ep Fh Fk S1 S2 Et.
  destruct (moho_times_err H1 K1 V1 V2 rp h k p pk FH1 FK1 FV1 FV2 Fp Fh Fk Ep S1 S2) as (a & b & c & E & R).
  exists a, b, c. rewrite Et. split; [exact E|exact R].
Qed.

(** ** C90 *)

Theorem C90_hkSynth draw (data : list B64) (delta pre : B64) l (p : B64) pk (H K : list B64) (Vp w1 w2 w3 : B64) layer r :
  @hkSynth B64 draw data (@uniform_axis B64 delta l pre) p pk H K (Some Vp) (Some w1) (Some w2) (Some w3) layer = Ok r ->
  rec64 data delta pre l -> wsane w1 w2 w3 -> fdouble p -> grid64 Vp (real p) H K ->
  let T1 := t_Ps (real Vp) (real p) in let T2 := t_PpPs (real Vp) (real p) in let T3 := t_PsPs (real Vp) (real p) in
  covers delta pre l T1 T2 T3 H K ->
  double_table data delta pre l w1 w2 w3 T1 T2 T3 shown H K (hs_stk r) (hs_best r).
Proof.
  intros E HR HW Fp [FV HG] T1 T2 T3 Cov. apply hkSynth_inv in E. destruct E as (u0 & T & Am & _). cbn [dflt] in T.
  eapply (double_of data delta pre l w1 w2 w3 (fun h k => @hkSynth_times B64 Vp p pk h k)); try eassumption.
  intros h k Hh Hk. destruct (HG h k Hh Hk) as (Fh & Fk & S).
  apply (acc_layer Vp p (real p) pk h k); try assumption; [apply self_near|reflexivity].
Qed.

(** hkSeqSynth: the sediment table; then the Moho table below the sediment [bm] the first stage found. *)
Theorem C90_hkSeqSynth draw (dS dM : list B64) (delta pre : B64) l (p : B64) pk
    (HS KS : list B64) (VS a b c : B64) (HM KM : list B64) (VM d e f : B64) r :
  @hkSeqSynth B64 draw dS dM (@uniform_axis B64 delta l pre) p pk HS KS (Some VS) (Some a) (Some b) (Some c)
     HM KM (Some VM) (Some d) (Some e) (Some f) = Ok r ->
  rec64 dS delta pre l -> rec64 dM delta pre l -> wsane a b c -> wsane d e f -> fdouble p ->
  grid64 VS (real p) HS KS -> grid64 VM (real p) HM KM ->
  covers delta pre l (t_Ps (real VS) (real p)) (t_PpPs (real VS) (real p)) (t_PsPs (real VS) (real p)) HS KS ->
  double_table dS delta pre l a b c (t_Ps (real VS) (real p)) (t_PpPs (real VS) (real p)) (t_PsPs (real VS) (real p)) shown
    HS KS (ss_stkSed r) (ss_bestSed r) /\
  exists bm, nth_error (ss_stkSed r) (ss_bestSed r) = Some bm /\
    let T1 := t2_Ps (real VS) (real (rH bm)) (real (rK bm)) (real VM) (real p) in
    let T2 := t2_PpPs (real VS) (real (rH bm)) (real (rK bm)) (real VM) (real p) in
    let T3 := t2_PsPs (real VS) (real (rH bm)) (real (rK bm)) (real VM) (real p) in
    (covers delta pre l T1 T2 T3 HM KM ->
     double_table dM delta pre l d e f T1 T2 T3 clipped0 HM KM (ss_stkMoho r) (ss_bestMoho r)).
Proof.
  intros E RS RM WS WM Fp [FVS GS] [FVM GM] CS. apply hkSeqSynth_inv in E.
  destruct E as (u0 & u1 & bm & rowsM & T & Am & _ & Eb & T' & Am' & _ & Em & _). cbn [dflt] in T, T'. split.
  - eapply (double_of dS delta pre l a b c (fun h k => @hkSeqSynthSed_times B64 VS p pk h k)); try eassumption.
    intros h k Hh Hk. destruct (GS h k Hh Hk) as (Fh & Fk & S).
    apply (acc_layer VS p (real p) pk h k); try assumption; [apply self_near|reflexivity].
  - exists bm. split; [exact Eb|]. intros T1 T2 T3 CM. rewrite Em.
    destruct (table_row _ _ _ _ _ _ T Eb) as (i1 & j1 & _ & _ & Hk1 & Hh1 & _). pose proof (nth_error_In _ _ Hk1) as Hk1'. pose proof (nth_error_In _ _ Hh1) as Hh1'.
    destruct (GS _ _ Hh1' Hk1') as (Fh1 & Fk1 & S1).
    eapply (double_of_clip dM delta pre l d e f (fun h k => @hkSeqSynthMoho_times B64 (rH bm) (rK bm) VS (Some VM) p pk h k)); try eassumption.
    intros h k Hh Hk. destruct (GM h k Hh Hk) as (Fh & Fk & S).
    apply (acc_moho (rH bm) (rK bm) VS VM p (real p) pk h k); try assumption; [apply self_near|apply hkSeqSynthMoho_times_eq].
Qed.

(** hkYu: the arrivals delayed by the sediment (C22). *)
Theorem C90_hkYu draw (data : list B64) (delta pre : B64) l (tlag : B64) tk (p : B64) pk (H K : list B64) (VM VS vs w1 w2 w3 : B64) r :
  @hkYu B64 draw data (@uniform_axis B64 delta l pre) tlag tk p pk H K (Some VM) (Some VS) (Some vs) (Some w1) (Some w2) (Some w3) = Ok r ->
  rec64 data delta pre l -> wsane w1 w2 w3 -> fdouble p -> fdouble tlag -> fdouble VS -> fdouble vs ->
  sane_sed (real tlag) (real VS) (real vs) -> grid64 VM (real p) H K ->
  let hs := real tlag * real vs / 2 in
  let T1 h k := t_Ps (real VS) 0 hs (real VS / real vs) + t_Ps (real VM) (real p) h k in
  let T2 h k := t_PpPs (real VS) 0 hs (real VS / real vs) + t_PpPs (real VM) (real p) h k in
  let T3 h k := t_PsPs (real VS) 0 hs (real VS / real vs) + t_PsPs (real VM) (real p) h k in
  covers delta pre l T1 T2 T3 H K ->
  double_table data delta pre l w1 w2 w3 T1 T2 T3 shown H K (yr_stk r) (yr_best r).
Proof.
  intros E HR HW Fp Ft FS Fv SS [FV HG] hs T1 T2 T3 Cov.
  destruct (C89_hkYu _ _ _ _ _ _ _ _ _ _ _ _ _ _ _ _ E Ft FS Fv FV Fp SS) as (_ & _ & _ & _ & Acc). fold hs in Acc.
  apply hkYu_inv in E. destruct E as (vs' & q1 & q2 & u0 & _ & _ & _ & _ & _ & T & Am & _). cbn [dflt] in T.
  eapply (double_of data delta pre l w1 w2 w3 (fun h k => @hkYu_times B64 VM p pk tlag (yr_Pdelay r) h k)); try eassumption.
  intros h k Hh Hk. destruct (HG h k Hh Hk) as (Fh & Fk & S). exact (Acc h k Fh Fk S).
Qed.

(** hkSeq.  Each table is decided by the last trace of its stream (C16), or, with stack=True, by the stacked trace
    and the average slowness the program reports. *)
Definition seen_data (stack : bool) (stacked : list B64) (tr : trace B64) : list B64 := if stack then stacked else tr_data tr.
Definition seen_slow (stack : bool) (avg : B64) (tr : trace B64) : B64 := if stack then avg else tr_slow tr.

Lemma lastv_one (c : trace B64 -> res B64) rs t v : @lastv B64 _ c (rs ++ [t]) = Ok v -> one (c t) = Ok v.
Proof. intro E. apply lastv_last in E. destruct E as (y & Ey & ->). unfold one. rewrite Ey. reflexivity. Qed.

Theorem C90_hkSeq km1 stackO draw (rfS rfM : stream B64) trS trM tr0 (pre : B64)
    (HS KS : list B64) (VS a b c : B64) (HM KM : list B64) (VM d e f : B64) (stack : bool) r :
  @hkSeq B64 km1 stackO draw (rfS ++ [trS]) (rfM ++ [trM]) pre HS KS (Some VS) (Some a) (Some b) (Some c)
     HM KM (Some VM) (Some d) (Some e) (Some f) (Some stack) = Ok r ->
  nth_error (rfS ++ [trS]) 0 = Some tr0 ->
  let delta := tr_delta tr0 in let l := length (tr_data tr0) in
  let dS := seen_data stack (sr_RFSedStack r) trS in let dM := seen_data stack (sr_RFMohoStack r) trM in
  let sS := seen_slow stack (sr_AvgSlow r) trS in let sM := seen_slow stack (sr_AvgSlow r) trM in
  let pS := real km1 * real sS in let pM := real km1 * real sM in
  rec64 dS delta pre l -> rec64 dM delta pre l -> wsane a b c -> wsane d e f -> fdouble km1 -> fdouble sS -> fdouble sM ->
  grid64 VS pS HS KS -> grid64 VS pM HS KS -> grid64 VM pM HM KM ->
  covers delta pre l (t_Ps (real VS) pS) (t_PpPs (real VS) pS) (t_PsPs (real VS) pS) HS KS ->
  double_table dS delta pre l a b c (t_Ps (real VS) pS) (t_PpPs (real VS) pS) (t_PsPs (real VS) pS) shown
    HS KS (sr_stkSed r) (sr_bestSed r) /\
  exists bm, nth_error (sr_stkSed r) (sr_bestSed r) = Some bm /\
    let T1 := t2_Ps (real VS) (real (rH bm)) (real (rK bm)) (real VM) pM in
    let T2 := t2_PpPs (real VS) (real (rH bm)) (real (rK bm)) (real VM) pM in
    let T3 := t2_PsPs (real VS) (real (rH bm)) (real (rK bm)) (real VM) pM in
    (covers delta pre l T1 T2 T3 HM KM ->
     double_table dM delta pre l d e f T1 T2 T3 clipped0 HM KM (sr_stkMoho r) (sr_bestMoho r)).
Proof.
  intros E E0 delta l dS dM sS sM pS pM RS RM WS WM F1 FsS FsM [FVS GS] [_ GS'] [FVM GM] CS.
  apply hkSeq_inv in E. cbn zeta in E.
  destruct E as (SS&stS0&SM&stM0&tr0'&u0&u1&bm&rowsM&_&_&_&_&Et&T&Am&_&Eb&T'&Am'&_&Em&Er).
  rewrite E0 in Et. injection Et as <-. cbn [dflt] in T, T'.
  assert (X1 : sr_RFSedStack r = tr_data stS0) by (rewrite Er; reflexivity).
  assert (X2 : sr_RFMohoStack r = tr_data stM0) by (rewrite Er; reflexivity).
  assert (X3 : sr_AvgSlow r = @avgslow B64 (rfM ++ [trM])) by (rewrite Er; reflexivity). clear Er.
  assert (TS : is_table (fun k h => one (@contrib B64 a b c dS (@taxis B64 delta l pre) (@hkSeqSed_times B64 VS (@nmul B64 km1 sS) (@hk_rpk B64 stack trS) h k))) KS HS (sr_stkSed r)).
  { revert T. apply table_ok_mono. intros k h v Ev. apply lastv_one in Ev.
    unfold seqSed_c, hk_data, hk_rp, hk_rpk in Ev. unfold dS, sS, seen_data, seen_slow, hk_rpk. rewrite X1, X3. destruct stack; exact Ev. }
  assert (TM : is_table (fun k h => one (@contrib B64 d e f dM (@taxis B64 delta l pre)
     (@hkSeqMoho_times B64 (rH bm) (rK bm) VS (Some VM) (@nmul B64 km1 sM) (@hk_rpk B64 stack trM) h k))) KM HM rowsM).
  { revert T'. apply table_ok_mono. intros k h v Ev. apply lastv_one in Ev.
    unfold seqMoho_c, hk_data, hk_rp, hk_rpk in Ev. rewrite contribO_Some in Ev.
    unfold dM, sM, seen_data, seen_slow, hk_rpk. rewrite X2, X3. destruct stack; exact Ev. }
  split.
  - eapply (double_of dS delta pre l a b c (fun h k => @hkSeqSed_times B64 VS (@nmul B64 km1 sS) (@hk_rpk B64 stack trS) h k)); try eassumption.
    intros h k Hh Hk. destruct (GS h k Hh Hk) as (Fh & Fk & S). destruct (ray_near km1 sS VS _ _ F1 FsS S) as [Fp Ep].
    apply (acc_layer VS (@nmul B64 km1 sS) pS (@hk_rpk B64 stack trS) h k); try assumption. reflexivity.
  - exists bm. split; [exact Eb|]. intros T1 T2 T3 CM. rewrite Em.
    destruct (table_row _ _ _ _ _ _ T Eb) as (i1 & j1 & _ & _ & Hk1 & Hh1 & _). pose proof (nth_error_In _ _ Hk1) as Hk1'. pose proof (nth_error_In _ _ Hh1) as Hh1'.
    destruct (GS' _ _ Hh1' Hk1') as (Fh1 & Fk1 & S1).
    eapply (double_of_clip dM delta pre l d e f (fun h k => @hkSeqMoho_times B64 (rH bm) (rK bm) VS (Some VM) (@nmul B64 km1 sM) (@hk_rpk B64 stack trM) h k)); try eassumption.
    intros h k Hh Hk. destruct (GM h k Hh Hk) as (Fh & Fk & S). destruct (ray_near km1 sM VM _ _ F1 FsM S) as [Fp Ep].
    apply (acc_moho (rH bm) (rK bm) VS VM (@nmul B64 km1 sM) pM (@hk_rpk B64 stack trM) h k); try assumption. reflexivity.
Qed.

(** ** C91: recovery *)

(** Every other node of the grid is resolved. *)
Definition all_resolved (e : R) (Vp : B64) (p : R) (H0 K0 : B64) (H K : list B64) : Prop :=
  forall h k, In h H -> In k K -> (h, k) <> (H0, K0) -> resolved64 e (real Vp) p (real H0) (real K0) (real h) (real k).

(** The weights are at least [m]; the pulses [A] stand out of the rest [B] of the record by more than the rounding errors. *)
Definition stands_out (w1 w2 w3 : B64) (A B m : R) : Prop :=
  0 < m /\ m <= real w1 /\ m <= real w2 /\ m <= real w3 /\ 0 <= B < A /\
  2 * (/ 2 ^ 50 * (A * (real w1 + real w2 + real w3)) + / 2 ^ 1000) < m * (A - B).

(** The reported row: the model, with the value A(w1+w2+w3) up to rounding. *)
Definition reports (stk : list (row B64)) (ib : nat) (H0 K0 : B64) (V : R) : Prop :=
  exists s, nth_error stk ib = Some (@mkRow B64 H0 K0 s) /\ finite s /\ Rabs (real s - V) <= / 2 ^ 50 * V + / 2 ^ 1000.

Lemma core_recovers data delta pre l w1 w2 w3 times (S1 S2 S3 : R) (V : B64) (p : R) (T1 T2 T3 : R -> R -> R) H K rows ib (H0 K0 : B64) (A B m : R) :
  rec64 data delta pre l -> wsane w1 w2 w3 ->
  (forall h k, In h H -> In k K -> accurate times (fun h k => T1 (real h) (real k)) (fun h k => T2 (real h) (real k)) (fun h k => T3 (real h) (real k)) h k) ->
  covers delta pre l T1 T2 T3 H K ->
  is_table (fun k h => one (@contrib B64 w1 w2 w3 data (@taxis B64 delta l pre) (times h k))) K H rows ->
  argmax (map rS rows) = Ok ib -> grid64 V p H K ->
  (forall h k, T1 h k = S1 + t_Ps (real V) p h k) -> (forall h k, T2 h k = S2 + t_PpPs (real V) p h k) -> (forall h k, T3 h k = S3 + t_PsPs (real V) p h k) ->
  S1 + S2 = S3 -> S1 <= S2 ->
  stands_out w1 w2 w3 A B m -> In H0 H -> In K0 K ->
  let e := tol (real delta) (real pre) l in
  pulses A B data (real delta) (real pre) l e (T1 (real H0) (real K0)) (T2 (real H0) (real K0)) (T3 (real H0) (real K0)) ->
  3 * e < real H0 * qp (real V) p -> all_resolved e V p H0 K0 H K ->
  exists s, nth_error rows ib = Some (@mkRow B64 H0 K0 s) /\ fdouble s /\
    Rabs (real s - A * (real w1 + real w2 + real w3)) <= / 2 ^ 50 * (A * (real w1 + real w2 + real w3)) + / 2 ^ 1000.
Proof.
  intros HR HW Ht Cov T Am [FV HG] E1 E2 E3 ES LS (Hm & M1 & M2 & M3 & HAB & Hgap) HH0 HK0 e HP Hsep Hres.
  assert (He : 0 < e). { apply tol_pos. destruct HR as [_ [[d1 _] _ _] _ _]. lra. }
  assert (Hq : 0 <= qp (real V) p) by apply qp_nonneg.
  refine (one_recovers data delta pre l w1 w2 w3 times (fun h k => T1 (real h) (real k)) (fun h k => T2 (real h) (real k)) (fun h k => T3 (real h) (real k)) H K HR HW Ht Cov rows T ib Am
    H0 K0 A B m Hm M1 M2 M3 HH0 HK0 HAB HP _ _ _ Hgap).
  - intros h k Hh Hk. rewrite E1, E2, E3. destruct (HG h k Hh Hk) as (_ & _ & [_ [h1 _] _ _]).
    assert (0 <= real h * qp (real V) p) by (apply Rmult_le_pos; lra). unfold t_Ps, t_PpPs, t_PsPs. split; lra.
  - rewrite E1, E2. fold e. unfold t_Ps, t_PpPs. lra.
  - intros h k Hh Hk Hne. rewrite !E1, !E2, !E3.
    destruct (resolved_misses e (real V) p (real H0) (real K0) (real h) (real k) (Rlt_le _ _ He) (Hres h k Hh Hk Hne)) as [X|[X|X]];
      [left|right; left|right; right]; (eapply Rlt_le_trans; [exact X|]; apply Req_le; f_equal; ring).
Qed.

Lemma reports_clip rows ib (H0 K0 : B64) (V : R) s : 0 < V -> / 2 ^ 50 * V + / 2 ^ 1000 < V ->
  nth_error rows ib = Some (@mkRow B64 H0 K0 s) -> fdouble s -> Rabs (real s - V) <= / 2 ^ 50 * V + / 2 ^ 1000 ->
  reports (map clip_row rows) ib H0 K0 V.
Proof.
  intros HV Hlt En Fs B. destruct (clip_b64 (@mkRow B64 H0 K0 s) Fs) as (F1 & _ & V1 & Eh & Ek).
  exists (rS (clip_row (@mkRow B64 H0 K0 s))). split.
  - rewrite nth_error_map, En. cbn [option_map]. f_equal. destruct (clip_row (@mkRow B64 H0 K0 s)) as [h k x]. cbn [rH rK rS] in *. subst. reflexivity.
  - split; [exact F1|]. rewrite V1. cbn [rS]. apply abs_le_inv in B. rewrite Rmax_right by lra. apply Rabs_le. lra.
Qed.

Lemma stands_pos w1 w2 w3 A B m : stands_out w1 w2 w3 A B m ->
  let V := A * (real w1 + real w2 + real w3) in 0 < V /\ / 2 ^ 50 * V + / 2 ^ 1000 < V.
Proof.
  intros (Hm & M1 & M2 & M3 & HAB & Hgap) V. fold V in Hgap.
  assert (HV : m * (A - B) <= V).
  { unfold V. assert (m * (A - B) <= m * A) by (apply Rmult_le_compat_l; lra).
    assert (A * m <= A * (real w1 + real w2 + real w3)) by (apply Rmult_le_compat_l; lra). lra. }
  assert (0 < m * (A - B)) by (apply Rmult_lt_0_compat; lra).
  assert (0 < / 2 ^ 1000) by (apply Rinv_0_lt_compat, pow_lt; lra). split; [lra|].
  assert (0 <= / 2 ^ 50 * V) by (apply Rmult_le_pos; lra). lra.
Qed.

Theorem C91_hkSynth draw (data : list B64) (delta pre : B64) l (p : B64) pk (H K : list B64) (Vp w1 w2 w3 : B64) layer r (H0 K0 : B64) (A B m : R) :
  @hkSynth B64 draw data (@uniform_axis B64 delta l pre) p pk H K (Some Vp) (Some w1) (Some w2) (Some w3) layer = Ok r ->
  rec64 data delta pre l -> wsane w1 w2 w3 -> fdouble p -> grid64 Vp (real p) H K ->
  let T1 := t_Ps (real Vp) (real p) in let T2 := t_PpPs (real Vp) (real p) in let T3 := t_PsPs (real Vp) (real p) in
  covers delta pre l T1 T2 T3 H K ->
  stands_out w1 w2 w3 A B m -> In H0 H -> In K0 K ->
  let e := tol (real delta) (real pre) l in
  pulses A B data (real delta) (real pre) l e (T1 (real H0) (real K0)) (T2 (real H0) (real K0)) (T3 (real H0) (real K0)) ->
  3 * e < real H0 * qp (real Vp) (real p) -> all_resolved e Vp (real p) H0 K0 H K ->
  reports (hs_stk r) (hs_best r) H0 K0 (A * (real w1 + real w2 + real w3)).
Proof.
  intros E HR HW Fp G T1 T2 T3 Cov HS HH0 HK0 e HP Hsep Hres. pose proof G as [FV HG].
  apply hkSynth_inv in E. destruct E as (u0 & T & Am & _). cbn [dflt] in T.
  destruct (core_recovers data delta pre l w1 w2 w3 (fun h k => @hkSynth_times B64 Vp p pk h k) 0 0 0 Vp (real p) T1 T2 T3 H K (hs_stk r) (hs_best r) H0 K0 A B m)
    as (s & Es & [_ Fs] & Bs); try assumption; try lra; try (intros h k; unfold T1, T2, T3; ring).
  - intros h k Hh Hk. destruct (HG h k Hh Hk) as (Fh & Fk & S).
    apply (acc_layer Vp p (real p) pk h k); try assumption; [apply self_near|reflexivity].
  - exists s. auto.
Qed.

Theorem C91_hkYu draw (data : list B64) (delta pre : B64) l (tlag : B64) tk (p : B64) pk (H K : list B64) (VM VS vs w1 w2 w3 : B64) r (H0 K0 : B64) (A B m : R) :
  @hkYu B64 draw data (@uniform_axis B64 delta l pre) tlag tk p pk H K (Some VM) (Some VS) (Some vs) (Some w1) (Some w2) (Some w3) = Ok r ->
  rec64 data delta pre l -> wsane w1 w2 w3 -> fdouble p -> fdouble tlag -> fdouble VS -> fdouble vs ->
  sane_sed (real tlag) (real VS) (real vs) -> grid64 VM (real p) H K ->
  let hs := real tlag * real vs / 2 in
  let T1 h k := t_Ps (real VS) 0 hs (real VS / real vs) + t_Ps (real VM) (real p) h k in
  let T2 h k := t_PpPs (real VS) 0 hs (real VS / real vs) + t_PpPs (real VM) (real p) h k in
  let T3 h k := t_PsPs (real VS) 0 hs (real VS / real vs) + t_PsPs (real VM) (real p) h k in
  covers delta pre l T1 T2 T3 H K ->
  stands_out w1 w2 w3 A B m -> In H0 H -> In K0 K ->
  let e := tol (real delta) (real pre) l in
  pulses A B data (real delta) (real pre) l e (T1 (real H0) (real K0)) (T2 (real H0) (real K0)) (T3 (real H0) (real K0)) ->
  3 * e < real H0 * qp (real VM) (real p) -> all_resolved e VM (real p) H0 K0 H K ->
  reports (yr_stk r) (yr_best r) H0 K0 (A * (real w1 + real w2 + real w3)).
Proof.
  intros E HR HW Fp Ft FS Fv SS G hs T1 T2 T3 Cov HSt HH0 HK0 e HP Hsep Hres. pose proof G as [FV HG].
  destruct (C89_hkYu _ _ _ _ _ _ _ _ _ _ _ _ _ _ _ _ E Ft FS Fv FV Fp SS) as (_ & _ & _ & _ & Acc). fold hs in Acc.
  apply hkYu_inv in E. destruct E as (vs' & q1 & q2 & u0 & _ & _ & _ & _ & _ & T & Am & _). cbn [dflt] in T.
  destruct SS as [[t1 t2] v1 [V1 V2]].
  destruct (sed_closed (real tlag) (real VS) (real vs)) as (D1 & D2 & D3); [lra|lra|]. fold hs in D1, D2, D3.
  assert (Hhs : 0 <= hs * / real VS).
  { apply Rmult_le_pos; [|apply Rlt_le, Rinv_0_lt_compat; lra]. unfold hs. assert (0 <= real tlag * real vs) by (apply Rmult_le_pos; lra). lra. }
  assert (Hh2 : hs / real vs = real tlag / 2) by (unfold hs; field; lra).
  destruct (core_recovers data delta pre l w1 w2 w3 (fun h k => @hkYu_times B64 VM p pk tlag (yr_Pdelay r) h k)
     (t_Ps (real VS) 0 hs (real VS / real vs)) (t_PpPs (real VS) 0 hs (real VS / real vs)) (t_PsPs (real VS) 0 hs (real VS / real vs))
     VM (real p) T1 T2 T3 H K (yr_stk r) (yr_best r) H0 K0 A B m)
    as (s & Es & [_ Fs] & Bs); try assumption; try (intros h k; reflexivity).
  - intros h k Hh Hk. destruct (HG h k Hh Hk) as (Fh & Fk & S). exact (Acc h k Fh Fk S).
  - rewrite D1, D2, D3. ring.
  - rewrite D1, D2. unfold Rdiv in *. lra.
  - exists s. auto.
Qed.

Lemma layer_order V p h k : 0 <= h -> t_Ps V p h k + t_PpPs V p h k = t_PsPs V p h k /\ t_Ps V p h k <= t_PpPs V p h k.
Proof.
  intro Hh. pose proof (qp_nonneg V p). assert (0 <= h * qp V p) by (apply Rmult_le_pos; assumption).
  unfold t_Ps, t_PpPs, t_PsPs. split; lra.
Qed.

(** Both stages of hkSeqSynth. *)
Theorem C91_hkSeqSynth draw (dS dM : list B64) (delta pre : B64) l (p : B64) pk
    (HS KS : list B64) (VS a b c : B64) (HM KM : list B64) (VM d e f : B64) r (H1 K1 H0 K0 : B64) (A B m A' B' m' : R) :
  @hkSeqSynth B64 draw dS dM (@uniform_axis B64 delta l pre) p pk HS KS (Some VS) (Some a) (Some b) (Some c)
     HM KM (Some VM) (Some d) (Some e) (Some f) = Ok r ->
  rec64 dS delta pre l -> rec64 dM delta pre l -> wsane a b c -> wsane d e f -> fdouble p ->
  grid64 VS (real p) HS KS -> grid64 VM (real p) HM KM ->
  stands_out a b c A B m -> stands_out d e f A' B' m' -> In H1 HS -> In K1 KS -> In H0 HM -> In K0 KM ->
  let eps := tol (real delta) (real pre) l in
  let S1 := t_Ps (real VS) (real p) in let S2 := t_PpPs (real VS) (real p) in let S3 := t_PsPs (real VS) (real p) in
  let M1 := t2_Ps (real VS) (real H1) (real K1) (real VM) (real p) in
  let M2 := t2_PpPs (real VS) (real H1) (real K1) (real VM) (real p) in
  let M3 := t2_PsPs (real VS) (real H1) (real K1) (real VM) (real p) in
  covers delta pre l S1 S2 S3 HS KS -> covers delta pre l M1 M2 M3 HM KM ->
  pulses A B dS (real delta) (real pre) l eps (S1 (real H1) (real K1)) (S2 (real H1) (real K1)) (S3 (real H1) (real K1)) ->
  pulses A' B' dM (real delta) (real pre) l eps (M1 (real H0) (real K0)) (M2 (real H0) (real K0)) (M3 (real H0) (real K0)) ->
  3 * eps < real H1 * qp (real VS) (real p) -> 3 * eps < real H0 * qp (real VM) (real p) ->
  all_resolved eps VS (real p) H1 K1 HS KS -> all_resolved eps VM (real p) H0 K0 HM KM ->
  reports (ss_stkSed r) (ss_bestSed r) H1 K1 (A * (real a + real b + real c)) /\
  reports (ss_stkMoho r) (ss_bestMoho r) H0 K0 (A' * (real d + real e + real f)).
Proof.
  intros E RS RM WS WM Fp GS GM OS OM HH1 HK1 HH0 HK0 eps S1 S2 S3 M1 M2 M3 CS CM PS PM Q1 Q0 ARS ARM.
  pose proof GS as [FVS GS']. pose proof GM as [FVM GM']. apply hkSeqSynth_inv in E.
  destruct E as (u0 & u1 & bm & rowsM & T & Am & _ & Eb & T' & Am' & _ & Em & _). cbn [dflt] in *.
  destruct (core_recovers dS delta pre l a b c (fun h k => @hkSeqSynthSed_times B64 VS p pk h k) 0 0 0 VS (real p) S1 S2 S3 HS KS
     (ss_stkSed r) (ss_bestSed r) H1 K1 A B m) as (s & Es & [_ Fs] & Bs); try assumption; try lra; try (intros h k; unfold S1, S2, S3; ring).
  { intros h k Hh Hk. destruct (GS' h k Hh Hk) as (Fh & Fk & S).
    apply (acc_layer VS p (real p) pk h k); try assumption; [apply self_near|reflexivity]. }
  split; [exists s; auto|]. rewrite Es in Eb. injection Eb as <-. cbn [rH rK] in T'.
  destruct (GS' H1 K1 HH1 HK1) as (FH1 & FK1 & SR1). pose proof SR1 as [_ [h1 _] _ _].
  destruct (layer_order (real VS) (real p) (real H1) (real K1) ltac:(lra)) as [O1 O2].
  destruct (core_recovers dM delta pre l d e f (fun h k => @hkSeqSynthMoho_times B64 H1 K1 VS (Some VM) p pk h k)
     (t_Ps (real VS) (real p) (real H1) (real K1)) (t_PpPs (real VS) (real p) (real H1) (real K1)) (t_PsPs (real VS) (real p) (real H1) (real K1))
     VM (real p) M1 M2 M3 HM KM rowsM (ss_bestMoho r) H0 K0 A' B' m') as (s' & Es' & Fs' & Bs'); try assumption; try (intros h k; reflexivity).
  { intros h k Hh Hk. destruct (GM' h k Hh Hk) as (Fh & Fk & S).
    apply (acc_moho H1 K1 VS VM p (real p) pk h k); try assumption; [apply self_near|apply hkSeqSynthMoho_times_eq]. }
  rewrite Em. destruct (stands_pos _ _ _ _ _ _ OM) as [V0 V1]. eapply reports_clip; eassumption.
Qed.

(** Both stages of hkSeq. *)
Theorem C91_hkSeq km1 stackO draw (rfS rfM : stream B64) trS trM tr0 (pre : B64)
    (HS KS : list B64) (VS a b c : B64) (HM KM : list B64) (VM d e f : B64) (stack : bool) r (H1 K1 H0 K0 : B64) (A B m A' B' m' : R) :
  @hkSeq B64 km1 stackO draw (rfS ++ [trS]) (rfM ++ [trM]) pre HS KS (Some VS) (Some a) (Some b) (Some c)
     HM KM (Some VM) (Some d) (Some e) (Some f) (Some stack) = Ok r ->
  nth_error (rfS ++ [trS]) 0 = Some tr0 ->
  let delta := tr_delta tr0 in let l := length (tr_data tr0) in
  let dS := seen_data stack (sr_RFSedStack r) trS in let dM := seen_data stack (sr_RFMohoStack r) trM in
  let sS := seen_slow stack (sr_AvgSlow r) trS in let sM := seen_slow stack (sr_AvgSlow r) trM in
  let pS := real km1 * real sS in let pM := real km1 * real sM in
  rec64 dS delta pre l -> rec64 dM delta pre l -> wsane a b c -> wsane d e f -> fdouble km1 -> fdouble sS -> fdouble sM ->
  grid64 VS pS HS KS -> grid64 VS pM HS KS -> grid64 VM pM HM KM ->
  stands_out a b c A B m -> stands_out d e f A' B' m' -> In H1 HS -> In K1 KS -> In H0 HM -> In K0 KM ->
  let eps := tol (real delta) (real pre) l in
  let S1 := t_Ps (real VS) pS in let S2 := t_PpPs (real VS) pS in let S3 := t_PsPs (real VS) pS in
  let M1 := t2_Ps (real VS) (real H1) (real K1) (real VM) pM in
  let M2 := t2_PpPs (real VS) (real H1) (real K1) (real VM) pM in
  let M3 := t2_PsPs (real VS) (real H1) (real K1) (real VM) pM in
  covers delta pre l S1 S2 S3 HS KS -> covers delta pre l M1 M2 M3 HM KM ->
  pulses A B dS (real delta) (real pre) l eps (S1 (real H1) (real K1)) (S2 (real H1) (real K1)) (S3 (real H1) (real K1)) ->
  pulses A' B' dM (real delta) (real pre) l eps (M1 (real H0) (real K0)) (M2 (real H0) (real K0)) (M3 (real H0) (real K0)) ->
  3 * eps < real H1 * qp (real VS) pS -> 3 * eps < real H0 * qp (real VM) pM ->
  all_resolved eps VS pS H1 K1 HS KS -> all_resolved eps VM pM H0 K0 HM KM ->
  reports (sr_stkSed r) (sr_bestSed r) H1 K1 (A * (real a + real b + real c)) /\
  reports (sr_stkMoho r) (sr_bestMoho r) H0 K0 (A' * (real d + real e + real f)).
Proof.
  intros E E0 delta l dS dM sS sM pS pM RS RM WS WM F1 FsS FsM GS GSM GM OS OM HH1 HK1 HH0 HK0 eps S1 S2 S3 M1 M2 M3 CS CM PS PM Q1 Q0 ARS ARM.
  pose proof GS as [FVS GS']. pose proof GM as [FVM GM']. pose proof GSM as [_ GSM'].
  apply hkSeq_inv in E. cbn zeta in E.
  destruct E as (SS&stS0&SM&stM0&tr0'&u0&u1&bm&rowsM&_&_&_&_&Et&T&Am&_&Eb&T'&Am'&_&Em&Er).
  rewrite E0 in Et. injection Et as <-. cbn [dflt] in T, T'.
  assert (X1 : sr_RFSedStack r = tr_data stS0) by (rewrite Er; reflexivity).
  assert (X2 : sr_RFMohoStack r = tr_data stM0) by (rewrite Er; reflexivity).
  assert (X3 : sr_AvgSlow r = @avgslow B64 (rfM ++ [trM])) by (rewrite Er; reflexivity). clear Er.
  assert (TS : is_table (fun k h => one (@contrib B64 a b c dS (@taxis B64 delta l pre) (@hkSeqSed_times B64 VS (@nmul B64 km1 sS) (@hk_rpk B64 stack trS) h k))) KS HS (sr_stkSed r)).
  { revert T. apply table_ok_mono. intros k h v Ev. apply lastv_one in Ev.
    unfold seqSed_c, hk_data, hk_rp, hk_rpk in Ev. unfold dS, sS, seen_data, seen_slow, hk_rpk. rewrite X1, X3. destruct stack; exact Ev. }
  assert (TM : is_table (fun k h => one (@contrib B64 d e f dM (@taxis B64 delta l pre)
     (@hkSeqMoho_times B64 (rH bm) (rK bm) VS (Some VM) (@nmul B64 km1 sM) (@hk_rpk B64 stack trM) h k))) KM HM rowsM).
  { revert T'. apply table_ok_mono. intros k h v Ev. apply lastv_one in Ev.
    unfold seqMoho_c, hk_data, hk_rp, hk_rpk in Ev. rewrite contribO_Some in Ev.
    unfold dM, sM, seen_data, seen_slow, hk_rpk. rewrite X2, X3. destruct stack; exact Ev. }
  clear T T'.
  destruct (core_recovers dS delta pre l a b c (fun h k => @hkSeqSed_times B64 VS (@nmul B64 km1 sS) (@hk_rpk B64 stack trS) h k) 0 0 0 VS pS S1 S2 S3 HS KS
     (sr_stkSed r) (sr_bestSed r) H1 K1 A B m) as (s & Es & [_ Fs] & Bs); try assumption; try lra; try (intros h k; unfold S1, S2, S3; ring).
  { intros h k Hh Hk. destruct (GS' h k Hh Hk) as (Fh & Fk & S). destruct (ray_near km1 sS VS _ _ F1 FsS S) as [Fp Ep].
    apply (acc_layer VS (@nmul B64 km1 sS) pS (@hk_rpk B64 stack trS) h k); try assumption. reflexivity. }
  split; [exists s; auto|]. rewrite Es in Eb. injection Eb as <-. cbn [rH rK] in TM.
  destruct (GSM' H1 K1 HH1 HK1) as (FH1 & FK1 & SR1). pose proof SR1 as [_ [h1 _] _ _].
  destruct (layer_order (real VS) pM (real H1) (real K1) ltac:(lra)) as [O1 O2].
  destruct (core_recovers dM delta pre l d e f (fun h k => @hkSeqMoho_times B64 H1 K1 VS (Some VM) (@nmul B64 km1 sM) (@hk_rpk B64 stack trM) h k)
     (t_Ps (real VS) pM (real H1) (real K1)) (t_PpPs (real VS) pM (real H1) (real K1)) (t_PsPs (real VS) pM (real H1) (real K1))
     VM pM M1 M2 M3 HM KM rowsM (sr_bestMoho r) H0 K0 A' B' m') as (s' & Es' & Fs' & Bs'); try assumption; try (intros h k; reflexivity).
  { intros h k Hh Hk. destruct (GM' h k Hh Hk) as (Fh & Fk & S). destruct (ray_near km1 sM VM _ _ F1 FsM S) as [Fp Ep].
    apply (acc_moho H1 K1 VS VM (@nmul B64 km1 sM) pM (@hk_rpk B64 stack trM) h k); try assumption. reflexivity. }
  rewrite Em. destruct (stands_pos _ _ _ _ _ _ OM) as [V0 V1]. eapply reports_clip; eassumption.
Qed.

(** ** hk with stack=True *)

Section Stacked.
Context (km1 : B64) (stackO : stream B64 -> res (list (trace B64))) (draw : list (row B64) -> res unit)
  (rf : stream B64) (pre : B64) (H K : list B64) (Vp w1 w2 w3 : B64) (layer : option string) (r : hkres B64) (tr0 : trace B64).
Let delta := tr_delta tr0. Let l := length (tr_data tr0). Let data := hr_RFStack r. Let p := real km1 * real (hr_AvgSlow r).
Let T1 := t_Ps (real Vp) p. Let T2 := t_PpPs (real Vp) p. Let T3 := t_PsPs (real Vp) p. Let n := INR (length rf).
Context (E : @hk B64 km1 stackO draw rf pre H K (Some Vp) (Some w1) (Some w2) (Some w3) layer (Some true) = Ok r)
  (E0 : nth_error rf 0 = Some tr0) (HR : rec64 data delta pre l) (HW : wsane w1 w2 w3) (Fk : fdouble km1)
  (Fs : fdouble (hr_AvgSlow r)) (Hn : (Z.of_nat (length rf) <= 2 ^ 20)%Z) (HG : grid64 Vp p H K)
  (Cov : covers delta pre l T1 T2 T3 H K).

Let c (k h : B64) (tr : trace B64) : res B64 :=
  @contrib B64 w1 w2 w3 data (@taxis B64 delta l pre) (@hk_times B64 Vp (@nmul B64 km1 (hr_AvgSlow r)) NpF h k).

Lemma stacked_table : is_table (fun k h => sumM (c k h) rf) K H (hr_stk r) /\ argmax (map rS (hr_stk r)) = Ok (hr_best r).
Proof using E E0.
  clear - E E0. apply hk_inv in E. destruct E as (SR & st0 & tr0' & u0 & _ & _ & Et & T & Am & _ & Er).
  rewrite E0 in Et. injection Et as <-. cbn [dflt] in T.
  assert (X1 : hr_RFStack r = tr_data st0) by (rewrite Er; reflexivity).
  assert (X2 : hr_AvgSlow r = @avgslow B64 rf) by (rewrite Er; reflexivity). clear Er.
  split; [|exact Am]. revert T. apply table_ok_mono. intros k h v Ev. unfold hk_c, hk_data, hk_rp, hk_rpk in Ev. unfold c, data. rewrite X1, X2. exact Ev.
Qed.

Lemma stacked_c : forall h k tr y, In h H -> In k K -> In tr rf -> c k h tr = Ok y ->
   exists a1 a2 a3, (sample_near data (real delta) (real pre) l (T1 (real h) (real k)) a1 /\ sample_near data (real delta) (real pre) l (T2 (real h) (real k)) a2 /\
     sample_near data (real delta) (real pre) l (T3 (real h) (real k)) a3) /\ fdouble y /\ 0 <= wabs (real w1) (real w2) (real w3) a1 a2 a3 <= 2 ^ 62 /\
     Rabs (wsum (real w1) (real w2) (real w3) a1 a2 a3) <= wabs (real w1) (real w2) (real w3) a1 a2 a3 /\
     Rabs (real y - wsum (real w1) (real w2) (real w3) a1 a2 a3) <= 4 * u * wabs (real w1) (real w2) (real w3) a1 a2 a3 + 4 * tiny.
Proof using HR HW Fk Fs HG Cov.
  clear E E0 Hn. intros h k tr y Hh Hk _ Ey. destruct HG as [FV G].
  refine (one_Hc data delta pre l w1 w2 w3 (fun h k => @hk_times B64 Vp (@nmul B64 km1 (hr_AvgSlow r)) NpF h k)
    (fun h k => T1 (real h) (real k)) (fun h k => T2 (real h) (real k)) (fun h k => T3 (real h) (real k)) H K HR HW _ Cov h k _ y Hh Hk (or_introl eq_refl) Ey).
  intros h' k' Hh' Hk'. destruct (G h' k' Hh' Hk') as (Fh & Fk' & S). destruct (ray_near km1 (hr_AvgSlow r) Vp _ _ Fk Fs S) as [Fp Ep].
  apply (acc_layer Vp (@nmul B64 km1 (hr_AvgSlow r)) p NpF h' k'); try assumption. reflexivity.
Qed.

Theorem C90_hk_stacked i j k h : nth_error K i = Some k -> nth_error H j = Some h ->
  exists s a1 a2 a3, nth_error (hr_stk r) (i * length H + j) = Some (@mkRow B64 h k s) /\ finite s /\
    samples3 data delta pre l T1 T2 T3 h k a1 a2 a3 /\
    Rabs (real s - n * wsum (real w1) (real w2) (real w3) a1 a2 a3) <=
      (n + 3) * / 2 ^ 52 * (n * (Rabs (real w1 * a1) + Rabs (real w2 * a2) + Rabs (real w3 * a3))) + n * / 2 ^ 1000.
Proof using E E0 HR HW Fk Fs Hn HG Cov.
  intros Hk Hh. destruct stacked_table as [T _].
  destruct (table_node _ _ _ _ i j k h T Hk Hh) as [v [Ev Ef]].
  assert (Hrf : exists tr rest, rf = tr :: rest) by (destruct rf as [|tr rest]; [discriminate|eauto]). destruct Hrf as (tr & rest & Hrf).
  assert (Ex : exists y, c k h tr = Ok y).
  { rewrite Hrf in Ef. unfold sumM in Ef. simpl in Ef. apply bind_Ok_inv in Ef. destruct Ef as (s & Es & _).
    apply bind_Ok_inv in Es. destruct Es as (y & Ey & _). exists y. exact Ey. }
  destruct Ex as (y & Ey).
  destruct (stacked_c h k tr y (nth_error_In _ _ Hh) (nth_error_In _ _ Hk) ltac:(rewrite Hrf; left; reflexivity) Ey) as (a1 & a2 & a3 & S & R).
  destruct (sumM_b64 (c k h) (real w1) (real w2) (real w3) (fun _ t => t = (a1, a2, a3)) rf v) as (amps & F & [_ Fv] & B); [|exact Hn|exact Ef|].
  { intros tr' y' _ Ey'. change (c k h tr') with (c k h tr) in Ey'. rewrite Ey in Ey'. injection Ey' as <-. exists a1, a2, a3. split; [reflexivity|exact R]. }
  exists v, a1, a2, a3. split; [exact Ev|]. split; [exact Fv|]. split; [exact S|].
  rewrite (value_eq rf _ _ _ _ amps (wsum (real w1) (real w2) (real w3) a1 a2 a3) F) in B
    by (intros tr' b1 b2 b3 _ Eq; injection Eq as -> -> ->; reflexivity).
  fold n in B. eapply Rle_trans; [exact B|]. apply Req_le. unfold error3. rewrite <- (Forall2_length' F). fold n.
  do 2 f_equal. unfold n. clear - F. induction F as [|x t rf' amps' -> F IH]; [simpl; ring|].
  change (length (x :: rf')) with (S (length rf')). rewrite S_INR. cbn [map sumR]. rewrite IH. unfold wabs. ring.
Qed.

Theorem C91_hk_stacked (H0 K0 : B64) (A B m : R) :
  0 < m -> m <= real w1 -> m <= real w2 -> m <= real w3 -> In H0 H -> In K0 K -> 0 <= B < A ->
  let e := tol (real delta) (real pre) l in let W := real w1 + real w2 + real w3 in
  pulses A B data (real delta) (real pre) l e (T1 (real H0) (real K0)) (T2 (real H0) (real K0)) (T3 (real H0) (real K0)) ->
  3 * e < real H0 * qp (real Vp) p -> all_resolved e Vp p H0 K0 H K ->
  2 * ((n + 3) * / 2 ^ 52 * (n * (A * W)) + n * / 2 ^ 1000) < m * (A - B) ->
  exists s, nth_error (hr_stk r) (hr_best r) = Some (@mkRow B64 H0 K0 s) /\ finite s /\
    Rabs (real s - n * (A * W)) <= (n + 3) * / 2 ^ 52 * (n * (A * W)) + n * / 2 ^ 1000.
Proof using E E0 HR HW Fk Fs Hn HG Cov.
  intros Hm M1 M2 M3 HH0 HK0 HAB e W HP Hsep Hres Hgap. destruct stacked_table as [T Am].
  assert (Hd : 0 < real delta) by (destruct HR as [_ [[d1 _] _ _] _ _]; lra).
  assert (He : 0 < e) by (apply tol_pos; exact Hd).
  assert (Hin : In tr0 rf) by (eapply nth_error_In; exact E0).
  destruct (recovers_b64 rf (real delta) (real pre) l w1 w2 w3 (fun _ => data) c (fun _ h k => T1 (real h) (real k)) (fun _ h k => T2 (real h) (real k)) (fun _ h k => T3 (real h) (real k))
     H K Hn stacked_c (hr_stk r) (hr_best r) T Am H0 K0 A B m Hm M1 M2 M3 HH0 HK0 HAB Hd) as (s & Es & [_ Fs'] & Bs).
  - intros tr _. exact HP.
  - intros tr h k _ Hh Hk. destruct HG as [_ G]. destruct (G h k Hh Hk) as (_ & _ & [_ [h1 _] _ _]). unfold T1, T2, T3. apply layer_order. lra.
  - intros tr _. fold e. unfold T1, T2, t_Ps, t_PpPs. lra.
  - intros h k Hh Hk Hne. exists tr0. split; [exact Hin|].
    exact (resolved_misses e (real Vp) p (real H0) (real K0) (real h) (real k) (Rlt_le _ _ He) (Hres h k Hh Hk Hne)).
  - exact Hgap.
  - exists s. auto.
Qed.
End Stacked.
