(** * P_Float: the H-k programs in IEEE double precision (C82-C85).

    The same programs as in C03, C06 and C07, run in binary64 ([B64]), compared with the
    real-number formulas.  [real x] is the real number a double denotes. *)

From Coq Require Import ZArith Reals Lra Lia Psatz Floats.SpecFloat.
From Flocq Require Import Core.
From Verif Require Import Base Num NumPy Spec HkModel HkProofs HkReal HkFacts HkFacts4 P_Hk P_Hk6 Float64 FloatErr FloatHk FloatStack.

Local Open Scope R_scope.

(** ** Vocabulary *)

(** Time resolution of a read: half a sample, plus a rounding error of less than one
    part in 10^12 of the length of the record. *)
Definition tol (delta pre : R) (l : nat) : R := delta / 2 + / 2 ^ 43 * (delta * INR l + Rabs pre).

(** [a] is the value of a sample of [data] whose true time is within [tol] of [T]. *)
Definition sample_near (data : list B64) (delta pre : R) (l : nat) (T a : R) : Prop :=
  exists i x, (i < l)%nat /\ nth_error data i = Some x /\ a = real x /\ Rabs (delta * INR i - pre - T) <= tol delta pre l.

Definition dsane (data : list B64) : Prop := forall x, In x data -> fdouble x /\ Rabs (real x) <= 2 ^ 50.
Record wsane (w1 w2 w3 : B64) : Prop := mkWSane {
  ws_fd : fdouble w1 /\ fdouble w2 /\ fdouble w3;
  ws_b : Rabs (real w1) <= 2 ^ 10 /\ Rabs (real w2) <= 2 ^ 10 /\ Rabs (real w3) <= 2 ^ 10 }.

(** The three true arrivals of model (h,k) for ray parameter [p] are within the record. *)
Definition covered3 (delta : R) (l : nat) (pre v p h k : R) : Prop :=
  covered delta l pre (t_Ps v p h k) /\ covered delta l pre (t_PpPs v p h k) /\ covered delta l pre (t_PsPs v p h k).

(** ** C82 *)

(** For doubles of usual size the three delays of every program are finite and differ from
    the exact delays by less than 1e-14 of the PpPs delay. *)
Theorem C82_delays (Vp p H K : B64) pk :
  fdouble Vp -> fdouble p -> fdouble H -> fdouble K -> sane (real Vp) (real p) (real H) (real K) ->
  let v := real Vp in let q := real p in let h := real H in let k := real K in
  exists a b c : B64,
    (@hk_times B64 Vp p pk H K = Ok (TR a, TR b, TR c) /\ @hkSynth_times B64 Vp p pk H K = Ok (TR a, TR b, TR c) /\
     @hkSeqSed_times B64 Vp p pk H K = Ok (TR a, TR b, TR c) /\ @hkSeqSynthSed_times B64 Vp p pk H K = Ok (TR a, TR b, TR c)) /\
    finite a /\ finite b /\ finite c /\ 0 < t_PpPs v q h k /\
    Rabs (real a - t_Ps v q h k) <= / 2 ^ 47 * t_PpPs v q h k /\
    Rabs (real b - t_PpPs v q h k) <= / 2 ^ 47 * t_PpPs v q h k /\
    Rabs (real c - t_PsPs v q h k) <= / 2 ^ 47 * t_PpPs v q h k.
Proof.
  intros FV Fp FH FK S v q h k. destruct (hk_times_err Vp p H K pk FV Fp FH FK S) as (a & b & c & E & Fa & Fb & Fc & R).
  exists a, b, c. split. { repeat split; exact E. } split; [apply Fa|]. split; [apply Fb|]. split; [apply Fc|exact R].
Qed.

Lemma ray_bound v P : / 2 ^ 20 <= v -> 9 / 4 * (P * P) <= (1 / v) * (1 / v) -> Rabs P <= 2 ^ 20.
Proof.
  intros Hv HP. assert (H1 : 0 <= 1 / v <= 2 ^ 20).
  { unfold Rdiv. rewrite Rmult_1_l. split; [apply Rlt_le, Rinv_0_lt_compat; lra|].
    replace (2 ^ 20) with (/ / 2 ^ 20) by (apply Rinv_inv). apply Rinv_le_contravar; lra. }
  assert (H2 : (1 / v) * (1 / v) <= 2 ^ 20 * 2 ^ 20) by (apply Rmult_le_compat; lra).
  apply Rsqr_incr_0_var; [|lra]. unfold Rsqr. rewrite <- Rabs_mult, Rabs_right by (apply Rle_ge, Rle_0_sqr).
  pose proof (Rle_0_sqr P) as Q. unfold Rsqr in Q. lra.
Qed.

(** In [hk] and [hkSeq] the ray parameter is the rounded product of the conversion factor
    and the slowness; compared with the exact product the error is below 2e-14. *)
Theorem C82_delays_slowness (km1 slow Vp H K : B64) pk :
  fdouble km1 -> fdouble slow -> fdouble Vp -> fdouble H -> fdouble K ->
  let v := real Vp in let q := real km1 * real slow in let h := real H in let k := real K in
  sane_ray v q h k ->
  exists a b c : B64, @hk_times B64 Vp (@nmul B64 km1 slow) pk H K = Ok (TR a, TR b, TR c) /\
    fdouble a /\ fdouble b /\ fdouble c /\ 0 < t_PpPs v q h k /\
    Rabs (real a - t_Ps v q h k) <= / 2 ^ 46 * t_PpPs v q h k /\
    Rabs (real b - t_PpPs v q h k) <= / 2 ^ 46 * t_PpPs v q h k /\
    Rabs (real c - t_PsPs v q h k) <= / 2 ^ 46 * t_PpPs v q h k.
Proof.
  intros F1 F2 FV FH FK v q h k S. pose proof S as [[v1 _] _ _ sp]. pose proof (ray_bound v q v1 sp) as B.
  pose proof pow2_1023 as P1. destruct (mul_fd km1 slow F1 F2) as (Fm & _ & Em & _). { fold q. lra. }
  fold q in Em. exact (ray_times_err Vp _ H K q pk FV Fm FH FK Em S).
Qed.

(** ** C83 *)

(** Whatever double is asked for, the sample returned is the nearest one up to one part in 2^51. *)
Theorem C83_nearest (data axis : list B64) (x : B64) :
  axis <> [] -> fdouble x -> Rabs (real x) <= 2 ^ 80 ->
  (forall t, In t axis -> fdouble t /\ Rabs (real t) <= 2 ^ 80) ->
  exists i ti, nth_error axis i = Some ti /\
    (forall j tj, nth_error axis j = Some tj -> Rabs (real ti - real x) <= (1 + / 2 ^ 51) * Rabs (real tj - real x)) /\
    @getamp B64 data axis (TR x) = match nth_error data i with Some a => Ok a | None => Err IndexError end.
Proof. exact (getamp_b64 data axis x). Qed.

(** Three reads at computed times [x] within [eps] of the true times. *)
Lemma contrib_b64 (w1 w2 w3 : B64) data (delta pre x1 x2 x3 v : B64) l (T1 T2 T3 : R) :
  wsane w1 w2 w3 -> dsane data -> fdouble delta -> fdouble pre -> fdouble x1 -> fdouble x2 -> fdouble x3 ->
  sane_axis (real delta) (real pre) l -> (1 <= l)%nat ->
  let d := real delta in let q := real pre in let L := d * INR l + Rabs q in
  covered d l q T1 -> covered d l q T2 -> covered d l q T3 ->
  Rabs (real x1 - T1) <= / 2 ^ 45 * L -> Rabs (real x2 - T2) <= / 2 ^ 45 * L -> Rabs (real x3 - T3) <= / 2 ^ 45 * L ->
  @contrib B64 w1 w2 w3 data (@taxis B64 delta l pre) (Ok (TR x1, TR x2, TR x3)) = Ok v ->
  exists a1 a2 a3 : R,
    sample_near data d q l T1 a1 /\ sample_near data d q l T2 a2 /\ sample_near data d q l T3 a3 /\
    fdouble v /\ 0 <= wabs (real w1) (real w2) (real w3) a1 a2 a3 <= 2 ^ 62 /\
    Rabs (wsum (real w1) (real w2) (real w3) a1 a2 a3) <= wabs (real w1) (real w2) (real w3) a1 a2 a3 /\
    Rabs (real v - wsum (real w1) (real w2) (real w3) a1 a2 a3) <= 4 * u * wabs (real w1) (real w2) (real w3) a1 a2 a3 + 4 * tiny.
Proof.
  intros [(W1 & W2 & W3) (B1 & B2 & B3)] HD Fd Fq F1 F2 F3 S Hl d q L C1 C2 C3 E1 E2 E3 E.
  destruct (contrib_inv _ _ _ _ _ _ _ E) as (a1 & a2 & a3 & G1 & G2 & G3 & Ev). cbn [fst snd] in G1, G2, G3.
  pose proof S as [[d1 d2] pr ln]. fold d in d1, d2. fold q in pr.
  assert (HL : 0 <= INR l <= 2 ^ 40).
  { split; [apply pos_INR|]. rewrite INR_IZR_INZ. replace (2 ^ 40) with (IZR (2 ^ 40)) by (simpl; lra). apply IZR_le. lia. }
  assert (Hdl : 0 <= d * INR l <= 2 ^ 60).
  { split; [apply Rmult_le_pos; lra|]. replace (2 ^ 60) with (2 ^ 20 * 2 ^ 40) by lra. apply Rmult_le_compat; lra. }
  pose proof (Rabs_pos q) as Pq. assert (HLb : 0 <= L <= 2 ^ 61) by (unfold L; lra).
  assert (Rd : forall x T a, fdouble x -> covered d l q T -> Rabs (real x - T) <= / 2 ^ 45 * L ->
     @getamp B64 data (@taxis B64 delta l pre) (TR x) = Ok a ->
     sample_near data d q l T (real a) /\ fdouble a /\ Rabs (real a) <= 2 ^ 50).
  { intros x T a Fx C Ex G.
    destruct (read_b64 data delta pre x l T (/ 2 ^ 45 * L) a Fd Fq Fx S Hl C Ex ltac:(lra) G) as (i & Hi & Hn & Hb).
    fold d q L in Hb. split.
    - exists i, a. split; [exact Hi|]. split; [exact Hn|]. split; [reflexivity|]. unfold tol. fold L. lra.
    - apply HD. eapply nth_error_In. exact Hn. }
  destruct (Rd x1 T1 a1 F1 C1 E1 G1) as (S1 & A1 & D1). destruct (Rd x2 T2 a2 F2 C2 E2 G2) as (S2 & A2 & D2).
  destruct (Rd x3 T3 a3 F3 C3 E3 G3) as (S3 & A3 & D3).
  destruct (wsum_b64 w1 w2 w3 a1 a2 a3 W1 W2 W3 A1 A2 A3 B1 B2 B3 D1 D2 D3) as (Fv & R). rewrite <- Ev in Fv, R.
  exists (real a1), (real a2), (real a3). split; [exact S1|]. split; [exact S2|]. split; [exact S3|]. split; [exact Fv|exact R].
Qed.

(** ** C84 *)

(** Everything about one (h,k) node that must be of usual size. *)
Record node64 (km1 Vp pre : B64) (tr0 : trace B64) (rf : stream B64) (h k : B64) : Prop := mkNode64 {
  n_fd : fdouble km1 /\ fdouble Vp /\ fdouble pre /\ fdouble (tr_delta tr0) /\ fdouble h /\ fdouble k;
  n_axis : sane_axis (real (tr_delta tr0)) (real pre) (length (tr_data tr0));
  n_len : (1 <= length (tr_data tr0))%nat;
  n_num : (Z.of_nat (length rf) <= 2 ^ 20)%Z;
  n_tr : forall tr, In tr rf -> fdouble (tr_slow tr) /\ dsane (tr_data tr) /\
           sane_ray (real Vp) (real km1 * real (tr_slow tr)) (real h) (real k) /\
           covered3 (real (tr_delta tr0)) (length (tr_data tr0)) (real pre) (real Vp) (real km1 * real (tr_slow tr)) (real h) (real k) }.

(** The weighted sum over the traces, and a bound on the rounding error of its evaluation. *)
Definition value3 (w1 w2 w3 : R) (amps : list (R * R * R)) : R := sumR (map (fun '(a1, a2, a3) => wsum w1 w2 w3 a1 a2 a3) amps).
Definition error3 (w1 w2 w3 : R) (amps : list (R * R * R)) : R :=
  (INR (length amps) + 3) * / 2 ^ 52 * sumR (map (fun '(a1, a2, a3) => wabs w1 w2 w3 a1 a2 a3) amps)
  + INR (length amps) * / 2 ^ 1000.

(** The amplitudes of a node: per trace, three samples near the true arrival times. *)
Definition reads3 (km1 Vp pre : B64) (tr0 : trace B64) (rf : stream B64) (h k : B64) (amps : list (R * R * R)) : Prop :=
  Forall2 (fun tr '(a1, a2, a3) =>
     let near := sample_near (tr_data tr) (real (tr_delta tr0)) (real pre) (length (tr_data tr0)) in
     let p := real km1 * real (tr_slow tr) in
     near (t_Ps (real Vp) p (real h) (real k)) a1 /\ near (t_PpPs (real Vp) p (real h) (real k)) a2 /\
     near (t_PsPs (real Vp) p (real h) (real k)) a3) rf amps.

Lemma tiny_1000 : 8 * tiny <= / 2 ^ 1000.
Proof.
  unfold tiny. replace (/ 2 ^ 1000) with (bpow radix2 (-1000)).
  - replace (8 * (/ 2 * bpow radix2 (-1074))) with (bpow radix2 2 * bpow radix2 (-1074)) by (simpl; lra).
    rewrite <- bpow_plus. apply bpow_le. lia.
  - change (-1000)%Z with (- (1000))%Z. rewrite bpow_opp. apply f_equal.
    rewrite bpow_powerRZ. change (IZR radix2) with 2. rewrite pow_powerRZ. apply f_equal. rewrite Nat2Z.inj_mul || idtac. reflexivity.
Qed.

Lemma F2len {A B} {P : A -> B -> Prop} {l m} : Forall2 P l m -> length l = length m.
Proof. induction 1; simpl; congruence. Qed.
Lemma Forall2_in_r {A B} (P : A -> B -> Prop) l m : Forall2 P l m -> forall y, In y m -> exists x, In x l /\ P x y.
Proof.
  induction 1 as [|x y l m Hxy F IH]; intros z Hz; [destruct Hz|]. destruct Hz as [<-|Hz].
  - exists x. split; [left; reflexivity|exact Hxy].
  - destruct (IH z Hz) as (w & Hw & Pw). exists w. split; [right; exact Hw|exact Pw].
Qed.

Lemma wabs_sum_pos w1 w2 w3 amps : 0 <= sumR (map (fun '(a1, a2, a3) => wabs w1 w2 w3 a1 a2 a3) amps).
Proof.
  induction amps as [|[[a1 a2] a3] amps IH]; cbn [map sumR]; [lra|].
  unfold wabs at 1. pose proof (Rabs_pos (w1 * a1)). pose proof (Rabs_pos (w2 * a2)). pose proof (Rabs_pos (w3 * a3)). lra.
Qed.

Lemma sumM_b64 (c : trace B64 -> res B64) (w1 w2 w3 : R) (P : trace B64 -> R * R * R -> Prop) (rf : stream B64) (v : B64) :
  (forall tr y, In tr rf -> c tr = Ok y -> exists a1 a2 a3, P tr (a1, a2, a3) /\
     fdouble y /\ 0 <= wabs w1 w2 w3 a1 a2 a3 <= 2 ^ 62 /\
     Rabs (wsum w1 w2 w3 a1 a2 a3) <= wabs w1 w2 w3 a1 a2 a3 /\
     Rabs (real y - wsum w1 w2 w3 a1 a2 a3) <= 4 * u * wabs w1 w2 w3 a1 a2 a3 + 4 * tiny) ->
  (Z.of_nat (length rf) <= 2 ^ 20)%Z ->
  sumM c rf = Ok v ->
  exists amps, Forall2 P rf amps /\ fdouble v /\ Rabs (real v - value3 w1 w2 w3 amps) <= error3 w1 w2 w3 amps.
Proof.
  intros HP Hn E. unfold sumM in E. apply sumM_inv in E. destruct E as [vs [Fv ->]].
  assert (G : exists amps, Forall2 P rf amps /\
     Forall2 (fun v VB => fdouble v /\ 0 <= snd VB <= 2 ^ 62 /\ Rabs (fst VB) <= snd VB /\
                       Rabs (real v - fst VB) <= 4 * u * snd VB + 4 * tiny) vs
       (combine (map (fun '(a1, a2, a3) => wsum w1 w2 w3 a1 a2 a3) amps) (map (fun '(a1, a2, a3) => wabs w1 w2 w3 a1 a2 a3) amps))).
  { clear Hn. induction Fv as [|tr y rf0 vs0 Hy Fv IH].
    - exists []. split; constructor.
    - destruct IH as (amps & F1 & F2). { intros; apply HP; [right|]; assumption. }
      destruct (HP tr y (or_introl eq_refl) Hy) as (a1 & a2 & a3 & P1 & R).
      exists ((a1, a2, a3) :: amps). split; constructor; try assumption. }
  destruct G as (amps & F1 & F2). exists amps. split; [exact F1|].
  pose proof (F2len F1) as L1. pose proof (F2len Fv) as L2.
  destruct (ofZ_fd 0) as [Fz Ez]; [vm_compute; discriminate|].
  destruct (accum_b64 vs _ _ (sf_ofZ 0) 0 0 0 F2) as (Fr & Er).
  { rewrite !map_length. reflexivity. } { rewrite Nat.add_0_l, <- L2. exact Hn. } { exact Fz. } { simpl. lra. } { rewrite Rabs_R0. lra. }
  { rewrite Ez. simpl. replace (0 - 0) with 0 by ring. rewrite Rabs_R0. lra. }
  split; [exact Fr|]. rewrite !Rplus_0_l in Er. rewrite Nat.add_0_l in Er. change (F B64) with spec_float in *. rewrite <- L2 in Er. unfold value3, error3.
  rewrite <- L1. eapply Rle_trans; [exact Er|]. apply Rplus_le_compat.
  - apply Rmult_le_compat_r.
    { apply wabs_sum_pos. }
    apply Req_le. rewrite u_val. field.
  - pose proof tiny_1000 as T. rewrite (Rmult_comm 8), Rmult_assoc. apply Rmult_le_compat_l; [apply pos_INR|exact T].
Qed.

Lemma hk_node_b64 km1 (rf : stream B64) pre Vp w1 w2 w3 st0 avg tr0 h k v :
  wsane w1 w2 w3 -> node64 km1 Vp pre tr0 rf h k ->
  sumM (@hk_c B64 km1 false st0 avg (@taxis B64 (tr_delta tr0) (length (tr_data tr0)) pre) Vp w1 w2 w3 k h) rf = Ok v ->
  exists amps, reads3 km1 Vp pre tr0 rf h k amps /\ fdouble v /\
    Rabs (real v - value3 (real w1) (real w2) (real w3) amps) <= error3 (real w1) (real w2) (real w3) amps.
Proof.
  intros HW [(Fk & FV & Fp & Fd & Fh & FK) Hax Hl Hn Htr] E.
  unfold reads3. apply (sumM_b64 (@hk_c B64 km1 false st0 avg (@taxis B64 (tr_delta tr0) (length (tr_data tr0)) pre) Vp w1 w2 w3 k h) (real w1) (real w2) (real w3) (fun tr '(a1, a2, a3) =>
     let near := sample_near (tr_data tr) (real (tr_delta tr0)) (real pre) (length (tr_data tr0)) in
     let p := real km1 * real (tr_slow tr) in
     near (t_Ps (real Vp) p (real h) (real k)) a1 /\ near (t_PpPs (real Vp) p (real h) (real k)) a2 /\
     near (t_PsPs (real Vp) p (real h) (real k)) a3) rf v); [|exact Hn|exact E].
  intros tr y Hin Hy. destruct (Htr tr Hin) as (Fs & HD & S & C1 & C2 & C3).
  unfold hk_c, hk_data, hk_rp, hk_rpk in Hy.
  destruct (C82_delays_slowness km1 (tr_slow tr) Vp h k (tr_slowk tr) Fk Fs FV Fh FK S) as (a & b & c & Et & Fa & Fb & Fc & Pt & Ea & Eb & Ec).
  rewrite Et in Hy.
  set (p := real km1 * real (tr_slow tr)) in *. set (d := real (tr_delta tr0)) in *. set (q := real pre) in *.
  set (l := length (tr_data tr0)) in *.
  assert (Hb : t_PpPs (real Vp) p (real h) (real k) <= d * INR l + Rabs q).
  { destruct C2 as [_ C2]. destruct Hax as [[d1 _] _ _]. fold d in d1. pose proof (Rle_abs (- q)) as Q. rewrite Rabs_Ropp in Q.
    assert (d * INR (l - 1) <= d * INR l) by (apply Rmult_le_compat_l; [lra|apply le_INR; lia]). lra. }
  assert (Hc : / 2 ^ 46 * t_PpPs (real Vp) p (real h) (real k) <= / 2 ^ 45 * (d * INR l + Rabs q)) by lra.
  destruct (contrib_b64 w1 w2 w3 (tr_data tr) (tr_delta tr0) pre a b c y l _ _ _ HW HD Fd Fp Fa Fb Fc Hax Hl C1 C2 C3
     ltac:(eapply Rle_trans; [exact Ea|exact Hc]) ltac:(eapply Rle_trans; [exact Eb|exact Hc]) ltac:(eapply Rle_trans; [exact Ec|exact Hc]) Hy)
    as (a1 & a2 & a3 & S1 & S2 & S3 & R).
  exists a1, a2, a3. split; [|exact R]. cbn zeta. split; [exact S1|]. split; [exact S2|exact S3].
Qed.

(** The value stored for node (h,k) is, up to rounding, the weighted sum over all traces of samples
    within half a sampling interval of the true arrivals. *)
Theorem C84_hk_value km1 stackO draw (rf : stream B64) pre H K Vp w1 w2 w3 layer r i j k h tr0 :
  @hk B64 km1 stackO draw rf pre H K (Some Vp) (Some w1) (Some w2) (Some w3) layer (Some false) = Ok r ->
  nth_error rf 0 = Some tr0 -> nth_error K i = Some k -> nth_error H j = Some h ->
  wsane w1 w2 w3 -> node64 km1 Vp pre tr0 rf h k ->
  exists s amps, nth_error (hr_stk r) (i * length H + j) = Some (@mkRow B64 h k s) /\ finite s /\
    reads3 km1 Vp pre tr0 rf h k amps /\
    Rabs (real s - value3 (real w1) (real w2) (real w3) amps) <= error3 (real w1) (real w2) (real w3) amps.
Proof.
  intros E E0 Hk Hh HW HN. apply hk_inv in E. destruct E as (SR & st0 & tr0' & u0 & _ & _ & Et & T & _ & _).
  rewrite E0 in Et. injection Et as <-. cbn [dflt] in T.
  destruct (table_node _ _ _ _ i j k h T Hk Hh) as [v [Ev Ef]].
  destruct (hk_node_b64 km1 rf pre Vp w1 w2 w3 st0 _ tr0 h k v HW HN Ef) as (amps & R1 & R2 & R3).
  exists v, amps. split; [exact Ev|]. split; [apply R2|]. split; assumption.
Qed.

(** ** C85 *)

Lemma Forall2_choice {A B} (P : A -> B -> Prop) l : (forall x, In x l -> exists y, P x y) -> exists ys, Forall2 P l ys.
Proof.
  induction l as [|x l IH]; intro H; [exists []; constructor|].
  destruct (H x (or_introl eq_refl)) as [y Hy]. destruct IH as [ys Hys]. { intros; apply H; right; assumption. }
  exists (y :: ys). constructor; assumption.
Qed.

Lemma fd_notnan (x : B64) : fdouble x -> @nisnan B64 x = false.
Proof. intros [_ F]. cbn. destruct x; try reflexivity; destruct F. Qed.

(** Rounding can only exchange nodes whose exact sums differ by less than the rounding errors:
    no node beats the reported one by more. *)
Theorem C85_hk_best km1 stackO draw (rf : stream B64) pre H K Vp w1 w2 w3 layer r tr0 :
  @hk B64 km1 stackO draw rf pre H K (Some Vp) (Some w1) (Some w2) (Some w3) layer (Some false) = Ok r ->
  nth_error rf 0 = Some tr0 -> wsane w1 w2 w3 ->
  (forall h k, In h H -> In k K -> node64 km1 Vp pre tr0 rf h k) ->
  let V := value3 (real w1) (real w2) (real w3) in let E := error3 (real w1) (real w2) (real w3) in
  exists As, Forall2 (fun row amps => In (rH row) H /\ In (rK row) K /\ reads3 km1 Vp pre tr0 rf (rH row) (rK row) amps /\
                        Rabs (real (rS row) - V amps) <= E amps) (hr_stk r) As /\
    exists best, nth_error As (hr_best r) = Some best /\ forall amps, In amps As -> V amps <= V best + E best + E amps.
Proof.
  intros Eh E0 HW HN V E. pose proof (C07_hk_best B64 B64_laws _ _ _ _ _ _ _ _ _ _ _ _ _ _ Eh) as HB.
  apply hk_inv in Eh. destruct Eh as (SR & st0 & tr0' & u0 & _ & _ & Et & T & _ & _).
  rewrite E0 in Et. injection Et as <-. cbn [dflt] in T. apply mapM_Ok in T.
  assert (G : forall row, In row (hr_stk r) -> exists amps, fdouble (rS row) /\ In (rH row) H /\ In (rK row) K /\
     reads3 km1 Vp pre tr0 rf (rH row) (rK row) amps /\ Rabs (real (rS row) - V amps) <= E amps).
  { intros row Hr. destruct (Forall2_in_r _ _ _ T _ Hr) as ([k h] & Hin & Er). unfold mkrow_of in Er. cbn [fst snd] in Er.
    apply in_prod_iff in Hin. destruct Hin as [Hk Hh].
    apply bind_Ok_inv in Er. destruct Er as (v & Ev & Er). injection Er as <-. cbn [rH rK rS].
    destruct (hk_node_b64 km1 rf pre Vp w1 w2 w3 st0 _ tr0 h k v HW (HN h k Hh Hk) Ev) as (amps & R1 & R2 & R3).
    exists amps. auto. }
  destruct (Forall2_choice _ _ G) as [As FA]. exists As. split.
  { eapply Forall2_imp; [|exact FA]. intros x y (_ & R). exact R. }
  destruct HB as (v & Hv & HB). rewrite nth_error_map in Hv.
  destruct (nth_error (hr_stk r) (hr_best r)) as [rb|] eqn:Erb; [|discriminate]. injection Hv as <-.
  destruct (Forall2_nth _ _ _ _ _ FA Erb) as (best & Hbest & (Fb & _ & _ & _ & Bb)).
  exists best. split; [exact Hbest|]. intros amps Hin. destruct (Forall2_in_r _ _ _ FA _ Hin) as (row & Hrow & (Fr & _ & _ & _ & Br)).
  assert (Le : real (rS row) <= real (rS rb)).
  { destruct HB as [(Hnan & _)|(_ & Hmax & _)]; [rewrite (fd_notnan _ Fb) in Hnan; discriminate|].
    apply In_nth_error in Hrow. destruct Hrow as [n Hn]. specialize (Hmax n (rS row)). rewrite nth_error_map, Hn in Hmax.
    specialize (Hmax eq_refl). destruct Fr, Fb. apply leb_iff in Hmax; assumption. }
  apply abs_le_inv in Br, Bb. lra.
Qed.
