(** * P_Hk: property theorems about the H-k programs (C01-C10, C13-C22). *)

From Coq Require Import Reals Lra Psatz Permutation Floats.SpecFloat.
From Verif Require Import Base Num NumPy Spec HkModel HkProofs HkReal HkFacts HkFacts2.

(** Vocabulary: a table that lists the grid K-major. *)
Definition grid_table {N : Num} (K H : list N) (stk : list (row N)) : Prop :=
  length stk = length K * length H /\
  forall i j k h, nth_error K i = Some k -> nth_error H j = Some h ->
    exists s, nth_error stk (i * length H + j) = Some (mkRow h k s).

Lemma grid_table_of {N : Num} f K H (rows : list (row N)) : is_table f K H rows -> grid_table K H rows.
Proof.
  intro T. split; [eapply table_length; eassumption|].
  intros i j k h Hk Hh. destruct (table_node f K H rows i j k h T Hk Hh) as [v [E _]]. eauto.
Qed.

Lemma grid_table_clip {N : Num} K H (rows : list (row N)) :
  grid_table K H rows -> grid_table K H (map clip_row rows).
Proof.
  intros [Hl Hn]. split; [rewrite map_length; assumption|].
  intros i j k h Hk Hh. destruct (Hn i j k h Hk Hh) as [s E].
  rewrite nth_error_map, E. simpl. unfold clip_row. simpl.
  destruct (nleb s (nofZ 0)); eauto.
Qed.

(** ** C01 *)

Theorem C01_getamp_nearest (N : Num) (L : OrdLaws N) (data axis : list N) (x : N) :
  axis <> [] -> (forall ti, In ti axis -> nisnan (dist ti x) = false) ->
  exists i, i < length axis /\ nearest_first axis x i /\
    getamp data axis (TR x) = match nth_error data i with Some a => Ok a | None => Err IndexError end.
Proof. exact (getamp_nearest L data axis x). Qed.

(** An undefined time reads the first sample (NaN distances). *)
Theorem C01_getamp_undefined (N : Num) (data axis : list N) (x : N) :
  axis <> [] -> (forall ti, In ti axis -> nisnan (dist ti x) = true) ->
  getamp data axis (TR x) = match nth_error data 0 with Some a => Ok a | None => Err IndexError end.
Proof. exact (getamp_allnan data axis (TR x)). Qed.

(** In binary64 a NaN time makes every distance NaN. *)
Theorem C01_getamp_nan_b64 (data axis : list B64) :
  axis <> [] ->
  @getamp B64 data axis (TR S754_nan) = match nth_error data 0 with Some a => Ok a | None => Err IndexError end.
Proof.
  intro H. apply (C01_getamp_undefined B64); [assumption|].
  intros ti _. unfold dist. simpl. destruct ti; reflexivity.
Qed.

Theorem C01_getamp_empty (N : Num) (data : list N) t : getamp data [] t = Err ValueError.
Proof. reflexivity. Qed.

Example C01_example :
  let f z := @sf_ofZ z in
  @getamp B64 (map f [10; 20; 30; 40]%Z) (map f [0; 2; 4; 6]%Z) (TR (f 3%Z)) = Ok (f 20%Z).
Proof. vm_compute. reflexivity. Qed.

(** ** C02 *)

Theorem C02_half_sample (data : list R) (delta pre x : R) (l : nat) :
  (0 < delta)%R -> 1 <= l -> (- pre <= x <= delta * INR (l - 1) - pre)%R ->
  exists i, i < l /\ (Rabs (delta * INR i - pre - x) <= delta / 2)%R /\
    @getamp RN data (@uniform_axis RN delta l pre) (TR x)
    = match nth_error data i with Some a => Ok a | None => Err IndexError end.
Proof.
  intros Hd Hl Hx. change (@uniform_axis RN) with (@taxis RN).
  destruct (getamp_nearest RN_laws data (@taxis RN delta l pre) x) as [i [Hi [Hn E]]].
  - apply taxis_nonempty; assumption.
  - reflexivity.
  - rewrite taxis_length in Hi. exists i. split; [assumption|]. split; [|exact E].
    eapply near_half; eassumption.
Qed.

Theorem C02_clamp_after (data : list R) (delta pre x : R) (l : nat) :
  (0 < delta)%R -> 1 <= l -> (delta * INR (l - 1) - pre <= x)%R ->
  @getamp RN data (@uniform_axis RN delta l pre) (TR x)
  = match nth_error data (l - 1) with Some a => Ok a | None => Err IndexError end.
Proof.
  intros Hd Hl Hx. change (@uniform_axis RN) with (@taxis RN).
  destruct (getamp_nearest RN_laws data (@taxis RN delta l pre) x) as [i [Hi [Hn E]]].
  - apply taxis_nonempty; assumption.
  - reflexivity.
  - rewrite E. rewrite (near_after delta l pre x i Hd Hl Hx Hn). reflexivity.
Qed.

Theorem C02_clamp_before (data : list R) (delta pre x : R) (l : nat) :
  (0 < delta)%R -> 1 <= l -> (x <= - pre)%R ->
  @getamp RN data (@uniform_axis RN delta l pre) (TR x)
  = match nth_error data 0 with Some a => Ok a | None => Err IndexError end.
Proof.
  intros Hd Hl Hx. change (@uniform_axis RN) with (@taxis RN).
  destruct (getamp_nearest RN_laws data (@taxis RN delta l pre) x) as [i [Hi [Hn E]]].
  - apply taxis_nonempty; assumption.
  - reflexivity.
  - rewrite E. rewrite (near_before delta l pre x i Hd Hl Hx Hn). reflexivity.
Qed.

Example C02_hyps : (0 < 1/40)%R /\ 1 <= 2100 /\ (- 10 <= 5 <= 1/40 * INR (2100 - 1) - 10)%R.
Proof. split; [lra|split; [apply Nat.leb_le; reflexivity|]]. rewrite INR_IZR_INZ. simpl. lra. Qed.

(** ** C03, C04 *)

(** Exact-arithmetic theorems are stated for [1 <= K]: together with [precritical]
    this makes both square roots real, so that numpy's NaN does not arise (the
    real [sqrt] of a negative number would be 0). *)

Theorem C03_times_formula (Vp p : R) (pk : fkind) (H K : R) :
  precritical Vp p -> (1 <= K)%R ->
  let ts := Ok (TR (t_Ps Vp p H K), TR (t_PpPs Vp p H K), TR (t_PsPs Vp p H K)) in
  @hk_times RN Vp p pk H K = ts /\ @hkSynth_times RN Vp p pk H K = ts /\
  @hkSeqSed_times RN Vp p pk H K = ts /\ @hkSeqSynthSed_times RN Vp p pk H K = ts.
Proof.
  intros HP _ ts. unfold ts. pose proof (hk_times_R Vp p pk H K HP) as E.
  repeat split; exact E.
Qed.

Theorem C03_times_order (Vp p H K : R) :
  (0 < Vp)%R -> (p ^ 2 < (1 / Vp) ^ 2)%R -> (1 < K)%R -> (0 < H)%R ->
  (0 < t_Ps Vp p H K)%R /\ (t_Ps Vp p H K < t_PpPs Vp p H K)%R /\
  (t_PpPs Vp p H K < t_PsPs Vp p H K)%R /\
  (t_Ps Vp p H K + t_PpPs Vp p H K = t_PsPs Vp p H K)%R.
Proof.
  intros HV Hp HK HH.
  destruct (times_order Vp p H K) as [[A B] [C D]]; auto. split; lra.
Qed.

Theorem C03_times_monotone (Vp p H H' K K' : R) :
  precritical Vp p -> (1 < K)%R -> (0 < H)%R ->
  ((H < H')%R -> (t_Ps Vp p H K < t_Ps Vp p H' K /\ t_PpPs Vp p H K < t_PpPs Vp p H' K /\
                  t_PsPs Vp p H K < t_PsPs Vp p H' K)%R) /\
  ((K < K')%R -> (t_Ps Vp p H K < t_Ps Vp p H K' /\ t_PpPs Vp p H K < t_PpPs Vp p H K' /\
                  t_PsPs Vp p H K < t_PsPs Vp p H K')%R).
Proof.
  intros HP HK HH. split; intro Hlt.
  - apply times_mono_H; assumption.
  - apply times_mono_K; auto; lra.
Qed.

Theorem C04_node_identifiable (Vp p H K H' K' : R) :
  (0 < Vp)%R -> (p ^ 2 < (1 / Vp) ^ 2)%R -> (0 < H)%R -> (1 <= K)%R -> (0 < H')%R -> (1 <= K')%R ->
  t_Ps Vp p H K = t_Ps Vp p H' K' -> t_PpPs Vp p H K = t_PpPs Vp p H' K' -> H = H' /\ K = K'.
Proof. exact (times_identify Vp p H K H' K'). Qed.

(** The strict inequality is needed: at grazing incidence all three times of
    different nodes coincide. *)
Theorem C04_grazing_not_identifiable :
  exists Vp p H K H' K', precritical Vp p /\ (0 < H)%R /\ (1 < K)%R /\ (1 < K')%R /\ K <> K' /\
    t_Ps Vp p H K = t_Ps Vp p H' K' /\ t_PpPs Vp p H K = t_PpPs Vp p H' K' /\
    t_PsPs Vp p H K = t_PsPs Vp p H' K'.
Proof.
  exists 1%R, 1%R, 1%R, 2%R, (1 * qs 1 2 1 / qs 1 3 1)%R, 3%R.
  split; [split; lra|]. do 4 (split; [lra|]).
  apply times_not_identify_grazing; lra.
Qed.

Example C03_C04_hyps : precritical 6.5 0.06 /\ (0.06 ^ 2 < (1 / 6.5) ^ 2)%R.
Proof. unfold precritical. lra. Qed.

(** ** C05: the table lists the grid *)

Theorem C05_hk_grid (N : Num) km1 stackO draw (rf : stream N) pre H K Vp w1 w2 w3 layer stack r :
  hk km1 stackO draw rf pre H K Vp w1 w2 w3 layer stack = Ok r -> grid_table K H (hr_stk r).
Proof. intro E. apply hk_inv in E. destruct E as (?&?&?&?&_&_&_&T&_). eapply grid_table_of; eassumption. Qed.

Theorem C05_hkSynth_grid (N : Num) draw (data time : list N) p pk H K Vp w1 w2 w3 layer r :
  hkSynth draw data time p pk H K Vp w1 w2 w3 layer = Ok r -> grid_table K H (hs_stk r).
Proof. intro E. apply hkSynth_inv in E. destruct E as (?&T&_). eapply grid_table_of; eassumption. Qed.

Theorem C05_hkSeq_grid (N : Num) km1 stackO draw (rfS rfM : stream N) pre HS KS VS a b c HM KM VM d e f stack r :
  hkSeq km1 stackO draw rfS rfM pre HS KS VS a b c HM KM VM d e f stack = Ok r ->
  grid_table KS HS (sr_stkSed r) /\ grid_table KM HM (sr_stkMoho r).
Proof.
  intro E. apply hkSeq_inv in E. cbn zeta in E.
  destruct E as (?&?&?&?&?&?&?&?&?&_&_&_&_&_&T&_&_&_&T'&_&_&Em&_).
  split; [eapply grid_table_of; eassumption|]. rewrite Em.
  apply grid_table_clip. eapply grid_table_of; eassumption.
Qed.

Theorem C05_hkSeqSynth_grid (N : Num) draw (dS dM time : list N) p pk HS KS VS a b c HM KM VM d e f r :
  hkSeqSynth draw dS dM time p pk HS KS VS a b c HM KM VM d e f = Ok r ->
  grid_table KS HS (ss_stkSed r) /\ grid_table KM HM (ss_stkMoho r).
Proof.
  intro E. apply hkSeqSynth_inv in E.
  destruct E as (?&?&?&?&T&_&_&_&T'&_&_&Em&_).
  split; [eapply grid_table_of; eassumption|]. rewrite Em.
  apply grid_table_clip. eapply grid_table_of; eassumption.
Qed.

Theorem C05_hkYu_grid (N : Num) draw (flt time : list N) tlag tk p pk H K VM VS vs a b c r :
  hkYu draw flt time tlag tk p pk H K VM VS vs a b c = Ok r -> grid_table K H (yr_stk r).
Proof. intro E. apply hkYu_inv in E. destruct E as (?&?&?&?&_&_&_&_&_&T&_). eapply grid_table_of; eassumption. Qed.

(** ** C06: values of hk *)

(** For every arithmetic: per trace, three reads and the weighted sum; the sum
    is accumulated in trace order. *)
Theorem C06_hk_value (N : Num) km1 stackO draw (rf : stream N) pre H K Vp w1 w2 w3 layer r i j k h :
  hk km1 stackO draw rf pre H K (Some Vp) (Some w1) (Some w2) (Some w3) layer (Some false) = Ok r ->
  nth_error K i = Some k -> nth_error H j = Some h ->
  exists vs, nth_error (hr_stk r) (i * length H + j)
               = Some (mkRow h k (fold_left (fun s v => nadd v s) vs (nofZ 0))) /\
    Forall2 (fun tr v => exists ts a1 a2 a3,
        hk_times Vp (nmul km1 (tr_slow tr)) (tr_slowk tr) h k = Ok ts /\
        getamp (tr_data tr) (hr_time r) (fst (fst ts)) = Ok a1 /\
        getamp (tr_data tr) (hr_time r) (snd (fst ts)) = Ok a2 /\
        getamp (tr_data tr) (hr_time r) (snd ts) = Ok a3 /\
        v = nsub (nadd (nmul w1 a1) (nmul w2 a2)) (nmul w3 a3)) rf vs.
Proof.
  intros E Hk Hh. apply hk_inv in E. destruct E as (SR&st0&tr0&u&_&_&_&T&_&_&Er).
  destruct (table_node _ _ _ _ i j k h T Hk Hh) as [v [Ev Ef]].
  unfold sumM in Ef. apply sumM_inv in Ef. destruct Ef as [vs [Fv ->]].
  exists vs. split; [exact Ev|]. eapply Forall2_imp; [|exact Fv].
  intros tr y Hy. unfold hk_c, hk_data, hk_rp, hk_rpk, dflt in Hy.
  destruct (hk_times Vp (nmul km1 (tr_slow tr)) (tr_slowk tr) h k) as [ts|e] eqn:Et; [|discriminate].
  apply contrib_inv in Hy. destruct Hy as (a1&a2&a3&E1&E2&E3&->).
  exists ts, a1, a2, a3. rewrite Er. cbn [hr_time]. auto.
Qed.

(** In exact arithmetic: the sum over all traces of w1 A(tPs) + w2 A(tPpPs) - w3 A(tPsPs),
    each trace read with its own slowness. *)
Theorem C06_hk_value_exact km1 stackO draw (rf : stream RN) pre H K Vp w1 w2 w3 layer r i j k h :
  @hk RN km1 stackO draw rf pre H K (Some Vp) (Some w1) (Some w2) (Some w3) layer (Some false) = Ok r ->
  (forall tr, In tr rf -> precritical Vp (km1 * tr_slow tr)) ->
  nth_error K i = Some k -> nth_error H j = Some h -> (1 <= k)%R ->
  exists amps, nth_error (hr_stk r) (i * length H + j)
      = Some (@mkRow RN h k (sumR (map (fun '(a1, a2, a3) => wsum w1 w2 w3 a1 a2 a3) amps))) /\
    Forall2 (fun tr '(a1, a2, a3) =>
        amp_near (tr_data tr) (hr_time r) (t_Ps Vp (km1 * tr_slow tr) h k) a1 /\
        amp_near (tr_data tr) (hr_time r) (t_PpPs Vp (km1 * tr_slow tr) h k) a2 /\
        amp_near (tr_data tr) (hr_time r) (t_PsPs Vp (km1 * tr_slow tr) h k) a3) rf amps.
Proof.
  intros E Hp Hk Hh _.
  destruct (C06_hk_value RN km1 stackO draw rf pre H K Vp w1 w2 w3 layer r i j k h E Hk Hh) as [vs [Ev Fv]].
  assert (G : exists amps, vs = map (fun '(a1, a2, a3) => wsum w1 w2 w3 a1 a2 a3) amps /\
     Forall2 (fun tr '(a1, a2, a3) =>
        amp_near (tr_data tr) (hr_time r) (t_Ps Vp (km1 * tr_slow tr) h k) a1 /\
        amp_near (tr_data tr) (hr_time r) (t_PpPs Vp (km1 * tr_slow tr) h k) a2 /\
        amp_near (tr_data tr) (hr_time r) (t_PsPs Vp (km1 * tr_slow tr) h k) a3) rf amps).
  { clear E Ev. induction Fv as [|tr v rf0 vs0 Hv Fv IH].
    - exists []. split; [reflexivity|constructor].
    - destruct IH as [amps [-> Fa]]. { intros; apply Hp; right; assumption. }
      destruct Hv as (ts&a1&a2&a3&Et&E1&E2&E3&->).
      rewrite hk_times_R in Et by (apply Hp; left; reflexivity). inversion Et; subst ts.
      simpl in E1, E2, E3. apply getamp_R in E1, E2, E3.
      exists ((a1, a2, a3) :: amps). split; [reflexivity|]. constructor; auto. }
  destruct G as [amps [-> Fa]]. exists amps. split; [|exact Fa].
  rewrite Ev. rewrite fold_add_R. f_equal. f_equal. simpl. lra.
Qed.

(** The axis on which the samples are read (and which is returned as 'time'). *)
Theorem C06_hk_axis (N : Num) km1 stackO draw (rf : stream N) pre H K Vp w1 w2 w3 layer stack r tr0 :
  hk km1 stackO draw rf pre H K Vp w1 w2 w3 layer stack = Ok r -> nth_error rf 0 = Some tr0 ->
  hr_time r = uniform_axis (tr_delta tr0) (length (tr_data tr0)) pre.
Proof.
  intros E H0. apply hk_inv in E. destruct E as (SR&st0&tr0'&u&_&_&Etr&_&_&_&Er).
  unfold getitem in Etr. rewrite H0 in Etr. inversion Etr; subst tr0'. rewrite Er. reflexivity.
Qed.

(** With stack=True: (number of traces) x the value of the stacked trace at the
    average slowness. *)
Theorem C06_hk_stacked_exact km1 stackO draw (rf : stream RN) pre H K Vp w1 w2 w3 layer r i j k h :
  @hk RN km1 stackO draw rf pre H K (Some Vp) (Some w1) (Some w2) (Some w3) layer (Some true) = Ok r ->
  precritical Vp (km1 * (sumR (map tr_slow rf) / INR (length rf))) ->
  nth_error K i = Some k -> nth_error H j = Some h -> (1 <= k)%R ->
  let p := (km1 * (sumR (map tr_slow rf) / INR (length rf)))%R in
  exists st0 SR a1 a2 a3,
    stackO rf = Ok (st0 :: SR) /\
    amp_near (tr_data st0) (hr_time r) (t_Ps Vp p h k) a1 /\
    amp_near (tr_data st0) (hr_time r) (t_PpPs Vp p h k) a2 /\
    amp_near (tr_data st0) (hr_time r) (t_PsPs Vp p h k) a3 /\
    nth_error (hr_stk r) (i * length H + j)
      = Some (@mkRow RN h k (INR (length rf) * wsum w1 w2 w3 a1 a2 a3)%R).
Proof.
  intros E Hp Hk Hh _ p. apply hk_inv in E. destruct E as (SR&st0&tr0&u&ES&E0&Etr&T&_&_&Er).
  destruct (table_node _ _ _ _ i j k h T Hk Hh) as [v [Ev Ef]].
  assert (Eavg : @avgslow RN rf = (sumR (map tr_slow rf) / INR (length rf))%R).
  { unfold avgslow, npmean. simpl. rewrite sumR_Rsum, map_length, <- INR_IZR_INZ. reflexivity. }
  apply sumM_R in Ef. destruct Ef as [vs [Fv ->]].
  destruct SR as [|st0' SR]; [discriminate|]. simpl in E0. inversion E0; subst st0'.
  assert (Ec : forall tr, @hk_c RN km1 true st0 (@avgslow RN rf) (hr_time r) Vp w1 w2 w3 k h tr
     = @contrib RN w1 w2 w3 (tr_data st0) (hr_time r)
          (Ok (TR (t_Ps Vp p h k), TR (t_PpPs Vp p h k), TR (t_PsPs Vp p h k)))).
  { intro tr. unfold hk_c, hk_data, hk_rp, hk_rpk. rewrite Eavg.
    change (@nmul RN km1 (sumR (map tr_slow rf) / INR (length rf))%R) with p.
    rewrite hk_times_R by exact Hp. reflexivity. }
  assert (Et : hr_time r = @taxis RN (tr_delta tr0) (length (tr_data tr0)) pre) by (rewrite Er; reflexivity).
  simpl dflt in Fv. rewrite <- Et in Fv.
  destruct rf as [|tr1 rf]; [discriminate|].
  inversion Fv as [|? v1 ? vs1 Hv1 Fv1]; subst.
  rewrite Ec in Hv1. destruct (contrib_inv _ _ _ _ _ _ _ Hv1) as (a1&a2&a3&E1&E2&E3&Evv).
  simpl in E1, E2, E3. apply getamp_R in E1, E2, E3.
  exists st0, SR, a1, a2, a3. repeat (split; [assumption|]).
  rewrite Ev. f_equal. f_equal.
  assert (Evs : v1 :: vs1 = repeat v1 (length (tr1 :: rf))).
  { simpl. f_equal. clear -Fv1 Hv1 Ec. induction Fv1 as [|tr v2 l vs2 Hv2 F IH]; simpl; [reflexivity|].
    rewrite Ec in Hv2. f_equal; [congruence|apply IH]. }
  rewrite Evs, sumR_repeat. rewrite Evv. reflexivity.
Qed.

(** ** C07: best model *)

Theorem C07_hk_best (N : Num) (L : OrdLaws N) km1 stackO draw (rf : stream N) pre H K Vp w1 w2 w3 layer stack r :
  hk km1 stackO draw rf pre H K Vp w1 w2 w3 layer stack = Ok r ->
  best_first (map rS (hr_stk r)) (hr_best r).
Proof. intro E. apply hk_inv in E. destruct E as (?&?&?&?&_&_&_&_&A&_). apply (best_first_of L); assumption. Qed.

Theorem C07_hkSynth_best (N : Num) (L : OrdLaws N) draw (data time : list N) p pk H K Vp w1 w2 w3 layer r :
  hkSynth draw data time p pk H K Vp w1 w2 w3 layer = Ok r -> best_first (map rS (hs_stk r)) (hs_best r).
Proof. intro E. apply hkSynth_inv in E. destruct E as (?&_&A&_). apply (best_first_of L); assumption. Qed.

Theorem C07_hkSeq_best_sed (N : Num) (L : OrdLaws N) km1 stackO draw (rfS rfM : stream N) pre HS KS VS a b c HM KM VM d e f stack r :
  hkSeq km1 stackO draw rfS rfM pre HS KS VS a b c HM KM VM d e f stack = Ok r ->
  best_first (map rS (sr_stkSed r)) (sr_bestSed r).
Proof.
  intro E. apply hkSeq_inv in E. cbn zeta in E.
  destruct E as (?&?&?&?&?&?&?&?&?&_&_&_&_&_&_&A&_). apply (best_first_of L); assumption.
Qed.

Theorem C07_hkSeqSynth_best_sed (N : Num) (L : OrdLaws N) draw (dS dM time : list N) p pk HS KS VS a b c HM KM VM d e f r :
  hkSeqSynth draw dS dM time p pk HS KS VS a b c HM KM VM d e f = Ok r ->
  best_first (map rS (ss_stkSed r)) (ss_bestSed r).
Proof.
  intro E. apply hkSeqSynth_inv in E.
  destruct E as (?&?&?&?&_&A&_). apply (best_first_of L); assumption.
Qed.

Theorem C07_hkYu_best (N : Num) (L : OrdLaws N) draw (flt time : list N) tlag tk p pk H K VM VS vs a b c r :
  hkYu draw flt time tlag tk p pk H K VM VS vs a b c = Ok r -> best_first (map rS (yr_stk r)) (yr_best r).
Proof. intro E. apply hkYu_inv in E. destruct E as (?&?&?&?&_&_&_&_&_&_&A&_). apply (best_first_of L); assumption. Qed.

(** Empty grids raise. *)
Theorem C07_empty_grid (N : Num) km1 stackO draw (rf : stream N) pre H K Vp w1 w2 w3 layer stack r :
  H = [] \/ K = [] -> hk km1 stackO draw rf pre H K Vp w1 w2 w3 layer stack <> Ok r.
Proof.
  intros HE E. apply hk_inv in E. destruct E as (?&?&?&?&_&_&_&T&A&_).
  apply table_length in T. assert (Z : length (hr_stk r) = 0).
  { destruct HE; subst; simpl in T; lia. }
  destruct (hr_stk r); [discriminate|]. simpl in Z. lia.
Qed.
