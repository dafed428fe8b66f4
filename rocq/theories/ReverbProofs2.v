(** * ReverbProofs2: what a run of ResonanceFilt returns. *)

From Coq Require Import Reals Lra.
From Verif Require Import Base Num NumPy HkModel HkReal Cplx DFT ReverbModel ReverbProofs.
Local Open Scope R_scope.

(** The common part of the two functions, after the sampling interval is known. *)
Definition rcore (data : list R) (dt : R) (time : list R) : res fltout :=
  let n := length data in
  let fmax := 1 / (2 * dt) in
  let df := fmax / (INR n / 2) in
  let dw := 2 * PI * df in
  let w := map (fun k => dw * IZR k) (freq_index n) in
  let D := detrend (demean data) in
  let acf := correlate_full D in
  mx <- rmax acf ;;
  let nan := if Req_EM_T mx 0 then true else false in
  let ac := slice (map (fun x => x / mx) acf) (n - 1) (2 * n - 1) in
  let rac := map Ropp ac in
  let locs := if nan then [] else @find_peaks RN rac in
  rt <- match locs with
        | [] => Ok (0, 0)
        | p :: _ => x <- getitem rac p ;; Ok (Rabs x, INR p * dt)
        end ;;
  let '(r0, tlag) := rt in
  let resonanceflt := map (fun wk => C1 + RtoC r0 * cis (- (wk * tlag)))%C w in
  prod <- cprod (fft (map RtoC D) n) resonanceflt ;;
  let filtered_rf := map Re (ifft prod n) in
  Ok (mkFlt data filtered_rf resonanceflt time (if nan then None else Some ac) r0 tlag dt).

Lemma ResonanceFiltSynth_core data time t0 t1 :
  nth_error time 0 = Some t0 -> nth_error time 1 = Some t1 -> t1 - t0 <> 0 -> data <> [] ->
  ResonanceFiltSynth data time = rcore data (t1 - t0) time.
Proof.
  intros H0 H1 Hd Hn. unfold ResonanceFiltSynth, getitem. rewrite H0, H1. cbn [bind].
  destruct (Req_EM_T (t1 - t0) 0) as [E|_]; [contradiction|].
  destruct data as [|x data]; [congruence|]. reflexivity.
Qed.

Lemma ResonanceFilt_core stackO rf pre tr0 st0 SR :
  nth_error rf 0 = Some tr0 -> stackO rf = Ok (st0 :: SR) -> tr_delta tr0 <> 0 -> tr_data st0 <> [] ->
  ResonanceFilt stackO rf pre = rcore (tr_data st0) (tr_delta tr0) (@taxis RN (tr_delta tr0) (length (tr_data tr0)) pre).
Proof.
  intros H0 HS Hd Hn. unfold ResonanceFilt, getitem. rewrite H0. cbn [bind]. rewrite HS. cbn [bind nth_error].
  destruct (Req_EM_T (tr_delta tr0) 0) as [E|_]; [contradiction|].
  destruct (tr_data st0) as [|x data] eqn:E; [congruence|]. reflexivity.
Qed.

(** Which runs return. *)
Lemma ResonanceFilt_Ok_inv stackO rf pre o :
  ResonanceFilt stackO rf pre = Ok o ->
  exists tr0 st0 SR, nth_error rf 0 = Some tr0 /\ stackO rf = Ok (st0 :: SR) /\
    tr_delta tr0 <> 0 /\ tr_data st0 <> [] /\
    rcore (tr_data st0) (tr_delta tr0) (@taxis RN (tr_delta tr0) (length (tr_data tr0)) pre) = Ok o.
Proof.
  intro E. pose proof E as E0. unfold ResonanceFilt in E0.
  apply bind_Ok_inv in E0. destruct E0 as [tr0 [H0 E0]]. apply getitem_Ok in H0.
  apply bind_Ok_inv in E0. destruct E0 as [SR [HS E0]].
  apply bind_Ok_inv in E0. destruct E0 as [st0 [Hs E0]]. apply getitem_Ok in Hs.
  destruct SR as [|st0' SR]; [discriminate|]. injection Hs as ->.
  destruct (Req_EM_T (tr_delta tr0) 0) as [|Hd]; [discriminate|].
  assert (Hn : tr_data st0 <> []).
  { intro K. rewrite K in E0. discriminate. }
  exists tr0, st0, SR. repeat split; auto.
  rewrite <- E. symmetry. eapply ResonanceFilt_core; eassumption.
Qed.

Lemma ResonanceFiltSynth_Ok_inv data time o :
  ResonanceFiltSynth data time = Ok o ->
  exists t0 t1, nth_error time 0 = Some t0 /\ nth_error time 1 = Some t1 /\
    t1 - t0 <> 0 /\ data <> [] /\ rcore data (t1 - t0) time = Ok o.
Proof.
  intro E. pose proof E as E0. unfold ResonanceFiltSynth in E0.
  apply bind_Ok_inv in E0. destruct E0 as [t1 [H1 E0]]. apply getitem_Ok in H1.
  apply bind_Ok_inv in E0. destruct E0 as [t0 [H0 E0]]. apply getitem_Ok in H0.
  destruct (Req_EM_T (t1 - t0) 0) as [|Hd]; [discriminate|].
  assert (Hn : data <> []) by (intro K; rewrite K in E0; discriminate).
  exists t0, t1. repeat split; auto. rewrite <- E. symmetry. apply ResonanceFiltSynth_core; assumption.
Qed.

(** The response of bin [k]. *)
Lemma phase_bin n k dt L : (k < n)%nat -> dt <> 0 ->
  cis (- (2 * PI * (1 / (2 * dt) / (INR n / 2)) * IZR (nth k (freq_index n) 0%Z) * (INR L * dt)))
  = W n (- (Z.of_nat L * Z.of_nat k)).
Proof.
  intros Hk Hd. assert (HnR : INR n <> 0) by (apply not_0_INR; lia).
  destruct (freq_index_nth n k Hk) as [q ->].
  transitivity (W n (- (Z.of_nat L * (Z.of_nat k + q * Z.of_nat n)))).
  - unfold W. f_equal. rewrite opp_IZR, mult_IZR, <- INR_IZR_INZ. field. split; assumption.
  - apply W_congr; [lia|].
    replace (- (Z.of_nat L * (Z.of_nat k + q * Z.of_nat n)))%Z
      with (- (Z.of_nat L * Z.of_nat k) + (- Z.of_nat L * q) * Z.of_nat n)%Z by ring.
    apply Z.mod_add. lia.
Qed.

Lemma rnth_circ_bound (D : list R) n j L : (0 < n)%nat -> (circ n j L < n)%nat.
Proof. apply circ_lt. Qed.

Lemma cnth_RtoC d j : cnth (map RtoC d) j = RtoC (rnth d j).
Proof. unfold cnth, rnth. change C0 with (RtoC 0). apply map_nth. Qed.

(** Two-tap circular filter. *)
Lemma two_tap (D : list R) n r (L : nat) (G : list C) j :
  length G = n -> (j < n)%nat ->
  (forall k, (k < n)%nat -> cnth G k = (C1 + RtoC r * W n (- (Z.of_nat L * Z.of_nat k)))%C) ->
  cnth (ifft (cmul2 (fft (map RtoC D) n) G) n) j = RtoC (rnth D j + r * rnth D (circ n j (Z.of_nat L))).
Proof.
  intros HG Hj HGk. assert (Hn : (0 < n)%nat) by lia.
  rewrite fft_filter by assumption.
  assert (HK : forall t, kernel G n t =
     ((if (t mod Z.of_nat n =? 0)%Z then C1 else C0)
      + RtoC r * (if ((t - Z.of_nat L) mod Z.of_nat n =? 0)%Z then C1 else C0))%C).
  { intro t.
    set (G0 := map (fun k => W n (- (0 * Z.of_nat k))) (seq 0 n)).
    set (GL := map (fun k => W n (- (Z.of_nat L * Z.of_nat k))) (seq 0 n)).
    transitivity (kernel G0 n t + RtoC r * kernel GL n t)%C.
    - unfold kernel.
      replace (RtoC (/ INR n) * csum n (fun k => cnth G0 k * W n (t * Z.of_nat k)) +
               RtoC r * (RtoC (/ INR n) * csum n (fun k => cnth GL k * W n (t * Z.of_nat k))))%C
        with (RtoC (/ INR n) * (csum n (fun k => cnth G0 k * W n (t * Z.of_nat k)) +
               RtoC r * csum n (fun k => cnth GL k * W n (t * Z.of_nat k))))%C by ring.
      f_equal. rewrite <- csum_scale, <- csum_add. apply csum_ext. intros k Hk.
      rewrite HGk by exact Hk. unfold cnth, G0, GL. rewrite !nth_map_seq by exact Hk.
      rewrite Z.mul_0_l. change (- 0)%Z with 0%Z. rewrite W_0. ring.
    - rewrite (kernel_shift n 0 t G0 Hn).
      2:{ intros k Hk. unfold cnth, G0. apply (nth_map_seq (fun k => W n (- (0 * Z.of_nat k))) C0 n k Hk). }
      rewrite (kernel_shift n (Z.of_nat L) t GL Hn).
      2:{ intros k Hk. unfold cnth, GL. apply (nth_map_seq (fun k => W n (- (Z.of_nat L * Z.of_nat k))) C0 n k Hk). }
      rewrite Z.sub_0_r. reflexivity. }
  rewrite (csum_ext n _ (fun m =>
      cnth (map RtoC D) m * (if ((Z.of_nat j - Z.of_nat m - 0) mod Z.of_nat n =? 0)%Z then C1 else C0)
      + RtoC r * (cnth (map RtoC D) m * (if ((Z.of_nat j - Z.of_nat m - Z.of_nat L) mod Z.of_nat n =? 0)%Z then C1 else C0)))%C).
  2:{ intros m Hm. rewrite HK, Z.sub_0_r. ring. }
  rewrite csum_add, csum_scale, !csum_shift_pick by exact Hn.
  rewrite !cnth_RtoC. rewrite RtoC_add, RtoC_mul. f_equal. f_equal. f_equal.
  unfold circ. rewrite Z.sub_0_r, Z.mod_small by lia. apply Nat2Z.id.
Qed.

(** Full description of a run. *)
Definition autoc_of (D : list R) : list R :=
  map (fun k => corr_at D (Z.of_nat k) / energy D) (seq 0 (length D)).
Definition first_peak (D : list R) : option nat :=
  match @find_peaks RN (map Ropp (autoc_of D)) with [] => None | p :: _ => Some p end.

Lemma rcore_run data dt time : dt <> 0 -> data <> [] ->
  let n := length data in
  let D := detrend data in
  exists L r o, rcore data dt time = Ok o /\
    fl_rf o = data /\ fl_time o = time /\ fl_delta o = dt /\
    fl_r o = r /\ fl_tlag o = INR L * dt /\
    fl_res o = map (fun k => C1 + RtoC r * W n (- (Z.of_nat L * Z.of_nat k)))%C (seq 0 n) /\
    fl_filtered o = map (fun j => rnth D j + r * rnth D (circ n j (Z.of_nat L))) (seq 0 n) /\
    ((energy D = 0 /\ fl_autoc o = None /\ r = 0 /\ L = 0%nat) \/
     (energy D <> 0 /\ fl_autoc o = Some (autoc_of D) /\
      ((first_peak D = None /\ r = 0 /\ L = 0%nat) \/
       (first_peak D = Some L /\ (L < n)%nat /\ r = Rabs (rnth (autoc_of D) L))))).
Proof.
  intros Hdt Hdata n D. assert (Hn : (1 <= n)%nat) by (destruct data; [congruence|simpl in n; lia]).
  assert (HD : length D = n) by (apply detrend_length).
  assert (HacL : length (autoc_of D) = n) by (unfold autoc_of; rewrite map_length, seq_length; exact HD).
  assert (Tail : forall r L (au : option (list R)), exists o,
    (prod <- cprod (fft (map RtoC D) n)
        (map (fun wk => C1 + RtoC r * cis (- (wk * (INR L * dt))))%C
           (map (fun k => 2 * PI * (1 / (2 * dt) / (INR n / 2)) * IZR k) (freq_index n))) ;;
     Ok (mkFlt data (map Re (ifft prod n))
        (map (fun wk => C1 + RtoC r * cis (- (wk * (INR L * dt))))%C
           (map (fun k => 2 * PI * (1 / (2 * dt) / (INR n / 2)) * IZR k) (freq_index n)))
        time au r (INR L * dt) dt)) = Ok o /\
    fl_rf o = data /\ fl_time o = time /\ fl_delta o = dt /\
    fl_r o = r /\ fl_tlag o = INR L * dt /\
    fl_res o = map (fun k => C1 + RtoC r * W n (- (Z.of_nat L * Z.of_nat k)))%C (seq 0 n) /\
    fl_filtered o = map (fun j => rnth D j + r * rnth D (circ n j (Z.of_nat L))) (seq 0 n) /\ fl_autoc o = au).
  { intros r L au.
    set (G := map (fun wk => C1 + RtoC r * cis (- (wk * (INR L * dt))))%C
           (map (fun k => 2 * PI * (1 / (2 * dt) / (INR n / 2)) * IZR k) (freq_index n))).
    assert (HG : G = map (fun k => C1 + RtoC r * W n (- (Z.of_nat L * Z.of_nat k)))%C (seq 0 n)).
    { apply clist_ext.
      - unfold G. rewrite !map_length, freq_index_length, seq_length by exact Hn. reflexivity.
      - unfold G at 1. rewrite !map_length, freq_index_length by exact Hn. intros k Hk.
        unfold cnth at 2. rewrite nth_map_seq by exact Hk. rewrite <- (phase_bin n k dt L Hk Hdt).
        unfold G, cnth. rewrite map_map.
        rewrite (nth_indep _ C0 ((fun x => C1 + RtoC r * cis (- (2 * PI * (1 / (2 * dt) / (INR n / 2)) * IZR x * (INR L * dt))))%C 0%Z))
          by (rewrite map_length, freq_index_length; assumption).
        rewrite (map_nth (fun x => C1 + RtoC r * cis (- (2 * PI * (1 / (2 * dt) / (INR n / 2)) * IZR x * (INR L * dt))))%C).
        reflexivity. }
    assert (HGl : length G = n) by (rewrite HG, map_length, seq_length; reflexivity).
    unfold cprod. rewrite fft_length, HGl, Nat.eqb_refl. cbn [bind].
    eexists. split; [reflexivity|]. cbn [fl_rf fl_time fl_delta fl_r fl_tlag fl_res fl_filtered fl_autoc].
    repeat (split; [reflexivity|]). split; [exact HG|]. split; [|reflexivity].
    apply rlist_ext.
    - rewrite !map_length, ifft_length, seq_length. reflexivity.
    - rewrite map_length, ifft_length. intros j Hj.
      unfold rnth at 2. rewrite nth_map_seq by exact Hj.
      unfold rnth at 1. change 0 with (Re C0). rewrite map_nth.
      change (nth j (ifft (cmul2 (fft (map RtoC D) n) G) n) C0) with (cnth (ifft (cmul2 (fft (map RtoC D) n) G) n) j).
      rewrite (two_tap D n r L G j HGl Hj); [reflexivity|].
      intros k Hk. rewrite HG. unfold cnth. apply (nth_map_seq (fun k => C1 + RtoC r * W n (- (Z.of_nat L * Z.of_nat k)))%C C0 n k Hk). }
  unfold rcore. cbn zeta. rewrite detrend_demean. fold D. fold n.
  rewrite (rmax_correlate D) by lia. cbn [bind].
  assert (Hsl : slice (map (fun x => x / energy D) (correlate_full D)) (n - 1) (2 * n - 1) = autoc_of D).
  { rewrite <- HD. apply (slice_correlate D (fun x => x / energy D)). }
  rewrite Hsl.
  destruct (Req_EM_T (energy D) 0) as [E0|E0].
  - cbn [bind]. destruct (Tail 0 0%nat None) as [o [Ho P]]. exists 0%nat, 0, o.
    change (INR 0) with 0 in *. replace (0 * dt) with 0 in * by ring.
    destruct P as (P1&P2&P3&P4&P5&P6&P7&P8).
    split; [exact Ho|]. repeat (split; [assumption|]). left. auto.
  - unfold first_peak. destruct (@find_peaks RN (map Ropp (autoc_of D))) as [|p ps] eqn:Ep.
    + cbn [bind]. destruct (Tail 0 0%nat (Some (autoc_of D))) as [o [Ho P]]. exists 0%nat, 0, o.
      change (INR 0) with 0 in *. replace (0 * dt) with 0 in * by ring.
      destruct P as (P1&P2&P3&P4&P5&P6&P7&P8).
      split; [exact Ho|]. repeat (split; [assumption|]). right. split; [exact E0|]. split; [exact P8|]. left; auto.
    + pose proof (find_peaks_spec RN_laws (map Ropp (autoc_of D))) as Sp. rewrite Ep in Sp.
      destruct Sp as (a&b&(Q1&Q2&Q3&_)&Em&_). rewrite map_length, HacL in Q3.
      assert (Hp : (p < n)%nat).
      { rewrite Em. apply Nat.div_lt_upper_bound; lia. }
      assert (Hg : getitem (map Ropp (autoc_of D)) p = Ok (- rnth (autoc_of D) p)).
      { apply getitem_Ok. rewrite nth_error_map. rewrite (nth_error_nth' _ 0) by lia. reflexivity. }
      change (F RN) with R in *. rewrite Hg. cbn [bind]. rewrite Rabs_Ropp.
      destruct (Tail (Rabs (rnth (autoc_of D) p)) p (Some (autoc_of D))) as [o [Ho P]].
      exists p, (Rabs (rnth (autoc_of D) p)), o.
      destruct P as (P1&P2&P3&P4&P5&P6&P7&P8).
      split; [exact Ho|]. repeat (split; [assumption|]). right. split; [exact E0|]. split; [exact P8|]. right; auto.
Qed.
