(** * P_SeqDecon: from a noisy seismogram of a two-layer medium through deconvolution and sequential H-k stacking to
    both layers (C152). *)

From Coq Require Import Reals Lra Lia.
From Verif Require Import Base Num NumPy Spec HkModel HkProofs HkReal HkFacts HkFacts2 HkFacts4 P_Hk DrawSpec P_Hk2 P_Hk3 P_Hk4 P_Hk5 P_Hk6 P_HkEx P_Hk7 P_Noise.
From Verif Require Import P_Float3.
From Verif Require Import Cplx DFT DFT2 SpecSignal SpecConv LeastSquares ReverbModel ReverbProofs ReverbProofs2 P_Reverb P_Reverb2 P_Reverb3 P_Reverb5 P_Reverb6 P_Reverb7 P_Reverb8 DeconModel DeconProofs
  DeconProofs2 DeconProofs3 DeconProofs4 DeconProofs5 DeconConv P_Decon P_Decon2 P_Conv P_Shift P_WlNoise P_DeconHk P_DeconHkNoise P_IterNoise P_IterYu P_WaterYu.
Local Open Scope R_scope.

(** The record identifies the upper layer [(H1,K1)] by its own phases and, below it, the lower layer [(H0,K0)] by the
    phases whose delays are the sums over the two layers. *)
Definition identifies2 (m : R) (data : list R) (dt : R) (l : nat) (pre VS VM p : R) (HS KS : list R) (H1 K1 : R) (HM KM : list R) (H0 K0 : R) : Prop :=
  identifies m data dt l pre VS p HS KS H1 K1 /\
  In H0 HM /\ In K0 KM /\ precritical VM p /\
  clear_phases_by m data (@uniform_axis RN dt l pre) (t2_Ps VS H1 K1 VM p) (t2_PpPs VS H1 K1 VM p) (t2_PsPs VS H1 K1 VM p) HM KM H0 K0 /\
  (forall h k, In h HM -> In k KM -> covered dt l pre (t2_Ps VS H1 K1 VM p h k) /\ covered dt l pre (t2_PpPs VS H1 K1 VM p h k) /\ covered dt l pre (t2_PsPs VS H1 K1 VM p h k)) /\
  (forall h k, In h HM -> In k KM -> (h, k) <> (H0, K0) -> resolved dt VM p H0 K0 h k).

Lemma near_recovers2 draw (g y : list R) c e dt l pre (p : R) pk (HS KS : list R) (VS a b d : R) (HM KM : list R) (VM a' b' d' : R) q (H1 K1 H0 K0 : R) :
  0 < dt -> (1 <= l)%nat -> 0 < c -> length y = length g -> sqrt (dist2 (scaled c g) y) <= c * e ->
  identifies2 (2 * e) g dt l pre VS VM p HS KS H1 K1 HM KM H0 K0 ->
  0 < a -> 0 < b -> 0 < d -> 0 < a' -> 0 < b' -> 0 < d' ->
  @hkSeqSynth RN draw y y (@uniform_axis RN dt l pre) p pk HS KS (Some VS) (Some a) (Some b) (Some d) HM KM (Some VM) (Some a') (Some b') (Some d') = Ok q ->
  (exists v, nth_error (ss_stkSed q) (ss_bestSed q) = Some (@mkRow RN H1 K1 v)) /\
  (exists v, nth_error (ss_stkMoho q) (ss_bestMoho q) = Some (@mkRow RN H0 K0 v)).
Proof.
  intros Hd Hl Hc L B ((I1 & I2 & HP & (S1 & S2 & S3) & HC & HR) & J1 & J2 & JP & (T1 & T2 & T3) & JC & JR) P1 P2 P3 P4 P5 P6 E.
  assert (Nr : near (c * e) (map (Rmult c) g) y).
  { apply near_intro; [rewrite map_length; lia|]. rewrite map_length. intros j Hj.
    eapply Rle_trans; [|exact B]. apply (dist2_sample (scaled c g) y j). unfold scaled. rewrite map_length. exact Hj. }
  assert (G : forall s T H K A0 B0, s * s = 1 -> stands_out_by (2 * e) s g (@uniform_axis RN dt l pre) T H K A0 B0 -> stands_out s y (@uniform_axis RN dt l pre) T H K A0 B0).
  { intros s T H K A0 B0 Hs HS'. apply (near_stands (c * e) s (map (Rmult c) g)); [exact Hs|exact Nr|].
    replace (2 * (c * e)) with (c * (2 * e)) by ring. apply stands_scale; assumption. }
  eapply (C123_hkSeqSynth dt l pre Hd Hl draw y y p pk HS KS VS a b d HM KM VM a' b' d' q H1 K1 H0 K0 E); try assumption.
  - split; [apply G; [lra|exact S1]|]. split; [apply G; [lra|exact S2]|apply G; [lra|exact S3]].
  - split; [apply G; [lra|exact T1]|]. split; [apply G; [lra|exact T2]|apply G; [lra|exact T3]].
Qed.

(** Water-level deconvolution of the noisy record [uin'], then sequential stacking of the receiver function. *)
Theorem C152_water uin uin' win dt preonset wlevel gaussian normalize rf' rms' r s M noise
    draw (p : R) pk (HS KS : list R) (VS a b d : R) (HM KM : list R) (VM a' b' d' : R) q (H1 K1 H0 K0 : R) :
  deconv_waterlevel uin' win dt preonset wlevel gaussian normalize = Ok (rf', rms') -> 0 < dt -> 0 < wlevel -> (1 <= length uin)%nat ->
  length uin' = length uin -> dist2 uin uin' <= noise ->
  let n := (2 ^ Nat.log2_up (length uin))%nat in
  preonset = dt * IZR s -> convolved dt n uin win r -> max_power n (dft n win) M ->
  identifies2 (2 * (removed dt n gaussian wlevel M win r + sqrt (noise / (wlevel * energy_of win)) / dt))
    (ideal dt n gaussian r s (length uin)) dt (length uin) preonset VS VM p HS KS H1 K1 HM KM H0 K0 ->
  0 < a -> 0 < b -> 0 < d -> 0 < a' -> 0 < b' -> 0 < d' ->
  @hkSeqSynth RN draw rf' rf' (@uniform_axis RN dt (length uin) preonset) p pk HS KS (Some VS) (Some a) (Some b) (Some d) HM KM (Some VM) (Some a') (Some b') (Some d') = Ok q ->
  (exists v, nth_error (ss_stkSed q) (ss_bestSed q) = Some (@mkRow RN H1 K1 v)) /\
  (exists v, nth_error (ss_stkMoho q) (ss_bestMoho q) = Some (@mkRow RN H0 K0 v)).
Proof.
  intros E' Hdt Hwl L1 Hlen Hno n Hp HC HM' ID P1 P2 P3 P4 P5 P6 E.
  destruct (C151_close uin uin' win dt preonset wlevel gaussian normalize rf' rms' r s M noise E' Hdt Hwl Hlen Hno Hp HC HM') as (Hc & Lf' & B).
  eapply (near_recovers2 draw (ideal dt n gaussian r s (length uin)) rf' (rf_scale normalize dt n gaussian)); [exact Hdt|exact L1|exact Hc| |exact B|exact ID|exact P1|exact P2|exact P3|exact P4|exact P5|exact P6|exact E].
  unfold ideal. rewrite map_length, seq_length. exact Lf'.
Qed.

Lemma scaled_1 x : scaled 1 x = x.
Proof. unfold scaled. rewrite (map_ext (Rmult 1) (fun v => v)) by (intro; ring). apply map_id. Qed.

(** The same with enough iterations of the iterative deconvolution. *)
Theorem C152_found uin uin' win dt gaussian phase r m0 noise :
  length uin = length win -> length uin' = length win -> 0 < dt -> ~ all_zero uin' -> dist2 uin uin' <= noise -> (1 <= length uin)%nat ->
  let n := (2 ^ Nat.log2_up (length uin))%nat in
  let lim := (if String.eqb phase "P" then n / 2 - 1 else n)%nat in
  0 < m0 -> (forall k, (k < n)%nat -> m0 <= Cnorm2 (dft n win k)) ->
  spikes_below n lim r -> convolved dt n uin win r ->
  forall m, 0 < m -> exists N, forall itmax preonset minderr rf' rms' it' draw (p : R) pk (HS KS : list R) (VS a b d : R) (HM KM : list R) (VM a' b' d' : R) q (H1 K1 H0 K0 : R),
    (N <= itmax)%nat -> minderr <= 0 ->
    deconv_iterative uin' win dt None preonset gaussian itmax minderr phase = Ok (rf', rms', it') ->
    identifies2 (2 * sqrt (noise / (dt * dt * m0)) + m) (ideal dt n gaussian r (Rtrunc (preonset / dt)) (length uin)) dt (length uin) preonset VS VM p HS KS H1 K1 HM KM H0 K0 ->
    0 < a -> 0 < b -> 0 < d -> 0 < a' -> 0 < b' -> 0 < d' ->
    @hkSeqSynth RN draw rf' rf' (@uniform_axis RN dt (length uin) preonset) p pk HS KS (Some VS) (Some a) (Some b) (Some d) HM KM (Some VM) (Some a') (Some b') (Some d') = Ok q ->
    (exists v, nth_error (ss_stkSed q) (ss_bestSed q) = Some (@mkRow RN H1 K1 v)) /\
    (exists v, nth_error (ss_stkMoho q) (ss_bestMoho q) = Some (@mkRow RN H0 K0 v)).
Proof.
  intros Lu Lu' Hdt Hu' Hno L1 n lim Hm0 HB0 Hsp HC m Hm.
  destruct (C150_close_limit uin uin' win dt gaussian phase r m0 noise Lu Lu' Hdt Hu' Hno Hm0 HB0 Hsp HC (m / 2) ltac:(lra)) as [N HN]. exists N.
  intros itmax preonset minderr rf' rms' it' draw p pk HS KS VS a b d HM KM VM a' b' d' q H1 K1 H0 K0 HI Hmin E' ID P1 P2 P3 P4 P5 P6 E.
  pose proof (HN itmax preonset minderr rf' rms' it' HI Hmin E') as B. fold n in B.
  destruct (C37_spikes _ _ _ _ _ _ _ _ _ _ _ E') as (_ & Lf' & _).
  eapply (near_recovers2 draw (ideal dt n gaussian r (Rtrunc (preonset / dt)) (length uin)) rf' 1 (sqrt (noise / (dt * dt * m0)) + m / 2)); [exact Hdt|exact L1|lra| | | |exact P1|exact P2|exact P3|exact P4|exact P5|exact P6|exact E].
  - unfold ideal. rewrite map_length, seq_length. lia.
  - rewrite scaled_1, Rmult_1_l. exact B.
  - replace (2 * (sqrt (noise / (dt * dt * m0)) + m / 2)) with (2 * sqrt (noise / (dt * dt * m0)) + m) by field. exact ID.
Qed.

(** ** Example: two layers with h = 1 and Vp/Vs = 2 each, velocities 1, vertical incidence *)
Definition sq_r : list R := [0; 2; 3 / 2; 1; -1; 0; 1 / 2; 0; - (1 / 2); 0; 0; 0; 0; 0; 0; 0; 0; 0; 0; 0; 0; 0; 0; 0; 0; 0; 0; 0; 0; 0; 0; 0].
Definition sq_noisy : list R := [0; 2; 3 / 2; 1; -1; 0; 1 / 2; 0; - (1 / 2); 0; 0; 0; 0; 0; 0; 0; 0; 0; 0; 0; 0; 0; 0; 0; 0; 0; 0; 0; 0; 0; 0; 1 / 100].
Definition sq_win : list R := 1 :: repeat 0 31.

Lemma sq_win_nth j : rnth sq_win j = if (j =? 0)%nat then 1 else 0.
Proof. destruct j as [|j]; [reflexivity|]. change (rnth sq_win (S j)) with (nth j (repeat 0 31) 0). apply nth_repeat. Qed.
Lemma sq_dist : dist2 sq_r sq_noisy = 1 / 10000.
Proof. unfold dist2, ssq. cbn [length sq_r rsum]. unfold rnth, sq_r, sq_noisy. cbn [nth]. lra. Qed.
Lemma sq_dft k : Cnorm2 (dft 32 sq_win k) = 1.
Proof.
  unfold dft. rewrite (csum_single 32 _ 0); [|lia|].
  - rewrite sq_win_nth. cbn [Nat.eqb]. replace (- (Z.of_nat 0 * Z.of_nat k))%Z with 0%Z by lia. rewrite W_0. cbv [Cnorm2 RtoC C1 Cmul fst snd Re Im]. ring.
  - intros j _ Nj. rewrite sq_win_nth, (proj2 (Nat.eqb_neq j 0) Nj). change (RtoC 0) with C0. ring.
Qed.
Lemma sq_convolved : convolved 1 32 sq_r sq_win sq_r.
Proof.
  intros j Hj. unfold cconv. rewrite (rsum_single 32 _ j); [|exact Hj|].
  - rewrite sq_win_nth. replace (circ 32 j (Z.of_nat j)) with 0%nat; [cbn [Nat.eqb]; ring|].
    apply circ_unique; try lia. replace (Z.of_nat j - Z.of_nat 0 - Z.of_nat j)%Z with 0%Z by lia. reflexivity.
  - intros i Hi Ni. rewrite sq_win_nth. destruct (Nat.eqb_spec (circ 32 j (Z.of_nat i)) 0) as [Z|]; [|ring]. exfalso.
    symmetry in Z. apply circ_unique in Z; try lia. apply Z.mod_divide in Z; [|lia]. destruct Z as [z Hz]. nia.
Qed.
Lemma sq_near : near (1 / 300) sq_r (ideal 1 32 100 sq_r 0 32).
Proof.
  apply near_intro; [unfold ideal; rewrite map_length, seq_length; reflexivity|]. change (length sq_r) with 32%nat. intros j Hj.
  unfold ideal. rewrite rnth_map_seq by exact Hj.
  assert (S1 : rsum 32 (fun i => Rabs (rnth sq_r i)) = 13 / 2).
  { cbn [rsum]. unfold rnth, sq_r. cbn [nth]. rewrite (Rabs_left (-1)) by lra. rewrite Rabs_Ropp, !Rabs_R0, !Rabs_right by lra. lra. }
  pose proof (rf_of_sharp 1 32 100 sq_r 0 j Rlt_0_1 ltac:(lra) ltac:(lia)) as B. rewrite S1 in B.
  replace (circ 32 j 0) with j in B by (apply circ_unique; try lia; replace (Z.of_nat j - Z.of_nat j - 0)%Z with 0%Z by lia; reflexivity).
  pose proof PI_4. pose proof PI_RGT_0.
  assert ((PI / (2 * 100 * 1)) ^ 2 <= (1 / 50) ^ 2) by (apply pow_incr; lra). lra.
Qed.
Lemma sq_read m i : (m < 32)%nat -> @nearest_first RN (@uniform_axis RN 1 32 0) (INR m) i -> i = m.
Proof.
  intros Hm N. apply (nearest_first_unique RN_laws _ _ i m N). apply (nearest_R_intro (@taxis RN 1 32 0) _ m (1 * INR m - 0)).
  - apply taxis_R_nth. exact Hm.
  - intros j tj _. replace (1 * INR m - 0 - INR m) with 0 by ring. rewrite Rabs_R0. apply Rabs_pos.
  - intros j tj Hj Hn. apply taxis_R_inv in Hn. destruct Hn as [_ ->].
    replace (1 * INR m - 0 - INR m) with 0 by ring. rewrite Rabs_R0.
    apply Rabs_pos_lt. assert (INR j < INR m) by (apply lt_INR; exact Hj). lra.
Qed.
Lemma sq_times2 h k : 0 <= k -> t2_Ps 1 1 2 1 0 h k = 1 + h * (k - 1) /\ t2_PpPs 1 1 2 1 0 h k = 3 + h * (k + 1) /\ t2_PsPs 1 1 2 1 0 h k = 4 + 2 * h * k.
Proof.
  intro Hk. unfold t2_Ps, t2_PpPs, t2_PsPs. destruct (dx_times 1 2 ltac:(lra)) as (-> & -> & ->). destruct (dx_times h k Hk) as (-> & -> & ->).
  repeat split; ring.
Qed.
Lemma sq_identifies m : m < 1 / 2 -> identifies2 m sq_r 1 32 0 1 1 0 [1; 2] [2; 3] 1 2 [1; 2] [2; 3] 1 2.
Proof.
  intro Hm. destruct (dx_times 1 2 ltac:(lra)) as (G1 & G2 & G3). destruct (sq_times2 1 2 ltac:(lra)) as (Q1 & Q2 & Q3).
  assert (I : forall (x : R) m i, x = INR m -> (m < 32)%nat -> @nearest_first RN (@uniform_axis RN 1 32 0) x i -> i = m) by (intros x n i -> Hn Hi; apply sq_read; assumption).
  assert (V : forall i a, nth_error sq_r i = Some a -> a = rnth sq_r i) by (intros i a E; apply nth_error_rnth in E; apply E).
  assert (PC : precritical 1 0) by (unfold precritical; repeat split; lra).
  split; [split; [left; reflexivity|]; split; [left; reflexivity|]; split; [exact PC|]; split; [split; [|split]|split]|].
  1-3: intros h k i i0 a a0 Ih Ik M M0 Ea Ea0 Ne; apply V in Ea; apply V in Ea0;
    destruct (dx_times h k ltac:(destruct Ik as [<-|[<-|[]]]; lra)) as (F1 & F2 & F3).
  + rewrite F1 in M. rewrite G1 in M0. apply (I _ 1%nat) in M0; [|simpl; field|lia]. subst i0.
    destruct Ih as [<-|[<-|[]]]; destruct Ik as [<-|[<-|[]]];
      [apply (I _ 1%nat) in M|apply (I _ 2%nat) in M|apply (I _ 2%nat) in M|apply (I _ 4%nat) in M]; try (simpl; field); try lia; subst i; try congruence;
      unfold rnth in Ea, Ea0; simpl in Ea, Ea0; lra.
  + rewrite F2 in M. rewrite G2 in M0. apply (I _ 3%nat) in M0; [|simpl; field|lia]. subst i0.
    destruct Ih as [<-|[<-|[]]]; destruct Ik as [<-|[<-|[]]];
      [apply (I _ 3%nat) in M|apply (I _ 4%nat) in M|apply (I _ 6%nat) in M|apply (I _ 8%nat) in M]; try (simpl; field); try lia; subst i; try congruence;
      unfold rnth in Ea, Ea0; simpl in Ea, Ea0; lra.
  + rewrite F3 in M. rewrite G3 in M0. apply (I _ 4%nat) in M0; [|simpl; field|lia]. subst i0.
    destruct Ih as [<-|[<-|[]]]; destruct Ik as [<-|[<-|[]]];
      [apply (I _ 4%nat) in M|apply (I _ 6%nat) in M|apply (I _ 8%nat) in M|apply (I _ 12%nat) in M]; try (simpl; field); try lia; subst i; try congruence;
      unfold rnth in Ea, Ea0; simpl in Ea, Ea0; lra.
  + intros h k Ih Ik. destruct (dx_times h k ltac:(destruct Ik as [<-|[<-|[]]]; lra)) as (-> & -> & ->).
    unfold covered. change (32 - 1)%nat with 31%nat. rewrite (INR_IZR_INZ 31). simpl (IZR (Z.of_nat 31)).
    destruct Ih as [<-|[<-|[]]]; destruct Ik as [<-|[<-|[]]]; lra.
  + exact ex_res.
  + split; [left; reflexivity|]. split; [left; reflexivity|]. split; [exact PC|]. split; [split; [|split]|split].
    1-3: intros h k i i0 a a0 Ih Ik M M0 Ea Ea0 Ne; apply V in Ea; apply V in Ea0;
      destruct (sq_times2 h k ltac:(destruct Ik as [<-|[<-|[]]]; lra)) as (F1 & F2 & F3).
    * rewrite F1 in M. rewrite Q1 in M0. apply (I _ 2%nat) in M0; [|simpl; field|lia]. subst i0.
      destruct Ih as [<-|[<-|[]]]; destruct Ik as [<-|[<-|[]]];
        [apply (I _ 2%nat) in M|apply (I _ 3%nat) in M|apply (I _ 3%nat) in M|apply (I _ 5%nat) in M]; try (simpl; field); try lia; subst i; try congruence;
        unfold rnth in Ea, Ea0; simpl in Ea, Ea0; lra.
    * rewrite F2 in M. rewrite Q2 in M0. apply (I _ 6%nat) in M0; [|simpl; field|lia]. subst i0.
      destruct Ih as [<-|[<-|[]]]; destruct Ik as [<-|[<-|[]]];
        [apply (I _ 6%nat) in M|apply (I _ 7%nat) in M|apply (I _ 9%nat) in M|apply (I _ 11%nat) in M]; try (simpl; field); try lia; subst i; try congruence;
        unfold rnth in Ea, Ea0; simpl in Ea, Ea0; lra.
    * rewrite F3 in M. rewrite Q3 in M0. apply (I _ 8%nat) in M0; [|simpl; field|lia]. subst i0.
      destruct Ih as [<-|[<-|[]]]; destruct Ik as [<-|[<-|[]]];
        [apply (I _ 8%nat) in M|apply (I _ 10%nat) in M|apply (I _ 12%nat) in M|apply (I _ 16%nat) in M]; try (simpl; field); try lia; subst i; try congruence;
        unfold rnth in Ea, Ea0; simpl in Ea, Ea0; lra.
    * intros h k Ih Ik. destruct (sq_times2 h k ltac:(destruct Ik as [<-|[<-|[]]]; lra)) as (-> & -> & ->).
      unfold covered. change (32 - 1)%nat with 31%nat. rewrite (INR_IZR_INZ 31). simpl (IZR (Z.of_nat 31)).
      destruct Ih as [<-|[<-|[]]]; destruct Ik as [<-|[<-|[]]]; lra.
    * exact ex_res.
Qed.
(** What identifies both layers still does in a record less than half the margin away. *)
Lemma near_identifies2 e m (x y : list R) dt l pre VS VM p HS KS H1 K1 HM KM H0 K0 : near e x y ->
  identifies2 (m + 2 * e) x dt l pre VS VM p HS KS H1 K1 HM KM H0 K0 -> identifies2 m y dt l pre VS VM p HS KS H1 K1 HM KM H0 K0.
Proof.
  intros NN (I1 & J1 & J2 & JP & (S1 & S2 & S3) & JC & JR).
  split; [exact (near_identifies e m x y dt l pre VS p HS KS H1 K1 NN I1)|]. destruct NN as (L & N).
  assert (G : forall s T, s = 1 \/ s = -1 -> stands_out_by (m + 2 * e) s x (@uniform_axis RN dt l pre) T HM KM H0 K0 -> stands_out_by m s y (@uniform_axis RN dt l pre) T HM KM H0 K0).
  { intros s T Hs HS' h k i i0 a a0 Ih Ik M M0 E E0 Ne.
    destruct (nth_error x i) as [b|] eqn:X; [|apply nth_error_None in X; assert (nth_error y i = None) by (apply nth_error_None; lia); congruence].
    destruct (nth_error x i0) as [b0|] eqn:X0; [|apply nth_error_None in X0; assert (nth_error y i0 = None) by (apply nth_error_None; lia); congruence].
    pose proof (HS' h k i i0 b b0 Ih Ik M M0 X X0 Ne) as Q.
    pose proof (N i b a X E) as A. pose proof (N i0 b0 a0 X0 E0) as A0.
    apply Rabs_def2b in A. apply Rabs_def2b in A0. destruct Hs as [-> | ->]; lra. }
  split; [exact J1|]. split; [exact J2|]. split; [exact JP|]. split; [|split; assumption].
  split; [apply G; [left; reflexivity|exact S1]|]. split; [apply G; [left; reflexivity|exact S2]|apply G; [right; reflexivity|exact S3]].
Qed.
Lemma sq_searched rf : length rf = 32%nat -> exists q,
  @hkSeqSynth RN (@pyplot RN) rf rf (@uniform_axis RN 1 32 0) 0 NpF [1; 2] [2; 3] (Some 1) (Some 1) (Some 1) (Some 1) [1; 2] [2; 3] (Some 1) (Some 1) (Some 1) (Some 1) = Ok q.
Proof.
  intro L. assert (LA : length (@uniform_axis RN 1%R 32 0%R) = 32%nat) by (unfold uniform_axis; rewrite map_length, seq_length; reflexivity).
  eapply (drawn2_R (@pyplot RN) [2; 3] [1; 2] [2; 3] [1; 2] _ ss_stkSed ss_stkMoho ex_pyplot ex_pyplot).
  eapply (C77_hkSeqSynth_completes RN (@pyplot RN) rf rf (@uniform_axis RN 1 32 0) 0 NpF [1; 2] [2; 3] (Some 1) (Some 1) (Some 1) (Some 1) [1; 2] [2; 3] 1 1 1 1); try discriminate.
  - change (length (@uniform_axis RN 1%R 32 0%R) <= length rf)%nat. rewrite L, LA. apply le_n.
  - change (length (@uniform_axis RN 1%R 32 0%R) <= length rf)%nat. rewrite L, LA. apply le_n.
  - cbn [dflt]. simpl. unfold Reqb. destruct (Req_EM_T 1 0) as [C|]; [lra|reflexivity].
  - simpl. unfold Reqb. destruct (Req_EM_T 1 0) as [C|]; [lra|reflexivity].
Qed.

Theorem C152_example : exists rf rms q v v',
  deconv_waterlevel sq_noisy sq_win 1 0 (1 / 2) 100 false = Ok (rf, rms) /\ dist2 sq_r sq_noisy = 1 / 10000 /\
  @hkSeqSynth RN (@pyplot RN) rf rf (@uniform_axis RN 1 32 0) 0 NpF [1; 2] [2; 3] (Some 1) (Some 1) (Some 1) (Some 1) [1; 2] [2; 3] (Some 1) (Some 1) (Some 1) (Some 1) = Ok q /\
  nth_error (ss_stkSed q) (ss_bestSed q) = Some (@mkRow RN 1 2 v) /\ nth_error (ss_stkMoho q) (ss_bestMoho q) = Some (@mkRow RN 1 2 v').
Proof.
  assert (Zw : ~ all_zero sq_win) by (intro A; specialize (A 0%nat); rewrite sq_win_nth in A; cbn [Nat.eqb] in A; lra).
  assert (Lu : length sq_noisy = 32%nat) by reflexivity. assert (Lr : length sq_r = 32%nat) by reflexivity. assert (Lw : length sq_win = 32%nat) by reflexivity.
  assert (MP : max_power 32 (dft 32 sq_win) 1).
  { split; [intros k _; rewrite sq_dft; lra|]. exists 0%nat. split; [lia|apply sq_dft]. }
  assert (RM : removed 1 32 100 (1 / 2) 1 sq_win sq_r = 0).
  { unfold removed. rewrite (rsum_nil 32), Rmult_0_r; [apply sqrt_0|]. intros k _. unfold taken. rewrite sq_dft, Rmax_left by lra. ring. }
  assert (EW : energy_of sq_win = 1).
  { unfold energy_of. rewrite Lw. unfold ssq. rewrite (rsum_single 32 _ 0); [rewrite sq_win_nth; cbn [Nat.eqb]; ring|lia|].
    intros j _ Nj. rewrite sq_win_nth, (proj2 (Nat.eqb_neq j 0) Nj). ring. }
  assert (SQ : sqrt (1 / 10000 / (1 / 2 * 1)) <= 15 / 1000).
  { rewrite <- (sqrt_Rsqr (15 / 1000)) by lra. apply sqrt_le_1_alt. unfold Rsqr. lra. }
  destruct (C41_returns sq_noisy sq_win 1 0 (1 / 2) 100 false eq_refl ltac:(rewrite Lu; lia) ltac:(lra) ltac:(lra) Zw ltac:(left; lra)) as (rf & rms & E).
  pose proof E as E1. apply deconv_waterlevel_inv in E1 as (M1 & D1 & Q1). pose proof (wr_lrf _ _ _ _ _ _ _ _ _ _ _ _ Q1) as Lf. rewrite Lu in Lf.
  destruct (sq_searched rf Lf) as [q Eq]. exists rf, rms, q.
  destruct (C152_water sq_r sq_noisy sq_win 1 0 (1 / 2) 100 false rf rms sq_r 0 1 (1 / 10000) (@pyplot RN) 0 NpF [1; 2] [2; 3] 1 1 1 1 [1; 2] [2; 3] 1 1 1 1 q 1 2 1 2) as ((v & Ev) & v' & Ev').
  - exact E.
  - lra.
  - lra.
  - rewrite Lr. lia.
  - reflexivity.
  - apply Req_le. exact sq_dist.
  - ring.
  - exact sq_convolved.
  - exact MP.
  - rewrite Lr. change (2 ^ Nat.log2_up 32)%nat with 32%nat. rewrite RM, EW.
    eapply (near_identifies2 (1 / 300)); [exact sq_near|]. apply sq_identifies. lra.
  - lra.
  - lra.
  - lra.
  - lra.
  - lra.
  - lra.
  - exact Eq.
  - exists v, v'. split; [exact E|]. split; [exact sq_dist|]. split; [exact Eq|]. split; [exact Ev|exact Ev'].
Qed.
