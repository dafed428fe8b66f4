(** * DeconProofs5: water-level deconvolution. *)

From Coq Require Import Reals Lra.
From Verif Require Import Base Num NumPy HkReal Cplx DFT DFT2 SpecSignal ReverbModel DeconModel DeconProofs DeconProofs2 DeconProofs3 DeconProofs4.
Local Open Scope R_scope.

Lemma fft_dft n x k : (k < n)%nat -> cnth (fft (map RtoC x) n) k = dft n x k.
Proof. intro H. rewrite fft_nth by exact H. unfold dft. apply csum_ext. intros j _. rewrite cnth_map_RtoC. reflexivity. Qed.

Lemma ifft_synth n X j : (j < n)%nat -> Re (cnth (ifft X n) j) = synth n (cnth X) j.
Proof.
  intro H. rewrite ifft_nth by exact H. rewrite Re_scale, Re_csum. reflexivity.
Qed.
Lemma synth_ext n F G j : (forall k, (k < n)%nat -> F k = G k) -> synth n F j = synth n G j.
Proof. intro H. unfold synth. f_equal. apply rsum_ext. intros k Hk. rewrite H by exact Hk. reflexivity. Qed.

Lemma pymax_R (l : list R) (M : R) : @pymax RN l = Ok M ->
  (forall k, (k < length l)%nat -> rnth l k <= M) /\ (exists k, (k < length l)%nat /\ rnth l k = M).
Proof.
  unfold pymax. destruct l as [|x l]; [discriminate|]. intro H. injection H as <-.
  assert (G : forall (l : list R) (m : R), exists r : R, fold_left (fun m y : RN => if nltb m y then y else m) l m = r /\
     (m <= r /\ (forall y, In y l -> y <= r)) /\ (r = m \/ In r l)).
  { clear. induction l as [|y l IH]; intros m.
    - exists m. split; [reflexivity|]. split; [split; [lra|intros y []]|left; reflexivity].
    - cbn [fold_left]. destruct (IH (if Rlt_dec m y then y else m)) as (r&E&[A B]&D). exists r.
      assert (EB : (if @nltb RN m y then y else m) = (if Rlt_dec m y then y else m)).
      { cbn. unfold Rltb. destruct (Rlt_dec m y); reflexivity. }
      split; [rewrite <- E; exact (f_equal (fold_left (fun m y : RN => if nltb m y then y else m) l) EB)|]. destruct (Rlt_dec m y).
      + split; [split; [lra|intros z [<-|Hz]; auto]|]. destruct D as [->|D]; [right; left; reflexivity|right; right; exact D].
      + split; [split; [lra|intros z [<-|Hz]; [lra|auto]]|]. destruct D as [->|D]; [left; reflexivity|right; right; exact D]. }
  destruct (G l x) as (r&E&[A B]&D). 
  match goal with |- context [fold_left ?f ?l ?m] => change (fold_left f l m) with (fold_left (fun m y : RN => if nltb m y then y else m) l m) end.
  replace (fold_left (fun m y : RN => if nltb m y then y else m) l x) with r by (symmetry; exact E).
  split.
  - intros k Hk. unfold rnth. assert (I : In (nth k (x :: l) 0) (x :: l)) by (apply nth_In; exact Hk).
    destruct I as [<-|I]; auto.
  - destruct D as [->|D]; [exists 0%nat; split; [cbn; lia|reflexivity]|].
    destruct (In_nth _ _ 0 D) as (k&Hk&Ek). exists (S k). split; [cbn; lia|exact Ek].
Qed.

(** The signed angular frequencies of synrf.py:246-247 and 275. *)
Lemma freq_list dt m : (0 < m)%nat -> dt <> 0 ->
  let n := (2 * m)%nat in
  let w := map (fun x => 2 * PI * x) (map (fun k => 1 / (2 * dt) / (1 / 2 * INR n) * INR k) (seq 0 ((n + 1) / 2 + 1))) in
  w ++ map Ropp (rev (slice w 1 (length w - 1))) = map (omega dt n) (seq 0 n).
Proof.
  intros Hm Hdt n w. assert (HnR : INR n <> 0) by (apply not_0_INR; unfold n; lia).
  assert (E1 : ((n + 1) / 2 = m)%nat) by (symmetry; apply (Nat.div_unique _ 2 m 1); unfold n; lia).
  assert (E2 : (n / 2 = m)%nat) by (unfold n; rewrite Nat.mul_comm; apply Nat.div_mul; lia).
  assert (Ew : w = map (fun k => 2 * PI * INR k / (INR n * dt)) (seq 0 (m + 1))).
  { unfold w. rewrite E1, map_map. apply map_ext. intro k. field. split; assumption. }
  clearbody w. subst w. set (h := fun k => 2 * PI * INR k / (INR n * dt)).
  rewrite map_length, seq_length.
  assert (EF : slice (map h (seq 0 (m + 1))) 1 (m + 1 - 1) = map h (seq 1 (m - 1))).
  { unfold slice. replace (m + 1)%nat with (S m) by lia. cbn [seq map skipn].
    rewrite firstn_map. f_equal. replace (S m - 1 - 1)%nat with (m - 1)%nat by lia.
    replace m with ((m - 1) + 1)%nat at 2 by lia. rewrite seq_app, firstn_app, seq_length.
    rewrite firstn_all2 by (rewrite seq_length; lia). rewrite Nat.sub_diag, firstn_O, app_nil_r. reflexivity. }
  rewrite EF. apply rlist_ext; [rewrite app_length, !map_length, rev_length, !map_length, !seq_length; unfold n; lia|].
  rewrite app_length, !map_length, rev_length, map_length, !seq_length. intros k Hk.
  rewrite rnth_map_seq by (unfold n; lia). unfold omega. rewrite E2.
  destruct (Nat.leb_spec k m) as [H|H].
  - unfold rnth. rewrite app_nth1 by (rewrite map_length, seq_length; lia). rewrite nth_map_seq by lia. reflexivity.
  - unfold rnth. rewrite app_nth2 by (rewrite map_length, seq_length; lia). rewrite map_length, seq_length.
    rewrite (nth_indep _ 0 (- 0)) by (rewrite map_length, rev_length, map_length, seq_length; lia). rewrite map_nth.
    rewrite rev_nth by (rewrite map_length, seq_length; lia). rewrite map_length, seq_length.
    rewrite (nth_indep _ 0 (h 0%nat)) by (rewrite map_length, seq_length; lia). rewrite map_nth, seq_nth by lia.
    unfold h. replace (1 + (m - 1 - S (k - (m + 1))))%nat with (n - k)%nat by (unfold n in *; lia).
    rewrite minus_INR by (unfold n in *; lia). field. split; assumption.
Qed.

(** What [deconv_waterlevel] computes. *)
Record wl_run (uin win : list R) (dt pre wl a : R) (norm : bool) (rf : list R) (rms : option R) (n : nat) (M : R) (D : nat -> R) : Prop := {
  wr_len : length uin = length win;
  wr_n : n = (2 ^ Nat.log2_up (length uin))%nat;
  wr_n2 : exists m, (0 < m)%nat /\ n = (2 * m)%nat;
  wr_le : (length uin <= n)%nat;
  wr_dt : dt <> 0; wr_a : a <> 0;
  wr_M : max_power n (dft n win) M;
  wr_D : forall k, (k < n)%nat -> D k = Rmax (Cnorm2 (dft n win k)) (wl * M);
  wr_D0 : forall k, (k < n)%nat -> D k <> 0;
  wr_lrf : length rf = length uin;
  wr_rf : forall j, (j < length uin)%nat -> rnth rf j
     = (if norm then INR n * dt / rsum n (gauss_gain dt n a) else 1) *
       synth n (fun k => RtoC (gauss_gain dt n a k / dt) * dft n uin k * Cconj (dft n win k) * RtoC (/ D k) * cis (- (omega dt n k * pre)))%C j;
  wr_rms : let ut := synth n (fun k => RtoC (gauss_gain dt n a k / dt) * dft n uin k)%C in
           let upt := synth n (fun k => RtoC (gauss_gain dt n a k / dt) * dft n uin k * Cconj (dft n win k) * RtoC (/ D k) * dft n win k)%C in
     rms = if Req_EM_T (ssq (length uin) ut) 0 then None
           else Some (ssq (length uin) (fun j => upt j - ut j) / ssq (length uin) ut)
}.

Lemma slice_0 {A} (l : list A) k : slice l 0 k = firstn k l.
Proof. unfold slice. rewrite Nat.sub_0_r. reflexivity. Qed.
Lemma rnth_firstn (l : list R) k j : (j < k)%nat -> rnth (firstn k l) j = rnth l j.
Proof.
  unfold rnth. revert k j; induction l as [|x l IH]; intros k j H; [rewrite firstn_nil; reflexivity|].
  destruct k as [|k]; [lia|]. destruct j as [|j]; [reflexivity|]. apply IH. lia.
Qed.

Definition wl_spectrum uin win dt a n D k : C :=
  (RtoC (gauss_gain dt n a k / dt) * dft n uin k * Cconj (dft n win k) * RtoC (/ D k))%C.

Lemma combine_sub' (x y : list R) : length x = length y ->
  map (fun ab => fst ab - snd ab) (combine x y) = map (fun j => rnth x j - rnth y j) (seq 0 (length y)).
Proof.
  intro L. apply rlist_ext; [rewrite !map_length, combine_length, seq_length; lia|].
  rewrite map_length, combine_length. intros j Hj. rewrite rnth_map_seq by lia. unfold rnth.
  rewrite (nth_indep _ 0 ((fun ab : R * R => fst ab - snd ab) (0, 0))) by (rewrite map_length, combine_length; lia).
  rewrite (map_nth (fun ab : R * R => fst ab - snd ab)). rewrite combine_nth by lia. reflexivity.
Qed.

Lemma rsum_gain_pos dt n a : (0 < n)%nat -> 0 < rsum n (gauss_gain dt n a).
Proof.
  intro Hn. assert (H : 0 <= rsum n (gauss_gain dt n a)) by (apply rsum_nonneg; intros; left; apply gauss_gain_pos).
  destruct H as [H|H]; [exact H|]. exfalso.
  pose proof (rsum_zero_all n (gauss_gain dt n a) ltac:(intros; left; apply gauss_gain_pos) (eq_sym H) 0%nat Hn) as Z.
  pose proof (gauss_gain_pos dt n a 0). lra.
Qed.

Lemma existsb_zero (l : list R) : existsb (fun d => Reqb d 0) l = true <-> exists k, (k < length l)%nat /\ rnth l k = 0.
Proof.
  rewrite existsb_exists. split.
  - intros (x&Hx&E). destruct (In_nth _ _ 0 Hx) as (k&Hk&Ek). exists k. split; [exact Hk|].
    unfold Reqb in E. destruct (Req_EM_T x 0); [|discriminate]. unfold rnth. rewrite Ek. assumption.
  - intros (k&Hk&E). exists (rnth l k). split; [apply nth_In; exact Hk|]. rewrite E. unfold Reqb. destruct (Req_EM_T 0 0); congruence.
Qed.

Lemma deconv_waterlevel_body uin win dt pre wl a norm m :
  let n := (2 ^ Nat.log2_up (length uin))%nat in
  length uin = length win -> (0 < length uin)%nat -> (0 < m)%nat -> n = (2 * m)%nat -> dt <> 0 -> a <> 0 ->
  exists M (D : nat -> R), max_power n (dft n win) M /\
    (forall k, (k < n)%nat -> D k = Rmax (Cnorm2 (dft n win k)) (wl * M)) /\
    ((exists k, (k < n)%nat /\ D k = 0) -> deconv_waterlevel uin win dt pre wl a norm = Err NaNResult) /\
    ((forall k, (k < n)%nat -> D k <> 0) ->
      exists rf rms, deconv_waterlevel uin win dt pre wl a norm = Ok (rf, rms) /\
        wl_run uin win dt pre wl a norm rf rms n M D).
Proof.
  intros n HL Hpos Hm En Hdt Ha.
  assert (Hn : (0 < n)%nat) by lia.
  assert (Hle : (length uin <= n)%nat).
  { destruct (next_pow_2_Ok (length uin) n) as (_&X&_); [|exact X]. unfold next_pow_2. destruct (Nat.eqb_spec (length uin) 0); [lia|reflexivity]. }
  assert (HnR : INR n <> 0) by (apply not_0_INR; lia).
  unfold deconv_waterlevel. rewrite HL, Nat.eqb_refl. cbn [negb]. rewrite <- HL.
  unfold next_pow_2. destruct (Nat.eqb_spec (length uin) 0) as [?|_]; [lia|]. cbn [bind]. fold n.
  destruct (Req_EM_T (2 * dt) 0) as [E|_]; [lra|].
  destruct (@pymax RN (map Cnorm2 (fft (map RtoC win) n))) as [M|] eqn:EM.
  2:{ unfold pymax in EM. destruct (map Cnorm2 (fft (map RtoC win) n)) eqn:X; [|discriminate].
      apply (f_equal (@length R)) in X. rewrite map_length, fft_length in X. cbn in X. lia. }
  cbn [bind].
  pose proof (pymax_R _ _ EM) as [MU ME]. rewrite map_length, fft_length in MU, ME.
  assert (NV : forall k, (k < n)%nat -> rnth (map Cnorm2 (fft (map RtoC win) n)) k = Cnorm2 (dft n win k)).
  { intros k Hk. rewrite <- fft_dft by exact Hk. unfold rnth, cnth.
    replace 0 with (Cnorm2 C0) by (cunf; ring). apply map_nth. }
  set (df := map (fun d : R => if Rlt_dec d (wl * M) then wl * M else d) (map Cnorm2 (fft (map RtoC win) n))).
  assert (Ldf : length df = n) by (unfold df; rewrite !map_length, fft_length; reflexivity).
  exists M, (rnth df). split.
  { split; [intros k Hk; rewrite <- NV by exact Hk; apply MU; exact Hk|].
    destruct ME as (k&Hk&E). exists k. split; [exact Hk|]. rewrite <- NV by exact Hk. exact E. }
  assert (HD : forall k, (k < n)%nat -> rnth df k = Rmax (Cnorm2 (dft n win k)) (wl * M)).
  { intros k Hk. unfold df. rewrite rnth_map' by (rewrite map_length, fft_length; exact Hk). rewrite NV by exact Hk.
    unfold Rmax. destruct (Rlt_dec (Cnorm2 (dft n win k)) (wl * M)), (Rle_dec (Cnorm2 (dft n win k)) (wl * M)); lra. }
  split; [exact HD|].
  assert (EG : gaussFilter dt n a = Ok (map (fun k => gauss_gain dt n a k / dt) (seq 0 n))) by (rewrite En; apply gaussFilter_even; assumption).
  rewrite EG. cbn [bind].
  set (G := map (fun k => gauss_gain dt n a k / dt) (seq 0 n)).
  assert (LG : length G = n) by (unfold G; rewrite map_length, seq_length; reflexivity).
  rewrite !cprod_Ok by (rewrite map_length, fft_length; exact LG). cbn [bind].
  set (ug := cmul2 (map RtoC G) (fft (map RtoC uin) n)).
  assert (Lug : length ug = n) by (unfold ug; rewrite cmul2_length, map_length, fft_length, LG; lia).
  rewrite cprod_Ok by (rewrite map_length, fft_length; exact Lug). cbn [bind].
  set (nf := cmul2 ug (map Cconj (fft (map RtoC win) n))).
  assert (Lnf : length nf = n) by (unfold nf; rewrite cmul2_length, map_length, fft_length, Lug; lia).
  split.
  { intro Z. assert (X : existsb (fun d => Reqb d 0) df = true) by (apply existsb_zero; rewrite Ldf; exact Z).
    cbn zeta. fold df. rewrite X. reflexivity. }
  intro NZ.
  assert (X : existsb (fun d => Reqb d 0) df = false).
  { destruct (existsb (fun d => Reqb d 0) df) eqn:X; [|reflexivity]. apply existsb_zero in X. rewrite Ldf in X.
    destruct X as (k&Hk&E). exfalso. exact (NZ k Hk E). }
  cbn zeta. fold df. rewrite X.
  set (rff := cmul2 nf (map (fun d => RtoC (/ d)) df)).
  assert (Lrff : length rff = n) by (unfold rff; rewrite cmul2_length, map_length, Ldf, Lnf; lia).
  rewrite cprod_Ok by (rewrite fft_length; exact Lrff). cbn [bind].
  pose proof (freq_list dt m Hm Hdt) as FL. cbn zeta in FL. rewrite <- En in FL.
  unfold n at 1 in FL. 
  match goal with |- context [?w ++ map Ropp ?r] => change (w ++ map Ropp r) with (w ++ map Ropp (rev (slice w 1 (length w - 1)))) end.
  fold n in FL. rewrite FL. rewrite map_map.
  rewrite cprod_Ok by (rewrite map_length, seq_length; exact Lrff). cbn [bind].
  set (ph := map (fun x => cis (- (omega dt n x * pre))) (seq 0 n)).
  assert (Lph : length ph = n) by (unfold ph; rewrite map_length, seq_length; reflexivity).
  assert (Vug : forall k, (k < n)%nat -> cnth ug k = (RtoC (gauss_gain dt n a k / dt) * dft n uin k)%C).
  { intros k Hk. unfold ug. rewrite cmul2_nth by (rewrite ?map_length, ?fft_length, ?LG; exact Hk).
    rewrite cnth_map_RtoC, fft_dft by exact Hk. unfold G. rewrite rnth_map_seq by exact Hk. reflexivity. }
  assert (Vrff : forall k, (k < n)%nat -> cnth rff k = (RtoC (gauss_gain dt n a k / dt) * dft n uin k * Cconj (dft n win k) * RtoC (/ rnth df k))%C).
  { intros k Hk. unfold rff. rewrite cmul2_nth by (rewrite ?map_length, ?Ldf, ?Lnf; exact Hk).
    unfold nf. rewrite cmul2_nth by (rewrite ?map_length, ?fft_length, ?Lug; exact Hk).
    rewrite Vug by exact Hk. rewrite cnth_map by (rewrite fft_length; exact Hk). rewrite fft_dft by exact Hk. f_equal.
    unfold cnth. rewrite (nth_indep _ C0 (RtoC (/ 0))) by (rewrite map_length, Ldf; exact Hk).
    rewrite (map_nth (fun d => RtoC (/ d))). reflexivity. }
  assert (SY : forall (X : list C) F j, length X = n -> (forall k, (k < n)%nat -> cnth X k = F k) -> (j < n)%nat ->
      rnth (map Re (ifft X n)) j = synth n F j).
  { intros Y F j LY HY Hj. rewrite rnth_map_Re, ifft_synth by exact Hj. apply synth_ext. exact HY. }
  set (rft := map Re (slice (ifft (cmul2 rff ph) n) 0 (length uin))).
  assert (Erft : rft = firstn (length uin) (map Re (ifft (cmul2 rff ph) n))).
  { unfold rft. rewrite slice_0, firstn_map. reflexivity. }
  assert (Lrft : length rft = length uin) by (rewrite Erft, firstn_length, map_length, ifft_length; lia).
  assert (Vrft : forall j, (j < length uin)%nat -> rnth rft j
     = synth n (fun k => RtoC (gauss_gain dt n a k / dt) * dft n uin k * Cconj (dft n win k) * RtoC (/ rnth df k) * cis (- (omega dt n k * pre)))%C j).
  { intros j Hj. rewrite Erft, rnth_firstn by exact Hj. apply SY; [rewrite cmul2_length, Lrff, Lph; lia| |lia].
    intros k Hk. rewrite cmul2_nth by (rewrite ?Lrff, ?Lph; exact Hk). rewrite Vrff by exact Hk. f_equal.
    unfold ph. rewrite cnth_map_seq by exact Hk. reflexivity. }
  set (ut := slice (map Re (ifft ug n)) 0 (length uin)).
  set (upt := slice (map Re (ifft (cmul2 rff (fft (map RtoC win) n)) n)) 0 (length uin)).
  assert (Lut : length ut = length uin) by (unfold ut; rewrite slice_0, firstn_length, map_length, ifft_length; lia).
  assert (Lupt : length upt = length uin) by (unfold upt; rewrite slice_0, firstn_length, map_length, ifft_length; lia).
  assert (Vut : forall j, (j < length uin)%nat -> rnth ut j = synth n (fun k => RtoC (gauss_gain dt n a k / dt) * dft n uin k)%C j).
  { intros j Hj. unfold ut. rewrite slice_0, rnth_firstn by exact Hj. apply SY; [exact Lug|exact Vug|lia]. }
  assert (Vupt : forall j, (j < length uin)%nat -> rnth upt j
     = synth n (fun k => RtoC (gauss_gain dt n a k / dt) * dft n uin k * Cconj (dft n win k) * RtoC (/ rnth df k) * dft n win k)%C j).
  { intros j Hj. unfold upt. rewrite slice_0, rnth_firstn by exact Hj. apply SY; [rewrite cmul2_length, Lrff, fft_length; lia| |lia].
    intros k Hk. rewrite cmul2_nth by (rewrite ?Lrff, ?fft_length; exact Hk). rewrite Vrff, fft_dft by exact Hk. reflexivity. }
  assert (RMS : (if Req_EM_T (sumsqR ut) 0 then None
             else Some (sumsqR (map (fun ab => fst ab - snd ab) (combine upt ut)) / sumsqR ut))
     = (let u := synth n (fun k => RtoC (gauss_gain dt n a k / dt) * dft n uin k)%C in
        let v := synth n (fun k => RtoC (gauss_gain dt n a k / dt) * dft n uin k * Cconj (dft n win k) * RtoC (/ rnth df k) * dft n win k)%C in
        if Req_EM_T (ssq (length uin) u) 0 then None
           else Some (ssq (length uin) (fun j => v j - u j) / ssq (length uin) u))).
  { cbn zeta. rewrite combine_sub' by congruence. rewrite ssq_map_seq, ssq_list, Lut.
    rewrite (ssq_ext _ (rnth ut) _ Vut). rewrite (ssq_ext _ (fun j => rnth upt j - rnth ut j) (fun j =>
       synth n (fun k => RtoC (gauss_gain dt n a k / dt) * dft n uin k * Cconj (dft n win k) * RtoC (/ rnth df k) * dft n win k)%C j
       - synth n (fun k => RtoC (gauss_gain dt n a k / dt) * dft n uin k)%C j)); [reflexivity|].
    intros j Hj. rewrite Vut, Vupt by exact Hj. reflexivity. }
  assert (GN : rsum (length G) (rnth G) * (1 / (2 * dt) / (1 / 2 * INR n)) * dt = rsum n (gauss_gain dt n a) / (INR n * dt)).
  { rewrite LG. rewrite (rsum_ext n _ (fun k => / dt * gauss_gain dt n a k)).
    - rewrite rsum_scale. field. split; assumption.
    - intros k Hk. unfold G. rewrite rnth_map_seq by exact Hk. field. exact Hdt. }
  pose proof (rsum_gain_pos dt n a Hn) as GP.
  assert (GNZ : rsum n (gauss_gain dt n a) / (INR n * dt) <> 0).
  { apply Rmult_integral_contrapositive. split; [lra|]. apply Rinv_neq_0_compat. apply Rmult_integral_contrapositive. split; assumption. }
  assert (Hev : exists m, (0 < m)%nat /\ n = (2 * m)%nat) by (exists m; split; assumption).
  assert (HMP : max_power n (dft n win) M).
  { split; [intros k Hk; rewrite <- NV by exact Hk; apply MU; exact Hk|].
    destruct ME as (k&Hk&E). exists k. split; [exact Hk|]. rewrite <- NV by exact Hk. exact E. }
  destruct norm.
  - rewrite GN. destruct (Req_EM_T (rsum n (gauss_gain dt n a) / (INR n * dt)) 0) as [E|_]; [contradiction|].
    eexists _, _. split; [reflexivity|]. constructor; try assumption; try reflexivity.
    + rewrite map_length. exact Lrft.
    + intros j Hj. rewrite (rnth_map' (fun x => x / (rsum n (gauss_gain dt n a) / (INR n * dt)))) by lia.
      rewrite Vrft by exact Hj. field. split; [|split; assumption]. lra.
  - eexists _, _. split; [reflexivity|]. constructor; try assumption; try reflexivity.
    intros j Hj. rewrite Vrft by exact Hj. ring.
Qed.

Lemma deconv_waterlevel_inv uin win dt pre wl a norm rf rms :
  deconv_waterlevel uin win dt pre wl a norm = Ok (rf, rms) ->
  exists M D, wl_run uin win dt pre wl a norm rf rms (2 ^ Nat.log2_up (length uin)) M D.
Proof.
  intro H. set (n := (2 ^ Nat.log2_up (length uin))%nat).
  assert (P : length uin = length win /\ (0 < length uin)%nat /\ Nat.even n = true /\ dt <> 0 /\ a <> 0).
  { unfold deconv_waterlevel in H.
    destruct (Nat.eqb_spec (length uin) (length win)) as [HL|]; [|discriminate]. cbn [negb] in H. split; [exact HL|].
    destruct (next_pow_2 (length uin)) as [n'|] eqn:En; [|discriminate]. cbn [bind] in H.
    pose proof (next_pow_2_Ok _ _ En) as (Hpos&_&Hn2). fold n in Hn2. subst n'. split; [exact Hpos|].
    destruct (Req_EM_T (2 * dt) 0); [discriminate|].
    destruct (@pymax RN _) as [M|]; [|discriminate]. cbn [bind] in H.
    destruct (gaussFilter dt n a) as [G|] eqn:EG; [|discriminate].
    apply gaussFilter_Ok_inv in EG. tauto. }
  destruct P as (HL&Hpos&Hev&Hdt&Ha). apply Nat.even_spec in Hev. destruct Hev as [m Em].
  assert (Hn : n <> 0%nat) by (apply Nat.pow_nonzero; lia).
  destruct (deconv_waterlevel_body uin win dt pre wl a norm m HL Hpos ltac:(lia) Em Hdt Ha) as (M&D&HM&HD&HZ&HN). fold n in HM, HD, HZ, HN.
  exists M, D.
  assert (NZ : forall k, (k < n)%nat -> D k <> 0).
  { intros k Hk E. rewrite HZ in H by (exists k; split; assumption). discriminate. }
  destruct (HN NZ) as (rf'&rms'&E&R). rewrite E in H. injection H as <- <-. exact R.
Qed.

Lemma dft_zero n x : (length x <= n)%nat -> (forall k, (k < n)%nat -> dft n x k = C0) -> all_zero x.
Proof.
  intros Hl H j. destruct (Nat.lt_ge_cases j n) as [Hj|Hj]; [|apply rnth_over'; lia].
  apply RtoC_inj. rewrite <- cnth_map_RtoC. change (RtoC 0) with C0.
  refine (fft_zero _ n _ j Hj). intros k Hk. rewrite fft_dft by exact Hk. apply H. exact Hk.
Qed.

(** The denominators are positive when the level and the source are. *)
Lemma wl_positive n win wl M : (length win <= n)%nat -> ~ all_zero win -> max_power n (dft n win) M ->
  0 < M /\ forall k, 0 < wl -> 0 < Rmax (Cnorm2 (dft n win k)) (wl * M).
Proof.
  intros Hl Hz [HU (k&Hk&E)].
  assert (HM : 0 < M).
  { destruct (Rle_lt_dec M 0) as [HM|HM]; [|exact HM]. exfalso. apply Hz. apply (dft_zero n); [exact Hl|].
    intros i Hi. apply Cnorm2_0. pose proof (Cnorm2_pos (dft n win i)). pose proof (HU i Hi). lra. }
  split; [exact HM|]. intros i Hw. apply Rlt_le_trans with (wl * M); [apply Rmult_lt_0_compat; assumption|apply Rmax_r].
Qed.
