(** * DeconProofs2: the loop of deconv_iterative. *)

From Coq Require Import Reals Lra.
From Verif Require Import Base Num NumPy HkReal Cplx DFT DFT2 SpecSignal ReverbModel DeconModel DeconProofs.
Local Open Scope R_scope.

Definition xcorr (n : nat) (r w : list R) (l : nat) : R :=
  rsum n (fun m => rnth r m * rnth w (circ n m (Z.of_nat l))).

Lemma correl_eq r w n : correl r w n = Ok (map (xcorr n r w) (seq 0 n)).
Proof.
  unfold correl. rewrite cprod_Ok by (rewrite map_length, !fft_length; reflexivity). cbn [bind]. f_equal.
  apply rlist_ext; [rewrite !map_length, seq_length, ifft_length; reflexivity|].
  rewrite map_length, ifft_length. intros j Hj. rewrite rnth_map_Re, real_correl by exact Hj.
  rewrite rnth_map_seq by exact Hj. reflexivity.
Qed.

Lemma ssq_list x : sumsqR x = ssq (length x) (rnth x).
Proof. reflexivity. Qed.
Lemma ssq_ext n f g : (forall j, (j < n)%nat -> f j = g j) -> ssq n f = ssq n g.
Proof. intro H. unfold ssq. apply rsum_ext. intros j Hj. rewrite H by exact Hj. reflexivity. Qed.
Lemma ssq_nonneg n f : 0 <= ssq n f.
Proof. apply rsum_nonneg. intros j _. apply Rle_0_sqr. Qed.
Lemma ssq_map_seq n f : sumsqR (map f (seq 0 n)) = ssq n f.
Proof.
  rewrite ssq_list, map_length, seq_length. apply ssq_ext. intros j Hj. apply rnth_map_seq. exact Hj.
Qed.
Lemma ssq_zero n f : ssq n f = 0 -> forall j, (j < n)%nat -> f j = 0.
Proof.
  intros H j Hj. pose proof (rsum_zero_all n _ (fun j _ => Rle_0_sqr (f j)) H j Hj) as Z.
  apply Rmult_integral in Z. tauto.
Qed.
Lemma ssq_circ n f L : (0 < n)%nat -> ssq n (fun j => f (circ n j L)) = ssq n f.
Proof. intro Hn. exact (rsum_circ n (fun j => f j * f j) L Hn). Qed.

Lemma ssq_sub n f h c :
  ssq n (fun j => f j - c * h j) = ssq n f - 2 * c * rsum n (fun j => f j * h j) + c * c * ssq n h.
Proof.
  unfold ssq. rewrite (rsum_ext n _ (fun j => f j * f j + (- (2 * c) * (f j * h j) + c * c * (h j * h j)))).
  - rewrite !rsum_add, !rsum_scale. ring.
  - intros j _. ring.
Qed.

(** Adding a spike adds a delayed copy of [w]. *)
Lemma cconv_spike n p p' l b w j : (l < n)%nat -> spike_added n p p' l b ->
  cconv n p' w j = cconv n p w j + b * rnth w (circ n j (Z.of_nat l)).
Proof.
  intros Hl (_&_&H). unfold cconv.
  rewrite (rsum_ext n _ (fun m => rnth p m * rnth w (circ n j (Z.of_nat m)) + (if (m =? l)%nat then b else 0) * rnth w (circ n j (Z.of_nat m)))).
  - rewrite rsum_add. f_equal. rewrite (rsum_single n _ l Hl).
    + rewrite Nat.eqb_refl. reflexivity.
    + intros m _ Hne. destruct (Nat.eqb_spec m l); [contradiction|ring].
  - intros m Hm. rewrite H. ring.
Qed.

Lemma slice0Z_lim (A : Type) n (l : list A) : length l = n -> (2 <= n)%nat ->
  slice0Z l (Z.of_nat (n / 2) - 1) = firstn (n / 2 - 1) l.
Proof.
  intros Ll H2. assert (1 <= n / 2)%nat by (apply Nat.div_le_lower_bound; lia).
  unfold slice0Z. destruct (Z.ltb_spec (Z.of_nat (n / 2) - 1) 0); [lia|]. f_equal. lia.
Qed.

Lemma getitem_rnth (l : list R) i : (i < length l)%nat -> getitem l i = Ok (rnth l i).
Proof. intro H. apply getitem_Ok. unfold rnth. apply nth_error_nth'. exact H. Qed.

Lemma rnth_upd (l : list R) i v j : (i < length l)%nat ->
  rnth (upd l i v) j = if (j =? i)%nat then v else rnth l j.
Proof.
  intro H. unfold rnth. destruct (Nat.eqb_spec j i) as [->|Hne].
  - apply nth_error_nth. apply nth_error_upd_eq. exact H.
  - destruct (Nat.lt_ge_cases j (length l)) as [Hj|Hj].
    + apply nth_error_nth. rewrite nth_error_upd_neq by congruence. apply nth_error_nth'. exact Hj.
    + rewrite !nth_overflow by (rewrite ?upd_length; exact Hj). reflexivity.
Qed.

Lemma argmax_R (l : list R) k : @argmax RN l = Ok k ->
  (k < length l)%nat /\ (forall i, (i < length l)%nat -> rnth l i <= rnth l k) /\
  (forall i, (i < k)%nat -> rnth l i < rnth l k).
Proof.
  intro E. pose proof (argmax_first_best RN_laws l k E) as (v&Hv&H).
  change (F RN) with R in *.
  assert (Hk : (k < length l)%nat) by (apply nth_error_Some; rewrite Hv; discriminate).
  split; [exact Hk|]. assert (Ev : rnth l k = v) by (unfold rnth; apply nth_error_nth; exact Hv).
  destruct H as [[N _]|(_&H1&H2)]; [discriminate|]. rewrite Ev. split.
  - intros i Hi. destruct (H1 i (rnth l i)) as [_ G]; [unfold rnth; apply nth_error_nth'; exact Hi|].
    apply Rleb_true. exact G.
  - intros i Hi. assert (Hi' : (i < length l)%nat) by lia.
    apply Rnot_le_lt. intro G. apply (H2 i (rnth l i) Hi); [unfold rnth; apply nth_error_nth'; exact Hi'|].
    apply Rleb_true. exact G.
Qed.

Section Loop.
Variables (dt minderr a : R) (itmax n : nat) (phaseP : bool) (u w0 : list R).
Hypothesis (Hn : (0 < n)%nat) (Hdt : dt <> 0) (Lu : length u = n) (Lw0 : length w0 = n).

Let g := gauss_pulse dt n a.
Let w := map (cconv n w0 g) (seq 0 n).
Let gaussF := map (fun k => gauss_gain dt n a k / dt) (seq 0 n).
Let wf := fft (map RtoC w0) n.
Let lim := if phaseP then (n / 2 - 1)%nat else n.
Let pw := ssq n (rnth w).
Let pu := ssq n (rnth u).
Let mf := misfit dt n u w.

Lemma Lw : length w = n.
Proof. unfold w. rewrite map_length, seq_length. reflexivity. Qed.
Lemma lim_le : (lim <= n)%nat.
Proof. unfold lim. destruct phaseP; [|lia]. pose proof (Nat.div_le_upper_bound n 2 n). lia. Qed.

Lemma p_flt_eq p0 :
  (pf1 <- gfilter p0 n (map RtoC gaussF) dt ;; gfilter pf1 n wf dt)
  = Ok (map (fun j => dt * cconv n p0 w j) (seq 0 n)).
Proof.
  unfold gaussF. rewrite gfilter_gauss by assumption. cbn [bind]. fold g.
  destruct (gfilter_herm (map (cconv n p0 g) (seq 0 n)) n wf dt Hn) as [E _].
  - unfold wf. apply fft_length.
  - unfold wf. apply fft_real_herm. exact Hn.
  - rewrite E. f_equal. unfold wf. rewrite response_fft by assumption.
    apply rlist_ext; [rewrite !map_length; reflexivity|]. rewrite map_length, seq_length. intros j Hj.
    rewrite !rnth_map_seq by exact Hj. rewrite cconv_scale_r by assumption. f_equal.
    rewrite cconv_assoc by exact Hn. apply cconv_ext; [exact Hn|reflexivity|].
    intros m Hm. unfold w. rewrite !rnth_map_seq by exact Hm. apply cconv_comm. exact Hn.
Qed.

Definition resid (p : list R) : list R := map (fun j => rnth u j - dt * cconv n p w j) (seq 0 n).

Lemma resid_nth p j : (j < n)%nat -> rnth (resid p) j = rnth u j - dt * cconv n p w j.
Proof. intro H. unfold resid. rewrite rnth_map_seq by exact H. reflexivity. Qed.
Lemma misfit_resid p : mf p = ssq n (rnth (resid p)) / pu.
Proof.
  unfold mf, misfit. fold pu. f_equal. apply ssq_ext. intros j Hj. rewrite resid_nth by exact Hj. reflexivity.
Qed.

(** Effect of a spike of amplitude [b] at lag [l] on the residual energy. *)
Lemma spike_energy p p' l b : (l < n)%nat -> spike_added n p p' l b ->
  ssq n (rnth (resid p')) = ssq n (rnth (resid p)) - 2 * (b * dt) * xcorr n (resid p) w l + (b * dt) * (b * dt) * pw.
Proof.
  intros Hl S.
  rewrite (ssq_ext n _ (fun j => rnth (resid p) j - (b * dt) * rnth w (circ n j (Z.of_nat l)))).
  - rewrite ssq_sub. unfold xcorr, pw. rewrite (ssq_circ n (rnth w)) by exact Hn. ring.
  - intros j Hj. rewrite !resid_nth by exact Hj. rewrite (cconv_spike n p p' l b) by assumption. ring.
Qed.

Lemma combine_sub (x y : list R) : length x = n -> length y = n ->
  map (fun ab => fst ab - snd ab) (combine x y) = map (fun j => rnth x j - rnth y j) (seq 0 n).
Proof.
  intros Lx Ly. apply rlist_ext; [rewrite !map_length, combine_length, seq_length; lia|].
  rewrite map_length, combine_length. intros j Hj. rewrite rnth_map_seq by lia. unfold rnth at 1.
  rewrite (nth_indep _ 0 ((fun ab : R * R => fst ab - snd ab) (0, 0))) by (rewrite map_length, combine_length; lia).
  rewrite (map_nth (fun ab : R * R => fst ab - snd ab)). rewrite combine_nth by lia. reflexivity.
Qed.




(** The candidate amplitudes. *)
Definition rwl (p : list R) : list R := map (fun l => xcorr n (resid p) w l / pw) (seq 0 n).

Definition candl (p : list R) : list R := map Rabs (if phaseP then slice0Z (rwl p) (Z.of_nat (n / 2) - 1) else rwl p).

Lemma rwl_length p : length (rwl p) = n.
Proof. unfold rwl. rewrite map_length, seq_length. reflexivity. Qed.

Lemma candl_eq p : (2 <= n)%nat -> candl p = map (fun l => Rabs (xcorr n (resid p) w l / pw)) (seq 0 lim).
Proof.
  intro H2. unfold candl, lim. destruct phaseP.
  - rewrite slice0Z_lim by (auto using rwl_length). unfold rwl. rewrite firstn_map, map_map. f_equal.
    assert (n / 2 <= n)%nat by (apply Nat.div_le_upper_bound; lia).
    replace n with ((n / 2 - 1) + (n - (n / 2 - 1)))%nat at 2 by lia.
    rewrite seq_app, firstn_app, seq_length, Nat.sub_diag, firstn_O, app_nil_r.
    rewrite firstn_all2 by (rewrite seq_length; lia). reflexivity.
  - unfold rwl. rewrite map_map. reflexivity.
Qed.


(** One turn of the loop, from a state whose residual is consistent. *)
Definition Inv (s : dstate) : Prop :=
  length (d_p0 s) = n /\ d_r s = resid (d_p0 s) /\ length (d_rms s) = itmax.

Lemma dstep_eq s : Inv s -> (2 <= n)%nat ->
  dstep dt n phaseP gaussF u w wf pu s =
  if Req_EM_T pw 0 then Err NaNResult else
  i1 <- @argmax RN (map (fun l => Rabs (xcorr n (resid (d_p0 s)) w l / pw)) (seq 0 lim)) ;;
  let p' := upd (d_p0 s) i1 (rnth (d_p0 s) i1 + xcorr n (resid (d_p0 s)) w i1 / pw / dt) in
  if Req_EM_T pu 0 then Err NaNResult else
  if (d_it s <? itmax)%nat then
    Ok (mkD p' (resid p') (upd (d_rms s) (d_it s) (mf p')) (100 * (d_sumsq s - mf p')) (mf p') (S (d_it s)))
  else Err IndexError.
Proof.
  intros (L1&Er&L2) H2. unfold dstep. rewrite correl_eq. cbn [bind].
  rewrite ssq_list, Lw. fold pw.
  destruct (Req_EM_T pw 0) as [_|Hpw]; [reflexivity|].
  rewrite Er. rewrite map_map. change (map (fun x => xcorr n (resid (d_p0 s)) w x / pw) (seq 0 n)) with (rwl (d_p0 s)).
  change (map Rabs (if phaseP then slice0Z (rwl (d_p0 s)) (Z.of_nat (n / 2) - 1) else rwl (d_p0 s))) with (candl (d_p0 s)).
  rewrite candl_eq by exact H2.
  destruct (@argmax RN _) as [i1|e] eqn:EA; [|reflexivity]. cbn [bind].
  apply argmax_R in EA. rewrite map_length, seq_length in EA. destruct EA as (Hi&_).
  pose proof lim_le as HL. assert (Hi' : (i1 < n)%nat) by lia.
  rewrite getitem_rnth by (rewrite rwl_length; exact Hi'). cbn [bind].
  destruct (Req_EM_T dt 0) as [E|_]; [contradiction|].
  rewrite getitem_rnth by (rewrite L1; exact Hi'). cbn [bind].
  assert (ES : setitem (d_p0 s) i1 (rnth (d_p0 s) i1 + rnth (rwl (d_p0 s)) i1 / dt)
            = Ok (upd (d_p0 s) i1 (rnth (d_p0 s) i1 + rnth (rwl (d_p0 s)) i1 / dt))).
  { apply setitem_Ok. split; [rewrite L1; exact Hi'|reflexivity]. }
  rewrite ES. cbn [bind].
  assert (Erw : rnth (rwl (d_p0 s)) i1 = xcorr n (resid (d_p0 s)) w i1 / pw) by (unfold rwl; rewrite rnth_map_seq by exact Hi'; reflexivity).
  rewrite Erw. cbn zeta. set (p' := upd _ _ _).
  pose proof (p_flt_eq p') as EP. apply bind_Ok_inv in EP. destruct EP as (pf1&EP1&EP2).
  rewrite EP1. cbn [bind]. rewrite EP2. cbn [bind].
  rewrite combine_sub by (rewrite ?map_length, ?seq_length; auto).
  assert (ER : map (fun j => rnth u j - rnth (map (fun j0 => dt * cconv n p' w j0) (seq 0 n)) j) (seq 0 n) = resid p').
  { unfold resid. apply rlist_ext; [rewrite !map_length; reflexivity|]. rewrite map_length, seq_length. intros j Hj.
    rewrite !rnth_map_seq by exact Hj. reflexivity. }
  rewrite ER. destruct (Req_EM_T pu 0) as [_|Hpu]; [reflexivity|].
  assert (EM : sumsqR (resid p') / pu = mf p').
  { rewrite misfit_resid. f_equal. rewrite ssq_list. unfold resid at 1. rewrite map_length, seq_length. reflexivity. }
  rewrite EM. unfold setitem. rewrite L2. destruct (d_it s <? itmax)%nat; reflexivity.
Qed.

Lemma spike_upd p i v : (i < n)%nat -> length p = n -> spike_added n p (upd p i (rnth p i + v)) i v.
Proof.
  intros Hi Lp. split; [exact Lp|]. split; [rewrite upd_length; exact Lp|].
  intro j. rewrite rnth_upd by lia. destruct (Nat.eqb_spec j i) as [->|]; ring.
Qed.

(** The chosen spike is optimal among all single spikes. *)
Lemma greedy_opt p i1 : (i1 < lim)%nat -> length p = n -> 0 < pw -> 0 < pu ->
  (forall i, (i < lim)%nat -> Rabs (xcorr n (resid p) w i / pw) <= Rabs (xcorr n (resid p) w i1 / pw)) ->
  (forall i, (i < i1)%nat -> Rabs (xcorr n (resid p) w i / pw) < Rabs (xcorr n (resid p) w i1 / pw)) ->
  let p' := upd p i1 (rnth p i1 + xcorr n (resid p) w i1 / pw / dt) in
  greedy_step dt n lim u w p p' /\
  mf p' = mf p - (xcorr n (resid p) w i1) ^ 2 / (pw * pu).
Proof.
  intros Hi Lp Hpw Hpu Hmax Hfirst p'. pose proof lim_le as HL.
  assert (Hpw0 : pw <> 0) by (apply Rgt_not_eq; exact Hpw). assert (Hpu0 : pu <> 0) by (apply Rgt_not_eq; exact Hpu).
  assert (SA : spike_added n p p' i1 (xcorr n (resid p) w i1 / pw / dt)) by (apply spike_upd; [lia|exact Lp]).
  assert (E1 : ssq n (rnth (resid p')) = ssq n (rnth (resid p)) - (xcorr n (resid p) w i1) ^ 2 / pw).
  { rewrite (spike_energy p p' i1 _ ltac:(lia) SA).
    replace (xcorr n (resid p) w i1 / pw / dt * dt) with (xcorr n (resid p) w i1 / pw) by (field; auto).
    field. exact Hpw0. }
  split.
  - exists i1, (xcorr n (resid p) w i1 / pw / dt). split; [exact Hi|]. split; [exact SA|].
    intros l b p'' Hl SA'. fold mf. rewrite !misfit_resid.
    rewrite E1, (spike_energy p p'' l b ltac:(lia) SA').
    set (X := xcorr n (resid p) w) in *.
    assert (Hq : 0 <= pw * (b * dt - X l / pw) ^ 2).
    { apply Rmult_le_pos; [left; exact Hpw|]. apply pow2_ge_0. }
    replace (pw * (b * dt - X l / pw) ^ 2) with (- (2 * (b * dt) * X l) + b * dt * (b * dt) * pw + X l ^ 2 / pw) in Hq by (field; exact Hpw0).
    assert (Hip : 0 < / pw) by (apply Rinv_0_lt_compat; exact Hpw).
    assert (Hap : 0 < Rabs (/ pw)) by (apply Rabs_pos_lt; apply Rinv_neq_0_compat; exact Hpw0).
    split.
    + apply Rmult_le_compat_r; [left; apply Rinv_0_lt_compat; exact Hpu|].
      specialize (Hmax l Hl).
      assert (Hsq : (X l) ^ 2 <= (X i1) ^ 2).
      { unfold Rdiv in Hmax. rewrite !Rabs_mult in Hmax. apply Rmult_le_reg_r in Hmax; [|exact Hap].
        rewrite <- !Rsqr_pow2. apply Rsqr_le_abs_1. exact Hmax. }
      assert (X l ^ 2 / pw <= X i1 ^ 2 / pw) by (apply Rmult_le_compat_r; [left; exact Hip|exact Hsq]).
      lra.
    + intro Hlt. apply Rmult_lt_compat_r; [apply Rinv_0_lt_compat; exact Hpu|].
      specialize (Hfirst l Hlt).
      assert (Hsq : (X l) ^ 2 < (X i1) ^ 2).
      { unfold Rdiv in Hfirst. rewrite !Rabs_mult in Hfirst. apply Rmult_lt_reg_r in Hfirst; [|exact Hap].
        rewrite <- !Rsqr_pow2. apply Rsqr_lt_abs_1. exact Hfirst. }
      assert (X l ^ 2 / pw < X i1 ^ 2 / pw) by (apply Rmult_lt_compat_r; [exact Hip|exact Hsq]).
      lra.
  - rewrite !misfit_resid, E1. field. auto.
Qed.

Lemma pos_of_neq x : 0 <= x -> x <> 0 -> 0 < x.
Proof. lra. Qed.
Lemma pw_nonneg : 0 <= pw. Proof. apply ssq_nonneg. Qed.
Lemma pu_nonneg : 0 <= pu. Proof. apply ssq_nonneg. Qed.

(** What a completed turn does. *)
Lemma dstep_Ok s s' : Inv s -> (2 <= n)%nat -> dstep dt n phaseP gaussF u w wf pu s = Ok s' ->
  Inv s' /\ 0 < pw /\ 0 < pu /\ greedy_step dt n lim u w (d_p0 s) (d_p0 s') /\
  mf (d_p0 s') <= mf (d_p0 s) /\
  (d_it s < itmax)%nat /\ d_it s' = S (d_it s) /\ d_sumsq s' = mf (d_p0 s') /\
  d_err s' = 100 * (d_sumsq s - mf (d_p0 s')) /\ d_rms s' = upd (d_rms s) (d_it s) (mf (d_p0 s')).
Proof.
  intros HI H2 E. rewrite dstep_eq in E by assumption.
  destruct (Req_EM_T pw 0) as [|Hpw]; [discriminate|].
  destruct (@argmax RN _) as [i1|e] eqn:EA; [|discriminate]. cbn [bind] in E.
  destruct (Req_EM_T pu 0) as [|Hpu]; [discriminate|].
  destruct (Nat.ltb_spec (d_it s) itmax) as [Hit|]; [|discriminate]. cbn zeta in E. injection E as <-.
  cbn [d_p0 d_r d_rms d_err d_sumsq d_it].
  pose proof (pos_of_neq _ pw_nonneg Hpw) as Hpw'. pose proof (pos_of_neq _ pu_nonneg Hpu) as Hpu'.
  destruct HI as (L1&Er&L2). apply argmax_R in EA. rewrite map_length, seq_length in EA. destruct EA as (Hi&Hmax&Hfirst).
  destruct (greedy_opt (d_p0 s) i1 Hi L1 Hpw' Hpu') as [G1 G2].
  { intros i Hi2. specialize (Hmax i Hi2). rewrite !rnth_map_seq in Hmax by assumption. exact Hmax. }
  { intros i Hi2. specialize (Hfirst i Hi2). rewrite !rnth_map_seq in Hfirst by lia. exact Hfirst. }
  split; [split; [cbn; rewrite upd_length; exact L1|]; split; [reflexivity|cbn; rewrite upd_length; exact L2]|].
  split; [exact Hpw'|]. split; [exact Hpu'|]. split; [exact G1|]. split; [|auto].
  rewrite G2. assert (0 <= xcorr n (resid (d_p0 s)) w i1 ^ 2 / (pw * pu)).
  { apply Rmult_le_pos; [apply pow2_ge_0|]. left. apply Rinv_0_lt_compat. apply Rmult_lt_0_compat; assumption. }
  lra.
Qed.

(** A turn completes whenever the source is not silent and there is a lag to choose. *)
Lemma dstep_total s : Inv s -> (2 <= n)%nat -> (0 < lim)%nat -> 0 < pw -> 0 < pu -> (d_it s < itmax)%nat ->
  exists s', dstep dt n phaseP gaussF u w wf pu s = Ok s'.
Proof.
  intros HI H2 Hlim Hpw Hpu Hit. rewrite dstep_eq by assumption.
  destruct (Req_EM_T pw 0); [lra|].
  destruct (@argmax_Ok_iff RN (map (fun l => Rabs (xcorr n (resid (d_p0 s)) w l / pw)) (seq 0 lim))) as (k&Ek&_).
  { destruct lim; [lia|discriminate]. }
  rewrite Ek. cbn [bind]. destruct (Req_EM_T pu 0); [lra|].
  destruct (Nat.ltb_spec (d_it s) itmax); [|lia]. eexists. reflexivity.
Qed.

Definition big (x : R) : Prop := minderr < Rabs x.

(** The whole loop. *)
Lemma dloop_run fuel : forall s s', Inv s -> (2 <= n)%nat -> (itmax - d_it s <= fuel)%nat ->
  dloop dt minderr itmax n phaseP gaussF u w wf pu fuel s = Ok s' ->
  exists Ps, greedy_run dt n lim u w (d_p0 s) Ps /\
    d_p0 s' = last Ps (d_p0 s) /\ Inv s' /\
    d_it s' = (d_it s + length Ps)%nat /\
    (Ps <> [] -> 0 < pw /\ 0 < pu /\ (d_it s' <= itmax)%nat /\ d_sumsq s' = mf (d_p0 s')) /\
    (forall i, rnth (d_rms s') i =
       if (d_it s <=? i)%nat && (i <? d_it s + length Ps)%nat then mf (nth (i - d_it s) Ps []) else rnth (d_rms s) i) /\
    (Ps = [] -> s' = s) /\
    (Ps <> [] -> big (d_err s)) /\
    (forall i p p', nth_error Ps i = Some p -> nth_error Ps (S i) = Some p' ->
       mf p' <= mf p /\ big (100 * (if (i =? 0)%nat then d_sumsq s - mf p
                                     else mf (nth (i - 1) Ps []) - mf p))) /\
    (forall p, nth_error Ps 0 = Some p -> mf p <= mf (d_p0 s)) /\
    (forall p, Ps <> [] -> nth_error Ps (length Ps - 1) = Some p ->
       d_err s' = 100 * (if (length Ps =? 1)%nat then d_sumsq s - mf p else mf (nth (length Ps - 2) Ps []) - mf p)) /\
    ((d_it s' < itmax)%nat -> ~ big (d_err s')).
Proof.
  induction fuel as [|fuel IH]; intros s s' HI H2 Hf E; cbn [dloop] in E.
  - injection E as <-. exists []. cbn [length last greedy_run]. rewrite Nat.add_0_r.
    repeat split; auto; try congruence; try (intros; destruct i; discriminate); try apply HI.
    + intro i. destruct (Nat.leb_spec (d_it s) i), (Nat.ltb_spec i (d_it s)); simpl; auto; lia.
    + intros p H; discriminate.
    + intro H. lia.
  - destruct (Rltb minderr (Rabs (d_err s))) eqn:EB; cbn [andb] in E.
    2:{ injection E as <-. exists []. cbn [length last greedy_run]. rewrite Nat.add_0_r.
        repeat split; auto; try congruence; try (intros; destruct i; discriminate); try apply HI.
        + intro i. destruct (Nat.leb_spec (d_it s) i), (Nat.ltb_spec i (d_it s)); simpl; auto; lia.
        + intros p H; discriminate.
        + intros _. unfold big. apply Rltb_false in EB. lra. }
    destruct (Nat.ltb_spec (d_it s) itmax) as [Hit|Hit]; cbn [andb] in E.
    2:{ injection E as <-. exists []. cbn [length last greedy_run]. rewrite Nat.add_0_r.
        repeat split; auto; try congruence; try (intros; destruct i; discriminate); try apply HI.
        + intro i. destruct (Nat.leb_spec (d_it s) i), (Nat.ltb_spec i (d_it s)); simpl; auto; lia.
        + intros p H; discriminate.
        + intro H. lia. }
    apply bind_Ok_inv in E. destruct E as (s1&E1&E).
    destruct (dstep_Ok s s1 HI H2 E1) as (HI1&Hpw&Hpu&G&Hle&_&Hit1&Hs1&He1&Hr1).
    destruct (IH s1 s' HI1 H2 ltac:(lia) E) as (Ps&R1&R2&R3&R4&R5&R6&R7&R8&R9&R10&R11&R12).
    exists (d_p0 s1 :: Ps).
    split; [cbn; auto|]. split; [rewrite R2; destruct Ps; [reflexivity|]; simpl; clear; revert l; induction Ps as [|q Ps IH]; intro; [reflexivity|apply IH]|].
    split; [exact R3|]. split; [cbn; lia|].
    split.
    { intros _. split; [exact Hpw|]. split; [exact Hpu|].
      destruct Ps as [|q Ps]; [rewrite (R7 eq_refl); split; [lia|exact Hs1]|].
      destruct (R5 ltac:(discriminate)) as (_&_&X&Y). auto. }
    split.
    { intro i. rewrite R6, Hr1, rnth_upd by (destruct HI as (_&_&->); exact Hit). rewrite Hit1. cbn [length].
      destruct (Nat.leb_spec (S (d_it s)) i), (Nat.leb_spec (d_it s) i); try lia; cbn [andb];
      destruct (Nat.ltb_spec i (S (d_it s) + length Ps)), (Nat.ltb_spec i (d_it s + S (length Ps))); try lia; auto;
      destruct (Nat.eqb_spec i (d_it s)); try lia; auto.
      + replace (i - d_it s)%nat with (S (i - S (d_it s))) by lia. reflexivity.
      + subst i. rewrite Nat.sub_diag. reflexivity. }
    split; [discriminate|]. split; [intros _; unfold big; apply Rltb_true; exact EB|].
    split.
    { intros i p p' Hp Hp'. destruct i as [|i]; cbn in Hp, Hp'.
      - injection Hp as <-. split; [apply R10; exact Hp'|]. cbn.
        assert (Ps <> []) by (intros ->; discriminate). specialize (R8 H). rewrite He1 in R8. exact R8.
      - destruct (R9 i p p' Hp Hp') as [B1 B2]. split; [exact B1|]. cbn [Nat.eqb].
        replace (S i - 1)%nat with i by lia. destruct i as [|i].
        + cbn in B2 |- *. rewrite <- Hs1. exact B2.
        + cbn [Nat.eqb] in B2. replace (S i - 1)%nat with i in B2 by lia. cbn. exact B2. }
    split; [intros p Hp; cbn in Hp; injection Hp as <-; exact Hle|].
    split.
    { intros p _ Hp. cbn [length] in Hp |- *. destruct Ps as [|q Ps].
      - cbn in Hp. injection Hp as <-. rewrite (R7 eq_refl). cbn. exact He1.
      - replace (S (length (q :: Ps)) - 1)%nat with (S (length (q :: Ps) - 1)) in Hp by (cbn; lia). cbn [nth_error] in Hp.
        rewrite (R11 p ltac:(discriminate) Hp). cbn [length Nat.eqb].
        replace (S (S (length Ps)) - 2)%nat with (length Ps) by lia.
        destruct Ps as [|q2 Ps]; cbn [length Nat.eqb].
        + cbn. rewrite Hs1. reflexivity.
        + replace (S (S (length Ps)) - 2)%nat with (length Ps) by lia. cbn. reflexivity. }
    exact R12.
Qed.

Lemma dloop_total fuel : forall s, Inv s -> (2 <= n)%nat -> (0 < lim)%nat -> 0 < pw -> 0 < pu ->
  exists s', dloop dt minderr itmax n phaseP gaussF u w wf pu fuel s = Ok s'.
Proof.
  induction fuel as [|fuel IH]; intros s HI H2 Hl Hpw Hpu; cbn [dloop]; [eauto|].
  destruct (Rltb minderr (Rabs (d_err s)) && (d_it s <? itmax)%nat) eqn:EB; [|eauto].
  apply andb_true_iff in EB. destruct EB as [_ Hit]. apply Nat.ltb_lt in Hit.
  destruct (dstep_total s HI H2 Hl Hpw Hpu Hit) as [s1 E1]. rewrite E1. cbn [bind].
  apply IH; auto. apply (dstep_Ok s s1); assumption.
Qed.
End Loop.
