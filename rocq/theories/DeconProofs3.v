(** * DeconProofs3: phaseshift and the whole of deconv_iterative. *)

From Coq Require Import Reals Lra.
From Verif Require Import Base Num NumPy HkReal Cplx DFT DFT2 SpecSignal ReverbModel DeconModel DeconProofs DeconProofs2.
Local Open Scope R_scope.

(** ** phaseshift *)
Lemma phaseshift_eq x n dt pre : (0 < n)%nat -> dt <> 0 ->
  let s := Rtrunc (pre / dt) in
  phaseshift x n dt pre =
  if Req_EM_T (cos (2 * PI * IZR s / INR n)) 0 then Err NaNResult
  else Ok (map (fun j => rnth x (circ n j s)) (seq 0 n)).
Proof.
  intros Hn Hdt s. unfold phaseshift. destruct (Req_EM_T dt 0); [contradiction|]. fold s.
  rewrite cprod_Ok by (rewrite !map_length, seq_length, fft_length; reflexivity). cbn [bind].
  destruct (Req_EM_T (cos (2 * PI * IZR s / INR n)) 0) as [|Hc]; [reflexivity|]. f_equal.
  set (G := map (fun a => (cos a, - sin a)) (map (fun k => 2 * PI * INR k * IZR s / INR n) (seq 1 n))).
  assert (LG : length G = n) by (unfold G; rewrite !map_length, seq_length; reflexivity).
  assert (HG : forall k, (k < n)%nat -> cnth G k = (W n (- s) * W n (- (s * Z.of_nat k)))%C).
  { intros k Hk. unfold G. rewrite map_map. rewrite <- seq_shift, map_map. rewrite cnth_map_seq by exact Hk.
    rewrite <- W_add. replace (- s + - (s * Z.of_nat k))%Z with (- (s * Z.of_nat (S k)))%Z by lia.
    rewrite W_opp. unfold W. rewrite mult_IZR, <- INR_IZR_INZ.
    replace (2 * PI * (IZR s * INR (S k)) / INR n) with (2 * PI * INR (S k) * IZR s / INR n) by (unfold Rdiv; ring).
    unfold cis. creal; reflexivity. }
  assert (HK : forall t, kernel G n t = (W n (- s) * (if ((t - s) mod Z.of_nat n =? 0)%Z then C1 else C0))%C).
  { intro t. set (G0 := map (fun k => W n (- (s * Z.of_nat k))) (seq 0 n)).
    rewrite <- (kernel_shift n s t G0 Hn) by (intros k Hk; unfold G0; rewrite cnth_map_seq by exact Hk; reflexivity).
    unfold kernel. rewrite (csum_ext n _ (fun k => W n (- s) * (cnth G0 k * W n (t * Z.of_nat k)))%C).
    - rewrite csum_scale. ring.
    - intros k Hk. rewrite HG by exact Hk. unfold G0. rewrite cnth_map_seq by exact Hk. ring. }
  apply rlist_ext; [rewrite !map_length, ifft_length, seq_length; reflexivity|].
  rewrite map_length, ifft_length. intros j Hj. rewrite rnth_map_seq by exact Hj.
  assert (E : cnth (ifft (cmul2 (fft (map RtoC x) n) G) n) j = (W n (- s) * RtoC (rnth x (circ n j s)))%C).
  { rewrite fft_filter by assumption.
    rewrite (csum_ext n _ (fun m => W n (- s) * (cnth (map RtoC x) m * (if ((Z.of_nat j - Z.of_nat m - s) mod Z.of_nat n =? 0)%Z then C1 else C0)))%C).
    - rewrite csum_scale. rewrite (csum_shift_pick n j s (fun m => cnth (map RtoC x) m) Hn). rewrite cnth_map_RtoC. reflexivity.
    - intros m Hm. rewrite HK. ring. }
  unfold rnth at 1. rewrite (nth_indep _ 0 (Re (C0 * RtoC (/ cos (2 * PI * IZR s / INR n)))%C)) by (rewrite map_length, ifft_length; exact Hj).
  rewrite (map_nth (fun z => Re (z * RtoC (/ cos (2 * PI * IZR s / INR n)))%C)).
  change (nth j (ifft (cmul2 (fft (map RtoC x) n) G) n) C0) with (cnth (ifft (cmul2 (fft (map RtoC x) n) G) n) j).
  rewrite E, W_opp. unfold W, cis. cunf. field. exact Hc.
Qed.

(** ** The Gaussian gain never vanishes: filtering keeps non-zero signals non-zero *)
Lemma gauss_gain_pos dt n a k : 0 < gauss_gain dt n a k.
Proof. apply exp_pos. Qed.

Lemma zpad_length n x : (length x <= n)%nat -> length (zpad n x) = n.
Proof. intro H. unfold zpad. rewrite app_length, repeat_length. lia. Qed.
Lemma zpad_nth n x j : rnth (zpad n x) j = rnth x j.
Proof.
  unfold zpad, rnth. destruct (Nat.lt_ge_cases j (length x)) as [H|H].
  - apply app_nth1. exact H.
  - rewrite app_nth2 by exact H. rewrite (nth_overflow x) by exact H. apply nth_repeat.
Qed.
Lemma gfilt_length dt n a x : length (gfilt dt n a x) = n.
Proof. unfold gfilt. rewrite map_length, seq_length. reflexivity. Qed.

Lemma gfilt_spectrum dt n a x k : (0 < n)%nat -> dt <> 0 -> (k < n)%nat ->
  cnth (fft (map RtoC (gfilt dt n a x)) n) k
  = (cnth (fft (map RtoC (zpad n x)) n) k * RtoC (gauss_gain dt n a k))%C.
Proof.
  intros Hn Hdt Hk.
  set (G := map RtoC (map (fun k => gauss_gain dt n a k / dt) (seq 0 n))).
  assert (LG : length G = n) by (unfold G; rewrite !map_length, seq_length; reflexivity).
  destruct (gfilter_herm (zpad n x) n G dt Hn LG (gain_herm dt n a Hn)) as [_ E].
  unfold G in E at 1. rewrite response_gauss in E by assumption. fold (gfilt dt n a x) in E.
  rewrite E, fft_ifft by exact Hk. rewrite cmul2_nth by (rewrite ?map_length, ?fft_length, ?LG; exact Hk).
  f_equal. rewrite cnth_map by (rewrite LG; exact Hk). unfold G. rewrite cnth_map_RtoC, rnth_map_seq by exact Hk.
  rewrite <- RtoC_mul. f_equal. field. exact Hdt.
Qed.

Lemma gfilt_nonzero dt n a x : (0 < n)%nat -> dt <> 0 -> (length x <= n)%nat -> ~ all_zero x ->
  0 < ssq n (rnth (gfilt dt n a x)).
Proof.
  intros Hn Hdt Hl Hz. apply pos_of_neq; [apply ssq_nonneg|]. intro E. apply Hz.
  assert (Z : forall j, (j < n)%nat -> cnth (map RtoC (zpad n x)) j = C0).
  { apply fft_zero. intros k Hk.
    assert (P : (cnth (fft (map RtoC (zpad n x)) n) k * RtoC (gauss_gain dt n a k))%C = C0).
    { rewrite <- gfilt_spectrum by assumption. rewrite fft_nth by exact Hk.
      rewrite (csum_ext n _ (fun _ => C0)); [apply csum_0|]. intros j Hj.
      rewrite cnth_map_RtoC, (ssq_zero n _ E j Hj). change (RtoC 0) with C0. ring. }
    apply Cmul_0 in P. destruct P as [P|P]; [exact P|]. exfalso.
    apply (RtoC_neq0 (gauss_gain dt n a k)); [apply Rgt_not_eq; apply gauss_gain_pos|exact P]. }
  intro j. destruct (Nat.lt_ge_cases j n) as [Hj|Hj]; [|apply rnth_over'; lia].
  specialize (Z j Hj). rewrite cnth_map_RtoC, zpad_nth in Z. apply RtoC_inj. exact Z.
Qed.

Lemma gfilt_zero dt n a x : (0 < n)%nat -> all_zero x -> forall j, rnth (gfilt dt n a x) j = 0.
Proof.
  intros Hn Hz j. destruct (Nat.lt_ge_cases j n) as [Hj|Hj]; [|apply rnth_over'; rewrite gfilt_length; exact Hj].
  unfold gfilt. rewrite cconv_list by exact Hj. unfold cconv.
  rewrite (rsum_ext n _ (fun _ => 0)) by (intros m _; rewrite zpad_nth, Hz; ring). apply rsum_0.
Qed.

(** ** The first misfit *)
Lemma rnth_repeat0 n j : rnth (repeat 0 n) j = 0.
Proof. unfold rnth. apply nth_repeat. Qed.
Lemma cconv_zero n w j : cconv n (repeat 0 n) w j = 0.
Proof.
  unfold cconv. rewrite (rsum_ext n _ (fun _ => 0)) by (intros m _; rewrite rnth_repeat0; ring). apply rsum_0.
Qed.
Lemma misfit_zero dt n u w : 0 < ssq n (rnth u) -> misfit dt n u w (repeat 0 n) = 1.
Proof.
  intro H. unfold misfit. rewrite (ssq_ext n _ (rnth u)); [field; lra|].
  intros j _. rewrite cconv_zero. ring.
Qed.
Lemma resid_zero dt n u w0 a : length u = n -> resid dt a n u w0 (repeat 0 n) = u.
Proof.
  intro L. apply rlist_ext; [unfold resid; rewrite map_length, seq_length; congruence|].
  unfold resid. rewrite map_length, seq_length. intros j Hj. rewrite rnth_map_seq by exact Hj. rewrite cconv_zero. ring.
Qed.

Lemma put_prefix_zpad n x : (length x <= n)%nat -> put_prefix n (length x) x = Ok (zpad n x).
Proof.
  intro H. unfold put_prefix, zpad. replace (Nat.min (length x) n) with (length x) by lia. rewrite Nat.eqb_refl. reflexivity.
Qed.

Lemma slice0Z_hist (l : list R) (Ps : list R) itmax : length l = itmax -> (length Ps <= itmax)%nat ->
  (forall i, rnth l i = if (0 <=? i)%nat && (i <? 0 + length Ps)%nat then rnth Ps i else rnth (repeat 0 itmax) i) ->
  slice0Z l (Z.of_nat (length Ps) - 1) = match Ps with [] => repeat 0 (itmax - 1) | _ => firstn (length Ps - 1) Ps end.
Proof.
  intros L Hle H.
  assert (E : l = Ps ++ repeat 0 (itmax - length Ps)).
  { apply rlist_ext; [rewrite app_length, repeat_length; lia|]. intros i Hi. rewrite H. cbn [Nat.leb andb Nat.add].
    unfold rnth at 3. destruct (Nat.ltb_spec i (length Ps)).
    - rewrite app_nth1 by assumption. reflexivity.
    - rewrite app_nth2 by assumption. rewrite rnth_repeat0, nth_repeat. reflexivity. }
  unfold slice0Z. destruct Ps as [|p Ps].
  - cbn [length]. destruct (Z.ltb_spec (Z.of_nat 0 - 1) 0); [|lia]. rewrite E. cbn [app length]. rewrite Nat.sub_0_r, repeat_length.
    replace (Z.to_nat (Z.of_nat itmax + (Z.of_nat 0 - 1))) with (itmax - 1)%nat by lia.
    destruct itmax as [|k]; [reflexivity|]. replace (S k - 1)%nat with k by lia.
    replace (S k) with (k + 1)%nat by lia. rewrite repeat_app, firstn_app, repeat_length, Nat.sub_diag, firstn_O, app_nil_r.
    apply firstn_all2. rewrite repeat_length. lia.
  - destruct (Z.ltb_spec (Z.of_nat (length (p :: Ps)) - 1) 0); [cbn [length] in *; lia|].
    replace (Z.to_nat (Z.of_nat (length (p :: Ps)) - 1)) with (length (p :: Ps) - 1)%nat by lia.
    rewrite E. rewrite firstn_app. replace (length (p :: Ps) - 1 - length (p :: Ps))%nat with 0%nat by lia.
    rewrite firstn_O, app_nil_r. reflexivity.
Qed.

(** ** The whole function *)
Definition lim_of (phase : string) (n : nat) : nat := if String.eqb phase "P" then (n / 2 - 1)%nat else n.

Definition misfits (dt : R) (n : nat) (u w : list R) (Ps : list (list R)) : list R := map (misfit dt n u w) Ps.

Record iter_run (uin win : list R) (dt pre a : R) (itmax : nat) (minderr : R) (phase : string)
    (rf rms : list R) (it n : nat) (Ps : list (list R)) : Prop := {
  ir_len : length uin = length win;
  ir_n : n = (2 ^ Nat.log2_up (length uin))%nat;
  ir_n2 : (2 <= n)%nat;
  ir_dt : dt <> 0; ir_a : a <> 0;
  ir_cos : cos (2 * PI * IZR (Rtrunc (pre / dt)) / INR n) <> 0;
  ir_it : it = length Ps;
  ir_max : (it <= itmax)%nat;
  ir_greedy : greedy_run dt n (lim_of phase n) (gfilt dt n a uin) (gfilt dt n a win) (repeat 0 n) Ps;
  ir_rf : rf = map (fun j => cconv n (last Ps (repeat 0 n)) (gauss_pulse dt n a) (circ n j (Rtrunc (pre / dt)))) (seq 0 (length uin));
  ir_rms : rms = match Ps with [] => repeat 0 (itmax - 1) | _ => firstn (it - 1) (misfits dt n (gfilt dt n a uin) (gfilt dt n a win) Ps) end;
  ir_power : Ps <> [] -> 0 < ssq n (rnth (gfilt dt n a win)) /\ 0 < ssq n (rnth (gfilt dt n a uin));
  ir_mono : forall i p p', nth_error (repeat 0 n :: Ps) i = Some p -> nth_error (repeat 0 n :: Ps) (S i) = Some p' ->
     misfit dt n (gfilt dt n a uin) (gfilt dt n a win) p' <= misfit dt n (gfilt dt n a uin) (gfilt dt n a win) p;
  ir_go : forall i p p', (i + 1 < it)%nat -> nth_error (repeat 0 n :: Ps) i = Some p -> nth_error (repeat 0 n :: Ps) (S i) = Some p' ->
     minderr < 100 * (misfit dt n (gfilt dt n a uin) (gfilt dt n a win) p - misfit dt n (gfilt dt n a uin) (gfilt dt n a win) p');
  ir_stop : (it < itmax)%nat -> forall i p p', (i + 1 = it)%nat -> nth_error (repeat 0 n :: Ps) i = Some p -> nth_error (repeat 0 n :: Ps) (S i) = Some p' ->
     100 * (misfit dt n (gfilt dt n a uin) (gfilt dt n a win) p - misfit dt n (gfilt dt n a uin) (gfilt dt n a win) p') <= minderr;
  ir_zero : it = 0%nat -> itmax = 0%nat \/ all_zero uin
}.

Lemma nth_error_nth_d {A} (l : list A) i x d : nth_error l i = Some x -> nth i l d = x.
Proof. revert i; induction l as [|y l IH]; intros [|i] H; try discriminate; simpl in *; [congruence|auto]. Qed.

Lemma NNPP_zero (x : R) : ~ x <> 0 -> x = 0.
Proof. intro H. destruct (Req_EM_T x 0); [assumption|contradiction]. Qed.

Lemma deconv_iterative_inv uin win dt nt pre a itmax minderr phase rf rms it :
  dflt nt (length uin) = length uin ->
  deconv_iterative uin win dt nt pre a itmax minderr phase = Ok (rf, rms, it) ->
  exists n Ps, iter_run uin win dt pre a itmax minderr phase rf rms it n Ps.
Proof.
  intros Hnt H. unfold deconv_iterative in H.
  destruct (Nat.eqb_spec (length uin) (length win)) as [HL|]; [|discriminate]. cbn [negb] in H.
  rewrite Hnt in H. cbn zeta in H.
  destruct (next_pow_2 (length uin)) as [n|] eqn:En; [|discriminate]. cbn [bind] in H.
  pose proof (next_pow_2_Ok _ _ En) as (Hpos&Hle&Hn2).
  rewrite put_prefix_zpad in H by exact Hle. cbn [bind] in H. rewrite HL in H at 1.
  rewrite put_prefix_zpad in H by lia. cbn [bind] in H.
  destruct (gaussFilter dt n a) as [G|] eqn:EG; [|discriminate]. cbn [bind] in H.
  apply gaussFilter_Ok_inv in EG. destruct EG as (Hn&Hev&Hdt&Ha&->).
  rewrite !gfilter_gauss in H by assumption. cbn [bind] in H.
  fold (gfilt dt n a uin) in H. fold (gfilt dt n a win) in H.
  assert (H2 : (2 <= n)%nat).
  { apply Nat.even_spec in Hev. destruct Hev as [m ->]. lia. }
  set (u := gfilt dt n a uin) in *. set (w := gfilt dt n a win) in *.
  assert (Lu : length u = n) by apply gfilt_length.
  rewrite ssq_list, Lu in H.
  set (s0 := mkD (repeat 0 n) u (repeat 0 itmax) (100 * ssq n (rnth u) + minderr) 1 0) in H.
  destruct (dloop _ _ _ _ _ _ _ _ _ _ _ s0) as [s|] eqn:EL; [|discriminate]. cbn [bind] in H.
  assert (HI : Inv dt a itmax n u (zpad n win) s0).
  { split; [apply repeat_length|]. split; [symmetry; apply resid_zero; exact Lu|apply repeat_length]. }
  assert (Lz : length (zpad n win) = n) by (apply zpad_length; lia).
  pose proof (dloop_run dt minderr a itmax n (String.eqb phase "P") u (zpad n win) Hn Hdt Lu Lz itmax s0 s HI H2 ltac:(cbn; lia) EL) as R.
  destruct R as (Ps&R1&R2&R3&R4&R5&R6&R7&R8&R9&R10&R11&R12).
  change (map (cconv n (zpad n win) (gauss_pulse dt n a)) (seq 0 n)) with w in *.
  cbn [d_p0 d_it d_err d_sumsq d_rms s0 Nat.add] in R1, R2, R4, R5, R6, R8, R9, R10, R11, R12.
  change (if (phase =? "P")%string then (n / 2 - 1)%nat else n) with (lim_of phase n) in *.
  rewrite gfilter_gauss in H by assumption. cbn [bind] in H.
  rewrite phaseshift_eq in H by assumption. cbn zeta in H.
  destruct (Req_EM_T _ 0) as [|Hcos]; [discriminate|]. cbn [bind] in H. injection H as <- <- <-.
  assert (Hmax : (d_it s <= itmax)%nat).
  { destruct Ps as [|p Ps]; [rewrite R4; simpl; lia|]. destruct (R5 ltac:(discriminate)) as (_&_&X&_). exact X. }
  assert (R5' : Ps <> [] -> 0 < ssq n (rnth w) /\ 0 < ssq n (rnth u)).
  { intro Hne. destruct (R5 Hne) as (X&Y&_). split; [exact X|exact Y]. }
  set (mf := misfit dt n u w) in *.
  assert (Hm0 : Ps <> [] -> mf (repeat 0 n) = 1) by (intro Hne; apply misfit_zero; apply R5'; exact Hne).
  assert (Mono : forall i p p', nth_error (repeat 0 n :: Ps) i = Some p -> nth_error (repeat 0 n :: Ps) (S i) = Some p' -> mf p' <= mf p).
  { intros i p p' Hp Hp'. destruct i as [|i]; cbn in Hp, Hp'.
    - injection Hp as <-. apply (R10 p' Hp').
    - destruct (R9 i p p' Hp Hp') as [X _]. exact X. }
  exists n, Ps. constructor; fold u; fold w; try assumption.
  - rewrite R2.
    unfold slice. rewrite Nat.sub_0_r. cbn [skipn]. rewrite firstn_map.
    replace n with (length uin + (n - length uin))%nat at 1 by lia.
    rewrite seq_app, firstn_app, seq_length, Nat.sub_diag, firstn_O, app_nil_r.
    rewrite firstn_all2 by (rewrite seq_length; lia).
    apply map_ext_in. intros j Hj. apply in_seq in Hj. rewrite cconv_list by (apply circ_lt; exact Hn). reflexivity.
  - destruct R3 as (_&_&LR). rewrite R4.
    assert (LM : length (misfits dt n u w Ps) = length Ps) by (unfold misfits; apply map_length).
    rewrite <- LM. rewrite (slice0Z_hist (d_rms s) (misfits dt n u w Ps) itmax LR).
    + destruct Ps; reflexivity.
    + rewrite LM, <- R4. exact Hmax.
    + intro i. rewrite LM. rewrite R6. cbn [Nat.leb andb Nat.add]. destruct (Nat.ltb_spec i (length Ps)); [|reflexivity].
      rewrite Nat.sub_0_r. unfold misfits, rnth.
      rewrite (nth_indep _ 0 (misfit dt n u w [])) by (rewrite map_length; assumption). rewrite map_nth. reflexivity.
  - intros i p p' Hi Hp Hp'. pose proof (Mono i p p' Hp Hp') as M.
    assert (B : big minderr (100 * (mf p - mf p'))).
    { destruct i as [|i]; cbn in Hp, Hp'.
      - injection Hp as <-. destruct (nth_error Ps 1) as [p2|] eqn:E2; [|apply nth_error_None in E2; lia].
        destruct (R9 0%nat p' p2 Hp' E2) as [_ B]. cbn [Nat.eqb] in B. rewrite Hm0 by (intros ->; discriminate). exact B.
      - destruct (nth_error Ps (S (S i))) as [p2|] eqn:E2; [|apply nth_error_None in E2; lia].
        destruct (R9 (S i) p' p2 Hp' E2) as [_ B]. cbn [Nat.eqb] in B.
        replace (S i - 1)%nat with i in B by lia. rewrite (nth_error_nth_d _ _ _ [] Hp) in B. exact B. }
    unfold big in B. rewrite Rabs_pos_eq in B by lra. exact B.
  - intros Hlt i p p' Hi Hp Hp'. pose proof (Mono i p p' Hp Hp') as M.
    assert (Hne : Ps <> []) by (intros ->; rewrite R4 in Hi; simpl in Hi; lia).
    assert (E : d_err s = 100 * (mf p - mf p')).
    { assert (Hl : (length Ps - 1 = i)%nat) by lia. cbn in Hp'.
      rewrite (R11 p' Hne) by (rewrite Hl; exact Hp').
      destruct i as [|i]; cbn in Hp.
      - injection Hp as <-. replace (length Ps) with 1%nat by lia. cbn [Nat.eqb]. rewrite Hm0 by exact Hne. reflexivity.
      - destruct (Nat.eqb_spec (length Ps) 1); [lia|]. replace (length Ps - 2)%nat with i by lia.
        rewrite (nth_error_nth_d _ _ _ [] Hp). reflexivity. }
    specialize (R12 Hlt). rewrite E in R12. unfold big in R12. rewrite Rabs_pos_eq in R12 by lra. apply Rnot_lt_le. exact R12.
  - intro Hz. assert (HPs : Ps = []) by (destruct Ps; [reflexivity|rewrite R4 in Hz; discriminate]).
    destruct itmax as [|k]; [left; reflexivity|]. right.
    specialize (R12 ltac:(lia)). rewrite (R7 HPs) in R12. cbn [d_err s0] in R12.
    destruct (Req_EM_T (ssq n (rnth u)) 0) as [E|E].
    + intro j. destruct (Nat.lt_ge_cases j n) as [Hj|Hj]; [|apply rnth_over'; lia].
      apply NNPP_zero. intro NZ.
      pose proof (gfilt_nonzero dt n a uin Hn Hdt Hle) as P. fold u in P.
      assert (~ all_zero uin) by (intro A; apply NZ; apply A). specialize (P H). lra.
    + exfalso. apply R12. unfold big. pose proof (ssq_nonneg n (rnth u)).
      unfold Rabs. destruct (Rcase_abs _); lra.
Qed.
