(** * P_Shift: receiver functions and the time origin of the records (C111, C112).

    [delayed n L x y]: on the circle of [n] samples, [y] is [x] delayed by [L] samples. *)

From Coq Require Import Reals Lra.
From Verif Require Import Base Num NumPy Cplx Mat4 SpecElastic SpecSignal DFT DFT2 ReverbModel DeconModel DeconProofs DeconProofs2 DeconProofs3 DeconProofs4 DeconProofs5 P_Decon P_Decon2 P_Units2.
Local Open Scope R_scope.

Definition delayed (n : nat) (L : Z) (x y : list R) : Prop :=
  forall j, (j < n)%nat -> rnth y j = rnth x (circ n j L).
(** The size of the circle: the next power of two. *)
Definition circle (x : list R) : nat := (2 ^ Nat.log2_up (length x))%nat.

Definition rot (n : nat) (L : Z) (x : list R) : list R := map (fun j => rnth x (circ n j L)) (seq 0 n).
Definition ramp (n : nat) (L : Z) : list C := map (fun k => W n (- (L * Z.of_nat k))) (seq 0 n).
Lemma rot_length n L x : length (rot n L x) = n.
Proof. unfold rot. rewrite map_length, seq_length. reflexivity. Qed.
Lemma ramp_length n L : length (ramp n L) = n.
Proof. unfold ramp. rewrite map_length, seq_length. reflexivity. Qed.
Lemma rot_delayed n L x : delayed n L x (rot n L x).
Proof. intros j Hj. unfold rot. apply (rnth_map_seq (fun j => rnth x (circ n j L))). exact Hj. Qed.
Lemma delayed_rot n L x y : length y = n -> delayed n L x y -> y = rot n L x.
Proof. intros Hl H. apply rlist_ext; [rewrite rot_length; exact Hl|]. intros j Hj. rewrite H by lia. symmetry. apply (rnth_map_seq (fun j => rnth x (circ n j L))). lia. Qed.

Section Circle.
Variables (n : nat) (L : Z).
Context (Hn : (0 < n)%nat).

Lemma fft_delayed x y : delayed n L x y -> fft (map RtoC y) n = cmul2 (fft (map RtoC x) n) (ramp n L).
Proof.
  intro H. apply clist_ext; [rewrite cmul2_length, !fft_length, ramp_length; lia|]. rewrite fft_length. intros k Hk.
  rewrite cmul2_nth by (rewrite ?fft_length, ?ramp_length; exact Hk). rewrite !fft_dft by exact Hk. unfold ramp. rewrite cnth_map_seq by exact Hk.
  rewrite (dft_delay n x y 1 L k Hn) by (intros j Hj; rewrite Rmult_1_l; apply H; exact Hj). change (RtoC 1) with C1. ring.
Qed.
Lemma ifft_ramp X : length X = n -> map Re (ifft (cmul2 X (ramp n L)) n) = rot n L (map Re (ifft X n)).
Proof.
  intro HX. apply rlist_ext; [rewrite map_length, ifft_length, rot_length; reflexivity|]. rewrite map_length, ifft_length. intros j Hj.
  rewrite rnth_map_Re. rewrite rot_delayed by exact Hj. rewrite rnth_map_Re. f_equal.
  rewrite ifft_nth by exact Hj. rewrite ifft_nth by (apply circ_lt; exact Hn). f_equal. apply csum_ext. intros k Hk.
  rewrite cmul2_nth by (rewrite ?ramp_length, ?HX; exact Hk). unfold ramp. rewrite cnth_map_seq by exact Hk. rewrite W_circ by exact Hn.
  transitivity (cnth X k * (W n (- (L * Z.of_nat k)) * W n (Z.of_nat j * Z.of_nat k)))%C; [ring|]. rewrite <- W_add. f_equal. f_equal. ring.
Qed.
Lemma cmul2_swap a b c : cmul2 (cmul2 a b) c = cmul2 (cmul2 a c) b.
Proof.
  revert b c. induction a as [|x a IH]; intros [|y b] [|z c]; try reflexivity. unfold cmul2 in *. cbn. f_equal; [ring|apply IH].
Qed.
Lemma cmul2_assoc a b c : cmul2 a (cmul2 b c) = cmul2 (cmul2 a b) c.
Proof.
  revert b c. induction a as [|x a IH]; intros [|y b] [|z c]; try reflexivity. unfold cmul2 in *. cbn. f_equal; [ring|apply IH].
Qed.
Lemma ramp_conj X Y : length X = n -> length Y = n -> cmul2 (cmul2 X (ramp n L)) (map Cconj (cmul2 Y (ramp n L))) = cmul2 X (map Cconj Y).
Proof.
  intros HX HY. apply clist_ext; [rewrite !cmul2_length, !map_length, !cmul2_length, !ramp_length; lia|]. intros k Hk.
  rewrite !cmul2_length, !map_length, !cmul2_length, !ramp_length in Hk.
  assert (k < n)%nat by lia. repeat rewrite cmul2_nth by (rewrite ?map_length, ?cmul2_length, ?ramp_length; lia).
  rewrite !cnth_map by (rewrite ?cmul2_length, ?ramp_length; lia). rewrite cmul2_nth by (rewrite ?ramp_length; lia). rewrite Cconj_mul.
  transitivity (cnth X k * Cconj (cnth Y k) * (cnth (ramp n L) k * Cconj (cnth (ramp n L) k)))%C; [ring|].
  unfold ramp. rewrite cnth_map_seq by lia. rewrite W_conj_inv. ring.
Qed.
Lemma ramp_norm Y : length Y = n -> map Cnorm2 (cmul2 Y (ramp n L)) = map Cnorm2 Y.
Proof.
  intro HY. apply (nth_ext _ _ (Cnorm2 C0) (Cnorm2 C0)); [rewrite !map_length, cmul2_length, ramp_length; lia|].
  rewrite map_length, cmul2_length, ramp_length. intros k Hk. rewrite !(map_nth Cnorm2). change (nth k ?l C0) with (cnth l k). rewrite cmul2_nth by (rewrite ?ramp_length; lia).
  rewrite Cnorm2_mul. unfold ramp. rewrite cnth_map_seq by lia. rewrite W_norm. ring.
Qed.
Lemma sumsq_rot x : length x = n -> sumsqR (rot n L x) = sumsqR x.
Proof. intro H. rewrite (ssq_list x), H. unfold rot. rewrite ssq_map_seq. apply (ssq_circ n (rnth x) L Hn). Qed.
Lemma diff_rot x y : length x = n -> length y = n ->
  map (fun ab => fst ab - snd ab) (combine (rot n L x) (rot n L y)) = rot n L (map (fun ab => fst ab - snd ab) (combine x y)).
Proof.
  intros Hx Hy. rewrite (combine_sub' (rot n L x)), (combine_sub' x) by (rewrite ?rot_length; congruence). rewrite rot_length. unfold rot at 3.
  apply map_ext_in. intros j Hj. apply in_seq in Hj. rewrite !rot_delayed by lia. rewrite rnth_map_seq; [reflexivity|]. rewrite Hy. apply circ_lt. exact Hn.
Qed.
Lemma map_seq_length {A} (f : nat -> A) m : length (map f (seq 0 m)) = m.
Proof. rewrite map_length, seq_length. reflexivity. Qed.

(** ** Iterative method *)
Lemma gfilter_length x G dt y : gfilter x n G dt = Ok y -> length y = n.
Proof. unfold gfilter. destruct (cprod _ _); [|discriminate]. cbn [bind]. intro E. injection E as <-. rewrite map_length, ifft_length. reflexivity. Qed.
Lemma gfilter_delayed x y G dt : delayed n L x y -> gfilter y n G dt = rmapr (rot n L) (gfilter x n G dt).
Proof.
  intro H. unfold gfilter. rewrite (fft_delayed x y H). unfold cprod. rewrite cmul2_length, !fft_length, ramp_length, Nat.min_id.
  destruct (Nat.eqb_spec n (length G)) as [E|]; [|reflexivity]. cbn [bind rmapr]. apply (f_equal Ok).
  rewrite cmul2_swap, !mul_dt, <- cmul2_l. apply ifft_ramp. rewrite cscale_length, cmul2_length, fft_length. lia.
Qed.
Lemma gfilter_ramp x G dt : length G = n -> gfilter x n (cmul2 G (ramp n L)) dt = rmapr (rot n L) (gfilter x n G dt).
Proof.
  intro H. unfold gfilter, cprod. rewrite cmul2_length, fft_length, ramp_length, H, Nat.min_id, Nat.eqb_refl. cbn [bind rmapr]. apply (f_equal Ok).
  rewrite cmul2_assoc, !mul_dt, <- cmul2_l. apply ifft_ramp. rewrite cscale_length, cmul2_length, fft_length. lia.
Qed.
Lemma correl_rot r w r' w' : delayed n L r r' -> delayed n L w w' -> correl r' w' n = correl r w n.
Proof.
  intros Hr Hw. unfold correl, cprod. rewrite (fft_delayed _ _ Hr), (fft_delayed _ _ Hw). rewrite !map_length, !cmul2_length, !fft_length, ramp_length, Nat.min_id, Nat.eqb_refl.
  cbn [bind]. rewrite ramp_conj by apply fft_length. reflexivity.
Qed.
Definition turned (s : dstate) : dstate := mkD (d_p0 s) (rot n L (d_r s)) (d_rms s) (d_err s) (d_sumsq s) (d_it s).
Lemma dstep_turned dt ph G u w wf pu s : length u = n -> length w = n -> length wf = n ->
  dstep dt n ph G (rot n L u) (rot n L w) (cmul2 wf (ramp n L)) pu (turned s) = rmapr turned (dstep dt n ph G u w wf pu s).
Proof.
  intros Hu Hw Hf. unfold dstep, turned. cbn [d_p0 d_r d_rms d_err d_sumsq d_it]. rewrite (correl_rot (d_r s) w) by apply rot_delayed.
  destruct (correl (d_r s) w n) as [rw|]; [|reflexivity]. cbn [bind]. rewrite sumsq_rot by exact Hw. destruct (Req_EM_T (sumsqR w) 0); [reflexivity|].
  destruct (argmax _) as [i|]; [|reflexivity]. cbn [bind]. destruct (getitem (map _ rw) i); [|reflexivity]. cbn [bind]. destruct (Req_EM_T dt 0); [reflexivity|].
  destruct (getitem (d_p0 s) i); [|reflexivity]. cbn [bind]. destruct (setitem (d_p0 s) i _) as [p0|]; [|reflexivity]. cbn [bind].
  destruct (gfilter p0 n (map RtoC G) dt) as [pf1|]; [|reflexivity]. cbn [bind]. rewrite gfilter_ramp by exact Hf.
  destruct (gfilter pf1 n wf dt) as [pf2|] eqn:E2; [|reflexivity]. cbn [bind rmapr]. apply gfilter_length in E2. rewrite diff_rot by assumption.
  destruct (Req_EM_T pu 0); [reflexivity|]. rewrite sumsq_rot by (rewrite map_length, combine_length, Hu, E2; lia).
  destruct (setitem (d_rms s) (d_it s) _); reflexivity.
Qed.
Lemma dloop_turned dt me itmax ph G u w wf pu fuel : length u = n -> length w = n -> length wf = n -> forall s,
  dloop dt me itmax n ph G (rot n L u) (rot n L w) (cmul2 wf (ramp n L)) pu fuel (turned s) = rmapr turned (dloop dt me itmax n ph G u w wf pu fuel s).
Proof.
  intros Hu Hw Hf. induction fuel as [|fuel IH]; intro s; cbn [dloop]; [reflexivity|]. change (d_err (turned s)) with (d_err s). change (d_it (turned s)) with (d_it s).
  destruct (_ && _)%bool; [|reflexivity]. rewrite dstep_turned by assumption. destruct (dstep dt n ph G u w wf pu s); [|reflexivity]. cbn [bind rmapr]. apply IH.
Qed.
End Circle.

Lemma circle_pos x : (0 < circle x)%nat.
Proof. unfold circle. pose proof (Nat.pow_nonzero 2 (Nat.log2_up (length x)) ltac:(lia)). lia. Qed.
Lemma circle_ge x : (length x <= circle x)%nat.
Proof. unfold circle. destruct (Nat.eq_dec (length x) 0) as [->|]; [lia|]. apply Nat.log2_up_le_pow2; lia. Qed.

(** C111: when both records are delayed together, the iterative method returns the same
    receiver function, the same misfits and the same number of iterations (or fails alike). *)
Theorem C111_common_delay_iter uin win uin' win' dt preonset gaussian itmax minderr phase L :
  length uin' = length uin -> length win' = length win ->
  delayed (circle uin) L uin uin' -> delayed (circle uin) L win win' ->
  deconv_iterative uin' win' dt None preonset gaussian itmax minderr phase =
  deconv_iterative uin win dt None preonset gaussian itmax minderr phase.
Proof.
  intros Lu Lw Du Dw. unfold deconv_iterative. rewrite Lu, Lw. destruct (Nat.eqb_spec (length uin) (length win)) as [HL|]; [|reflexivity]. cbn [negb dflt]. cbv zeta.
  destruct (next_pow_2 (length uin)) as [n|] eqn:En; [|reflexivity]. cbn [bind]. pose proof (next_pow_2_Ok _ _ En) as (Hp & Hle & En2).
  assert (Ec : circle uin = n) by (unfold circle; symmetry; exact En2). rewrite Ec in Du, Dw. pose proof (circle_pos uin) as Hn. rewrite Ec in Hn.
  rewrite (put_prefix_zpad n uin Hle). rewrite <- Lu at 1. rewrite (put_prefix_zpad n uin') by lia. cbn [bind]. rewrite HL at 2. rewrite (put_prefix_zpad n win) by lia.
  replace (length uin) with (length win') at 1 by lia. rewrite (put_prefix_zpad n win') by lia. cbn [bind].
  assert (Du0 : delayed n L (zpad n uin) (zpad n uin')) by (intros j Hj; rewrite !zpad_nth; apply Du; exact Hj).
  assert (Dw0 : delayed n L (zpad n win) (zpad n win')) by (intros j Hj; rewrite !zpad_nth; apply Dw; exact Hj).
  destruct (gaussFilter dt n gaussian) as [G|]; [|reflexivity]. cbn [bind]. rewrite (gfilter_delayed n L Hn _ _ _ _ Du0), (gfilter_delayed n L Hn _ _ _ _ Dw0).
  destruct (gfilter (zpad n uin) n (map RtoC G) dt) as [u|] eqn:Eu; [|reflexivity]. cbn [bind rmapr]. destruct (gfilter (zpad n win) n (map RtoC G) dt) as [w|] eqn:Ew; [|reflexivity]. cbn [bind rmapr].
  apply gfilter_length in Eu, Ew. rewrite (sumsq_rot n L Hn u Eu), (fft_delayed n L Hn _ _ Dw0).
  match goal with |- context [dloop dt minderr itmax n _ G u w ?wf ?pu itmax ?s0] =>
    pose proof (dloop_turned n L Hn dt minderr itmax (String.eqb phase "P") G u w wf pu itmax Eu Ew (fft_length _ _) s0) as Q end.
  unfold turned at 1 in Q. cbn [d_p0 d_r d_rms d_err d_sumsq d_it] in Q. rewrite Q. clear Q. destruct (dloop _ _ _ _ _ _ _ _ _ _ _ _) as [s|]; reflexivity.
Qed.

(** C111: the same for the water-level method; its misfit is taken over the record only, so it
    is the same if the record fills the circle. *)
Theorem C111_common_delay_water uin win uin' win' dt preonset wlevel gaussian normalize L :
  length uin' = length uin -> length win' = length win ->
  delayed (circle uin) L uin uin' -> delayed (circle uin) L win win' ->
  rmapr fst (deconv_waterlevel uin' win' dt preonset wlevel gaussian normalize) =
  rmapr fst (deconv_waterlevel uin win dt preonset wlevel gaussian normalize) /\
  (length uin = circle uin ->
   deconv_waterlevel uin' win' dt preonset wlevel gaussian normalize = deconv_waterlevel uin win dt preonset wlevel gaussian normalize).
Proof.
  intros Lu Lw Du Dw. unfold deconv_waterlevel. rewrite Lu, Lw. destruct (Nat.eqb_spec (length uin) (length win)) as [HL|]; [|split; reflexivity]. cbn [negb]. cbv zeta.
  destruct (next_pow_2 (length uin)) as [n|] eqn:En; [|split; reflexivity]. cbn [bind]. pose proof (next_pow_2_Ok _ _ En) as (Hp & Hle & En2).
  assert (Ec : circle uin = n) by (unfold circle; symmetry; exact En2). rewrite Ec in *. pose proof (circle_pos uin) as Hn. rewrite Ec in Hn.
  destruct (Req_EM_T (2 * dt) 0); [split; reflexivity|]. rewrite (fft_delayed n L Hn _ _ Du), (fft_delayed n L Hn _ _ Dw), (ramp_norm n L Hn _ (fft_length _ _)).
  set (uf := fft (map RtoC uin) n). set (wf := fft (map RtoC win) n).
  destruct (pymax _) as [dmax|]; [|split; reflexivity]. cbn [bind]. destruct (gaussFilter dt n gaussian) as [G|] eqn:EG; [|split; reflexivity]. cbn [bind].
  assert (Luf : length uf = n) by apply fft_length. assert (Lwf : length wf = n) by apply fft_length.
  assert (BAD : forall X, length (map RtoC G) <> length X -> cprod (map RtoC G) X = Err ValueError).
  { intros X HX. unfold cprod. destruct (Nat.eqb_spec (length (map RtoC G)) (length X)); [contradiction|reflexivity]. }
  destruct (Nat.eq_dec (length G) n) as [LG|LG].
  2: { rewrite !BAD by (rewrite ?cmul2_length, ?ramp_length, map_length; lia). split; reflexivity. }
  rewrite !(cprod_Ok (map RtoC G)) by (rewrite ?cmul2_length, ?ramp_length, map_length; lia). cbn [bind]. rewrite !cmul2_assoc. set (ug := cmul2 (map RtoC G) uf).
  assert (Lug : length ug = n) by (unfold ug; rewrite cmul2_length, map_length, LG, Luf; lia).
  rewrite (cprod_Ok ug) by (rewrite map_length; lia). rewrite (cprod_Ok (cmul2 ug _)) by (rewrite map_length, !cmul2_length, ramp_length; lia). cbn [bind].
  rewrite (ramp_conj n L Hn _ _ Lug Lwf).
  set (nf := cmul2 ug (map Cconj wf)). destruct (existsb _ _); [split; reflexivity|]. set (rff := cmul2 nf _).
  assert (Lrff : length rff = n) by (unfold rff, nf; rewrite !cmul2_length, !map_length, Lug, Lwf; lia).
  rewrite (cprod_Ok rff wf) by lia. rewrite (cprod_Ok rff (cmul2 wf _)) by (rewrite cmul2_length, ramp_length; lia). cbn [bind]. rewrite cmul2_assoc. set (upf := cmul2 rff wf).
  assert (Lupf : length upf = n) by (unfold upf; rewrite !cmul2_length, Lrff, Lwf; lia).
  destruct (cprod rff _) as [rf2|]; [|split; reflexivity]. cbn [bind]. rewrite !(ifft_ramp n L Hn) by assumption.
  split; [destruct normalize; [destruct (Req_EM_T _ 0)|]; reflexivity|]. intro Hfull.
  assert (SL : forall l : list R, length l = n -> slice l 0 (length uin) = l) by (intros l Hl; rewrite slice_0, Hfull, <- Hl; apply firstn_all).
  rewrite !SL by (rewrite ?rot_length, ?map_length, ?ifft_length; reflexivity). rewrite (diff_rot n L Hn) by (rewrite ?map_length, ?ifft_length; trivial).
  rewrite !(sumsq_rot n L Hn) by (rewrite ?map_length, ?combine_length, ?map_length, ?ifft_length; lia). reflexivity.
Qed.

(** ** C112: for a given source record, the water-level method is a linear filter of the
    radial record. *)
Lemma synth_add n F G H a b j : (forall k, (k < n)%nat -> F k = (RtoC a * G k + RtoC b * H k)%C) -> synth n F j = a * synth n G j + b * synth n H j.
Proof.
  intro Q. unfold synth. rewrite (rsum_ext n _ (fun k => a * Re (G k * W n (Z.of_nat j * Z.of_nat k))%C + b * Re (H k * W n (Z.of_nat j * Z.of_nat k))%C)).
  - rewrite rsum_add, !rsum_scale. ring.
  - intros k Hk. rewrite Q by exact Hk. rewrite <- !Re_scale. generalize (G k) (H k) (W n (Z.of_nat j * Z.of_nat k)). intros [? ?] [? ?] [? ?]. cunf. ring.
Qed.
Lemma max_power_unique n F M M' : max_power n F M -> max_power n F M' -> M = M'.
Proof. intros [U (k & Hk & E)] [U' (k' & Hk' & E')]. pose proof (U k' Hk'). pose proof (U' k Hk). lra. Qed.

(** The denominators depend on the source record only. *)
Lemma wl_other u1 u win dt pre wl g norm rf1 rms1 n M D : wl_run u1 win dt pre wl g norm rf1 rms1 n M D -> length u = length win ->
  exists rf rms D', deconv_waterlevel u win dt pre wl g norm = Ok (rf, rms) /\ wl_run u win dt pre wl g norm rf rms n M D' /\ forall k, (k < n)%nat -> D' k = D k.
Proof.
  intros [R1 R2 R3 R4 R5 R6 R7 R8 R9 R10 R11 _] HL. destruct R3 as (m & Hm & Em).
  assert (Hpos : (0 < length u1)%nat) by (destruct (length u1); [cbn in R2; lia|lia]).
  pose proof (deconv_waterlevel_body u win dt pre wl g norm m) as B. cbv zeta in B. rewrite HL, <- R1, <- R2 in B.
  destruct (B eq_refl Hpos Hm Em R5 R6) as (M' & D' & HM & HD & _ & HN). pose proof (max_power_unique _ _ _ _ HM R7) as E. subst M'.
  assert (ED : forall k, (k < n)%nat -> D' k = D k) by (intros k Hk; rewrite HD, R8 by exact Hk; reflexivity).
  destruct HN as (rf & rms & Q & R); [intros k Hk; rewrite ED by exact Hk; apply R9; exact Hk|]. exists rf, rms, D'. auto.
Qed.

(** C112: linearity. *)
Theorem C112_linear u1 u2 u win dt preonset wlevel gaussian normalize rf1 rms1 rf2 rms2 a b :
  deconv_waterlevel u1 win dt preonset wlevel gaussian normalize = Ok (rf1, rms1) ->
  deconv_waterlevel u2 win dt preonset wlevel gaussian normalize = Ok (rf2, rms2) ->
  length u = length win -> (forall j, (j < length u)%nat -> rnth u j = a * rnth u1 j + b * rnth u2 j) ->
  exists rf rms, deconv_waterlevel u win dt preonset wlevel gaussian normalize = Ok (rf, rms) /\
    length rf = length u /\ forall j, (j < length u)%nat -> rnth rf j = a * rnth rf1 j + b * rnth rf2 j.
Proof.
  intros H1 H2 HL Hu. apply deconv_waterlevel_inv in H1 as (M1 & D1 & Q1). 
  assert (L2 : length u2 = length win) by (apply deconv_waterlevel_inv in H2 as (M2 & D2 & Q2); apply (wr_len _ _ _ _ _ _ _ _ _ _ _ _ Q2)).
  destruct (wl_other _ u _ _ _ _ _ _ _ _ _ _ _ Q1 HL) as (rf & rms & D & E & Q & ED).
  destruct (wl_other _ u2 _ _ _ _ _ _ _ _ _ _ _ Q1 L2) as (rf2' & rms2' & D2 & E2 & Q2 & ED2). rewrite E2 in H2. injection H2 as -> ->.
  set (n := (2 ^ Nat.log2_up (length u1))%nat) in *. pose proof (wr_len _ _ _ _ _ _ _ _ _ _ _ _ Q1) as L1. pose proof (wr_le _ _ _ _ _ _ _ _ _ _ _ _ Q1) as Hle.
  exists rf, rms. split; [exact E|]. split; [apply (wr_lrf _ _ _ _ _ _ _ _ _ _ _ _ Q)|]. intros j Hj.
  rewrite (wr_rf _ _ _ _ _ _ _ _ _ _ _ _ Q j Hj), (wr_rf _ _ _ _ _ _ _ _ _ _ _ _ Q1 j ltac:(lia)), (wr_rf _ _ _ _ _ _ _ _ _ _ _ _ Q2 j ltac:(lia)).
  match goal with |- _ * synth n ?F j = a * (_ * synth n ?G j) + b * (_ * synth n ?H j) => rewrite (synth_add n F G H a b j); [ring|] end.
  intros k Hk. rewrite ED, ED2 by exact Hk.
  assert (EF : dft n u k = (RtoC a * dft n u1 k + RtoC b * dft n u2 k)%C).
  { unfold dft. rewrite <- !csum_scale, <- csum_add. apply csum_ext. intros i _. destruct (Nat.lt_ge_cases i (length u)) as [Hi|Hi].
    - rewrite Hu by exact Hi. rewrite RtoC_add, !RtoC_mul. ring.
    - rewrite !(rnth_over' _ i) by lia. change (RtoC 0) with C0. ring. }
  rewrite EF. ring.
Qed.

(** C112: time invariance: the radial record delayed by [L] samples (on the circle of
    [circle u] samples) gives the receiver function delayed by [L] samples. *)
Theorem C112_time_invariant u u' win dt preonset wlevel gaussian normalize rf rms L :
  deconv_waterlevel u win dt preonset wlevel gaussian normalize = Ok (rf, rms) ->
  length u' = length u -> delayed (circle u) L u u' ->
  exists rf' rms', deconv_waterlevel u' win dt preonset wlevel gaussian normalize = Ok (rf', rms') /\
    length rf' = length u /\
    forall j, (j < length u)%nat -> (circ (circle u) j L < length u)%nat -> rnth rf' j = rnth rf (circ (circle u) j L).
Proof.
  intros H HL HD. apply deconv_waterlevel_inv in H as (M1 & D1 & Q1). fold (circle u) in Q1. set (n := circle u) in *. pose proof (circle_pos u) as Hn. fold n in Hn.
  pose proof (wr_len _ _ _ _ _ _ _ _ _ _ _ _ Q1) as L1. pose proof (wr_le _ _ _ _ _ _ _ _ _ _ _ _ Q1) as Hle.
  destruct (wl_other _ u' _ _ _ _ _ _ _ _ _ _ _ Q1 ltac:(lia)) as (rf' & rms' & D & E & Q & ED). exists rf', rms'. split; [exact E|].
  split; [rewrite <- HL; apply (wr_lrf _ _ _ _ _ _ _ _ _ _ _ _ Q)|]. intros j Hj Hc.
  rewrite (wr_rf _ _ _ _ _ _ _ _ _ _ _ _ Q j ltac:(lia)), (wr_rf _ _ _ _ _ _ _ _ _ _ _ _ Q1 _ Hc). f_equal. unfold synth. f_equal. apply rsum_ext. intros k Hk. apply f_equal.
  rewrite ED by exact Hk. rewrite (dft_delay n u u' 1 L k Hn) by (intros i Hi; rewrite Rmult_1_l; apply HD; exact Hi). rewrite W_circ by exact Hn. change (RtoC 1) with C1.
  replace ((Z.of_nat j - L) * Z.of_nat k)%Z with (- (L * Z.of_nat k) + Z.of_nat j * Z.of_nat k)%Z by ring. rewrite W_add. ring.
Qed.

(** ** Concrete cases: eight samples, delayed by three *)
Lemma delayed8 : delayed 8 3 [0; 6; 3; 0; 0; 0; 0; 0] [0; 0; 0; 0; 6; 3; 0; 0] /\ delayed 8 3 [2; 1; 0; 0; 0; 0; 0; 0] [0; 0; 0; 2; 1; 0; 0; 0].
Proof. split; intros j Hj; nat_cases; circ_compute; reflexivity. Qed.
Example C111_example :
  (exists rf rms it, deconv_iterative [0; 6; 3; 0; 0; 0; 0; 0] [2; 1; 0; 0; 0; 0; 0; 0] (1 / 10) None 0 2 10 (1 / 1000) "P" = Ok (rf, rms, it) /\
     deconv_iterative [0; 0; 0; 0; 6; 3; 0; 0] [0; 0; 0; 2; 1; 0; 0; 0] (1 / 10) None 0 2 10 (1 / 1000) "P" = Ok (rf, rms, it)) /\
  (exists rf rms, deconv_waterlevel [0; 6; 3; 0; 0; 0; 0; 0] [2; 1; 0; 0; 0; 0; 0; 0] (1 / 10) 1 (1 / 20) 2 true = Ok (rf, rms) /\
     deconv_waterlevel [0; 0; 0; 0; 6; 3; 0; 0] [0; 0; 0; 2; 1; 0; 0; 0] (1 / 10) 1 (1 / 20) 2 true = Ok (rf, rms)).
Proof.
  destruct delayed8 as [Du Dw]. split.
  - destruct C58_example_iter as (rf & rms & it & E & _). exists rf, rms, it. split; [exact E|]. rewrite <- E.
    apply (C111_common_delay_iter _ _ _ _ _ _ _ _ _ _ 3); try reflexivity; assumption.
  - destruct (C41_returns [0; 6; 3; 0; 0; 0; 0; 0] [2; 1; 0; 0; 0; 0; 0; 0] (1 / 10) 1 (1 / 20) 2 true) as (rf & rms & E); [reflexivity|cbn; lia|lra|lra|apply not_all_zero_head; lra|left; lra|].
    exists rf, rms. split; [exact E|]. rewrite <- E. apply (C111_common_delay_water [0; 6; 3; 0; 0; 0; 0; 0] [2; 1; 0; 0; 0; 0; 0; 0] _ _ _ _ _ _ _ 3); try reflexivity; assumption.
Qed.
Example C112_example : exists rf rms rf' rms',
  deconv_waterlevel [0; 6; 3; 0; 0; 0; 0; 0] [2; 1; 0; 0; 0; 0; 0; 0] (1 / 10) 1 (1 / 20) 2 false = Ok (rf, rms) /\
  deconv_waterlevel [0; 0; 0; 0; 6; 3; 0; 0] [2; 1; 0; 0; 0; 0; 0; 0] (1 / 10) 1 (1 / 20) 2 false = Ok (rf', rms') /\
  rnth rf' 5 = rnth rf 2.
Proof.
  destruct (C41_returns [0; 6; 3; 0; 0; 0; 0; 0] [2; 1; 0; 0; 0; 0; 0; 0] (1 / 10) 1 (1 / 20) 2 false) as (rf & rms & E); [reflexivity|cbn; lia|lra|lra|apply not_all_zero_head; lra|left; lra|].
  destruct delayed8 as [Du _]. destruct (C112_time_invariant _ [0; 0; 0; 0; 6; 3; 0; 0] _ _ _ _ _ _ _ _ 3 E eq_refl Du) as (rf' & rms' & E' & _ & Q).
  exists rf, rms, rf', rms'. split; [exact E|]. split; [exact E'|]. apply (Q 5%nat); cbn; lia.
Qed.
