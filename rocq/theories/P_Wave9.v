(** * P_Wave9: the velocity profile drawn in the waveform-fitting figures (C119). *)

From Coq Require Import Reals Lra Psatz.
From Verif Require Import DFT SynModel WaveSyn HaskellModel Cplx SpecElastic.
From Verif Require Import Base Num NumPy Spec HkModel PlotModel PoolModel PoolProofs P_Pool WaveModel WaveProofs P_Wave P_Wave2 P_Wave3 P_Wave4 P_Wave5 P_Wave7.
Local Open Scope R_scope.

(** ** Specification *)
(** The point (x, y) is on the broken line through the points (xs, ys). *)
Definition on_line (xs ys : list R) (x y : R) : Prop :=
  exists i x0 x1 y0 y1 t, nth_error xs i = Some x0 /\ nth_error xs (S i) = Some x1 /\ nth_error ys i = Some y0 /\ nth_error ys (S i) = Some y1 /\
    0 <= t <= 1 /\ x = x0 + t * (x1 - x0) /\ y = y0 + t * (y1 - y0).
(** The material met at depth [z] below the surface of a stack of layers on a half-space;
    nothing is met exactly at an interface. *)
Inductive medium_at (half : material) : list layer -> R -> material -> Prop :=
| in_layer l ls z : 0 < z < thick l -> medium_at half (l :: ls) z (mat l)
| below_layer l ls z m : thick l < z -> medium_at half ls (z - thick l) m -> medium_at half (l :: ls) z m
| in_half z : 0 < z -> medium_at half [] z half.
Definition between (a b v : R) : Prop := Rmin a b <= v <= Rmax a b.

(** ** The line through (0, HS, HS, H, H, 50) *)
Lemma between_seg a b v : between a b v <-> exists t, 0 <= t <= 1 /\ v = a + t * (b - a).
Proof.
  unfold between, Rmin, Rmax. destruct (Rle_dec a b) as [L|L].
  - split.
    + intros [L1 L2]. destruct (Req_dec a b) as [->|Ne]; [exists 0; lra|].
      exists ((v - a) / (b - a)). assert (P : 0 < b - a) by lra. split; [split|field; lra].
      * apply Rmult_le_pos; [lra|]. apply Rlt_le, Rinv_0_lt_compat, P.
      * apply (Rmult_le_reg_r (b - a)); [exact P|]. unfold Rdiv. rewrite Rmult_assoc, Rinv_l by lra. lra.
    + intros (t & Ht & ->). nra.
  - split.
    + intros [L1 L2]. exists ((a - v) / (a - b)). assert (P : 0 < a - b) by lra. split; [split|field; lra].
      * apply Rmult_le_pos; [lra|]. apply Rlt_le, Rinv_0_lt_compat, P.
      * apply (Rmult_le_reg_r (a - b)); [exact P|]. unfold Rdiv. rewrite Rmult_assoc, Rinv_l by lra. lra.
    + intros (t & Ht & ->). nra.
Qed.
Lemma seg_param x0 x1 x : x0 < x1 -> x0 <= x <= x1 -> exists t, 0 <= t <= 1 /\ x = x0 + t * (x1 - x0).
Proof. intros L B. apply between_seg. unfold between, Rmin, Rmax. destruct (Rle_dec x0 x1); lra. Qed.

Lemma on_profile HS H a b c z v : 0 < HS -> HS < H -> 0 < z < 50 ->
  on_line [0; HS; HS; H; H; 50] [a; a; b; b; c; c] z v <->
  (z < HS /\ v = a) \/ (z = HS /\ between a b v) \/ (HS < z < H /\ v = b) \/ (z = H /\ between b c v) \/ (H < z /\ v = c).
Proof.
  intros P1 P2 Pz. split.
  - intros (i & x0 & x1 & y0 & y1 & t & X0 & X1 & Y0 & Y1 & Ht & Ex & Ey).
    destruct i as [|[|[|[|[|i]]]]]; cbn [nth_error] in X0, X1, Y0, Y1;
      try (injection X0 as <-); try (injection X1 as <-); try (injection Y0 as <-); try (injection Y1 as <-).
    + assert (v = a) by lra. assert (z <= HS) by nra. destruct (Req_dec z HS) as [E|E]; [right; left|left; lra].
      split; [exact E|]. apply between_seg. exists 0. lra.
    + right; left. split; [lra|]. apply between_seg. exists t. split; assumption.
    + assert (v = b) by lra. assert (HS <= z <= H) by nra.
      destruct (Req_dec z HS) as [E|E]; [right; left; split; [exact E|]; apply between_seg; exists 1; lra|].
      destruct (Req_dec z H) as [E'|E']; [right; right; right; left; split; [exact E'|]; apply between_seg; exists 0; lra|].
      right; right; left. lra.
    + right; right; right; left. split; [lra|]. apply between_seg. exists t. split; assumption.
    + assert (v = c) by lra. destruct (Rle_lt_dec 50 H) as [G|G]; [exfalso; nra|].
      assert (H <= z) by nra. destruct (Req_dec z H) as [E|E]; [right; right; right; left; split; [exact E|]; apply between_seg; exists 1; lra|].
      right; right; right; right. lra.
    + destruct i; discriminate.
  - intros [[L ->]|[[-> B]|[[L ->]|[[-> B]|[L ->]]]]].
    + destruct (seg_param 0 HS z) as (t & Ht & E); [lra|lra|]. exists 0%nat, 0, HS, a, a, t. repeat split; try reflexivity; try lra.
    + apply between_seg in B as (t & Ht & E). exists 1%nat, HS, HS, a, b, t. repeat split; try reflexivity; lra.
    + destruct (seg_param HS H z) as (t & Ht & E); [lra|lra|]. exists 2%nat, HS, H, b, b, t. repeat split; try reflexivity; lra.
    + apply between_seg in B as (t & Ht & E). exists 3%nat, H, H, b, c, t. repeat split; try reflexivity; lra.
    + destruct (seg_param H 50 z) as (t & Ht & E); [lra|lra|]. exists 4%nat, H, 50, c, c, t. repeat split; try reflexivity; lra.
Qed.

Lemma medium_earth HS VpS VpC h k z m : 0 < HS -> HS < h -> 0 < z ->
  medium_at (mat (mantle h)) (earth HS VpS VpC h k) z m <->
  (z < HS /\ m = mkMat (rho_of VpS) VpS (P_Wave5.vs_of VpS)) \/ (HS < z < h /\ m = mkMat (rho_of VpC) VpC (VpC / k)) \/ (h < z /\ m = mat (mantle h)).
Proof.
  intros P1 P2 Pz. unfold earth. split.
  - intro M. inversion M as [l ls z' B|l ls z' m' B M'|]; subst; cbn [thick mat] in *.
    + left. split; [lra|reflexivity].
    + right. inversion M' as [l ls z' B'|l ls z' m' B' M''|]; subst; cbn [thick mat] in *.
      * left. split; [lra|reflexivity].
      * right. inversion M''; subst. split; [lra|reflexivity].
  - intros [[L ->]|[[L ->]|[L ->]]].
    + refine (in_layer _ (mkLayer _ _) _ _ _). cbn [thick]. lra.
    + apply below_layer; cbn [thick]; [lra|]. refine (in_layer _ (mkLayer _ _) _ _ _). cbn [thick]. lra.
    + apply below_layer; cbn [thick]; [lra|]. apply below_layer; cbn [thick]; [lra|]. apply in_half. lra.
Qed.

(** ** C119 *)
(** The two lines of the third panel, which shows the depths from 0 to 50 km, are the
    velocities of the medium (layers above half-space): the velocity met at each depth, and
    at an interface the step from the velocity above to the velocity below. *)
Definition profile_of (HS VpS VpC h k : R) (dep vp vs : list R) : Prop :=
  (forall z m v, 0 < z < 50 -> medium_at (mat (mantle h)) (earth HS VpS VpC h k) z m ->
     (on_line dep vp z v <-> v = vp_of m) /\ (on_line dep vs z v <-> v = SpecElastic.vs_of m)) /\
  (forall z v, 0 < z < 50 -> (forall m, ~ medium_at (mat (mantle h)) (earth HS VpS VpC h k) z m) ->
     exists up low, (forall e, 0 < e -> exists d, 0 < d < e /\ medium_at (mat (mantle h)) (earth HS VpS VpC h k) (z - d) up /\ medium_at (mat (mantle h)) (earth HS VpS VpC h k) (z + d) low) /\
       (on_line dep vp z v <-> between (vp_of up) (vp_of low) v) /\ (on_line dep vs z v <-> between (SpecElastic.vs_of up) (SpecElastic.vs_of low) v)).

Lemma profile_right HS VpS VpC h k : 0 < HS -> HS < h ->
  profile_of HS VpS VpC h k [0; HS; HS; h; h; 50] [VpS; VpS; VpC; VpC; 8045/1000; 8045/1000]
    [P_Wave5.vs_of VpS; P_Wave5.vs_of VpS; VpC / k; VpC / k; 449/100; 449/100].
Proof.
  intros P1 P2. split.
  - intros z m v Pz M. apply medium_earth in M; [|lra|lra|lra]. rewrite !on_profile by lra.
    destruct M as [[L ->]|[[L ->]|[L ->]]]; cbn [vp_of SpecElastic.vs_of mantle mat].
    + split; (split; [intros [?|[?|[?|[?|?]]]]; lra|intros ->; left; split; [lra|reflexivity]]).
    + split; (split; [intros [?|[?|[?|[?|?]]]]; lra|intros ->; right; right; left; split; [lra|reflexivity]]).
    + split; (split; [intros [?|[?|[?|[?|?]]]]; lra|intros ->; right; right; right; right; split; [lra|reflexivity]]).
  - intros z v Pz NM.
    assert (E : z = HS \/ z = h).
    { destruct (Req_dec z HS) as [E|E]; [left; exact E|]. destruct (Req_dec z h) as [E'|E']; [right; exact E'|]. exfalso.
      destruct (Rlt_le_dec z HS) as [G|G]; [eapply NM; apply medium_earth; [lra|lra|lra|]; left; split; [lra|reflexivity]|].
      destruct (Rlt_le_dec z h) as [G'|G']; [eapply NM; apply medium_earth; [lra|lra|lra|]; right; left; split; [lra|reflexivity]|].
      eapply NM; apply medium_earth; [lra|lra|lra|]; right; right; split; [lra|reflexivity]. }
    destruct E as [-> | ->].
    + exists (mkMat (rho_of VpS) VpS (P_Wave5.vs_of VpS)), (mkMat (rho_of VpC) VpC (VpC / k)). cbn [vp_of SpecElastic.vs_of]. rewrite !on_profile by lra.
      split; [|split; (split; [intros [?|[?|[?|[?|?]]]]; try lra; tauto|intro B; right; left; split; [reflexivity|exact B]])].
      intros e He. set (d := Rmin (e / 2) (Rmin (HS / 2) ((h - HS) / 2))).
      assert (D : 0 < d < e /\ d < HS /\ d < h - HS) by (unfold d, Rmin; repeat destruct Rle_dec; lra).
      exists d. split; [lra|]. split; apply medium_earth; try lra; [left|right; left]; (split; [lra|reflexivity]).
    + exists (mkMat (rho_of VpC) VpC (VpC / k)), (mat (mantle h)). cbn [vp_of SpecElastic.vs_of mantle mat]. rewrite !on_profile by lra.
      split; [|split; (split; [intros [?|[?|[?|[?|?]]]]; try lra; tauto|intro B; right; right; right; left; split; [reflexivity|exact B]])].
      intros e He. set (d := Rmin (e / 2) ((h - HS) / 2)).
      assert (D : 0 < d < e /\ d < h - HS) by (unfold d, Rmin; repeat destruct Rle_dec; lra).
      exists d. split; [lra|]. split; apply medium_earth; try lra; [right; left|right; right]; (split; [lra|reflexivity]).
Qed.

(** C119 (serial): every figure PlotWaveformFitting saves is for one row (H, K) of the table
    and, when the Moho of that row is below the sediment, its third panel is the profile of
    the medium that row was scored with ([earth], [mantle]: C71_pipeline). *)
Theorem C119_PlotWaveformFitting stackR synO pgO draw (rf : stream RN) (po HS VpS VpC rp : R) (Ks Hs : list RN) (ga a b c : R) (wf : @wfit RN) (a' b' c' : R) sp fmt figs r f :
  WaveformFitting stackR synO pgO rf po HS VpS VpC rp Ks Hs ga a b c = Ok wf ->
  PlotWaveformFitting stackR synO draw wf a' b' c' sp fmt = (figs, r) -> In f figs ->
  exists row, In row (wf_sols wf) /\ f_H f = sr_H row /\ f_K f = sr_K row /\
    (0 < HS < sr_H row -> profile_of HS VpS VpC (sr_H row) (sr_K row) (f_dep f) (f_vp f) (f_vs f)).
Proof.
  intros HW HP Hf. pose proof HW as HW'. destruct (wf_inv _ _ _ _ _ _ _ _ _ _ _ _ _ _ _ _ HW) as (P & T & _ & _ & _ & _ & _ & Hb & _).
  assert (E : wf_HSed wf = HS /\ wf_VpSed wf = VpS /\ wf_VpCrust wf = VpC).
  { unfold WaveformFitting in HW'. repeat (apply bind_Ok_inv in HW' as (? & _ & HW')). injection HW' as <-. repeat split; reflexivity. }
  destruct E as (E1 & E2 & E3).
  unfold PlotWaveformFitting in HP. destruct (bind (getitem (wf_stream wf) 0) _) as [[tr0 b0]|e] eqn:EB; [|injection HP as <- _; destruct Hf].
  apply bind_Ok_inv in EB as (tr1 & _ & EB). rewrite Hb in EB. injection EB as -> <-.
  apply figures_spec in HP as (_ & F2 & _). apply In_nth_error in Hf as (i & Hi).
  assert (X : exists p, In p (panels (wf_sols wf) (wf_printed wf)) /\ one_figure stackR synO draw (wf_stream wf) (wf_sols wf)
     (bind (ends (wf_HMoho wf)) (fun a => bind (ends (wf_KMoho wf)) (fun c => Ok (a, c)))) None (wf_HSed wf) (wf_VpSed wf) (brocher_vs (wf_VpSed wf)) (brocher_rho (wf_VpSed wf))
     (wf_VpCrust wf) (brocher_rho (wf_VpCrust wf)) (wf_rayp wf) (wf_gauss wf) sp fmt p = Ok f).
  { revert i Hi. generalize dependent (length figs). intros n F2. remember (firstn n (panels (wf_sols wf) (wf_printed wf))) as l eqn:El.
    assert (Sub : forall p, In p l -> In p (panels (wf_sols wf) (wf_printed wf))) by (intros p Ip; rewrite <- (firstn_skipn n (panels _ _)); apply in_or_app; left; rewrite <- El; exact Ip).
    clear El. induction F2 as [|p f' l m Q F2 IH]; intros i Hi; [destruct i; discriminate|]. destruct i as [|i]; cbn in Hi.
    - injection Hi as ->. exists p. split; [apply Sub; left; reflexivity|exact Q].
    - apply (IH (fun p Ip => Sub p (or_intror Ip)) i Hi). }
  destruct X as ([[suff crit] row] & Ip & Q). apply best_rows_In in Hb as (I1 & I2 & I3 & I4).
  apply one_figure_inv in Q as (q1 & q2 & q3 & q4 & l & p0 & _ & _ & _ & _ & _ & _ & _ & G3 & G4 & _ & _ & _ & _ & _ & _ & D1 & D2 & D3 & _).
  exists row. split; [cbn [panels In] in Ip; repeat (destruct Ip as [Ip|Ip]; [injection Ip as _ _ <-; assumption|]); destruct Ip|].
  split; [exact G3|]. split; [exact G4|]. intros [L1 L2]. rewrite D1, D2, D3, E1, E2, E3, vs_of_R. exact (profile_right HS VpS VpC (sr_H row) (sr_K row) L1 L2).
Qed.
(** C119 (parallel): the same for plotbestmodel with parameters made by WaveformPara, for the
    models it printed. *)
Theorem C119_plotbestmodel stackR synO draw res (rf : stream RN) (po HS VpS VpC rp : R) (Ks Hs : list RN) (ga : R) P a b c sp fmt bm f :
  WaveformPara stackR rf po HS VpS VpC rp Ks Hs ga = Ok P ->
  let x := @plotbestmodel RN stackR synO draw res P a b c sp fmt in
  pb_printed x = Some bm -> In f (pb_figs x) ->
  exists row, In row [b_corr bm; b_rmse bm; b_pg bm; b_gof bm] /\ f_H f = sr_H row /\ f_K f = sr_K row /\
    (0 < HS < sr_H row -> profile_of HS VpS VpC (sr_H row) (sr_K row) (f_dep f) (f_vp f) (f_vs f)).
Proof.
  cbv zeta. intros HP H Hf. apply WaveformPara_inv in HP as (tr0 & rf' & st0 & SR & t0 & ts & s & e & _ & _ & _ & _ & ->).
  match type of H with context [plotbestmodel _ _ _ _ [?p] _ _ _ _ _] => set (P := p) in * end.
  destruct (pbm_inv _ _ _ _ _ _ _ _ _ _ _ _ H) as (W & HL & HR & HB). clear H.
  unfold plotbestmodel in Hf. cbn [getitem nth_error bind] in Hf. rewrite fill_eq in Hf. apply Nat.leb_le in HL. rewrite HL in Hf. cbn [bind] in Hf. rewrite HR in Hf. cbn [bind] in Hf. rewrite HB in Hf. cbn [bind] in Hf.
  destruct (figures _ _) as [fs r] eqn:EF. cbn [pb_figs] in Hf. apply figures_spec in EF as (_ & F2 & _).
  assert (X : exists p, In p (panels W bm) /\ exists lim, one_figure stackR synO draw (wp_stream P) W lim (Some (wp_preonset P))
     HS VpS (brocher_vs VpS) (wp_SedDen P) VpC (wp_CrustDen P) (wp_rayp P) (wp_gauss P) sp fmt p = Ok f).
  { apply In_nth_error in Hf as (i & Hi). revert i Hi. generalize dependent (length fs). intros n F2. remember (firstn n (panels W bm)) as l eqn:El.
    assert (Sub : forall p, In p l -> In p (panels W bm)) by (intros p Ip; rewrite <- (firstn_skipn n (panels _ _)); apply in_or_app; left; rewrite <- El; exact Ip).
    clear El. induction F2 as [|p f' l m Q F2 IH]; intros i Hi; [destruct i; discriminate|]. destruct i as [|i]; cbn in Hi.
    - injection Hi as ->. exists p. split; [apply Sub; left; reflexivity|eexists; exact Q].
    - apply (IH (fun p Ip => Sub p (or_intror Ip)) i Hi). }
  destruct X as ([[suff crit] row] & Ip & lim & Q).
  apply one_figure_inv in Q as (q1 & q2 & q3 & q4 & l & p0 & _ & _ & _ & _ & _ & _ & _ & G3 & G4 & _ & _ & _ & _ & _ & _ & D1 & D2 & D3 & _).
  exists row. split; [cbn [panels In] in Ip |- *; repeat (destruct Ip as [Ip|Ip]; [injection Ip as _ _ <-; tauto|]); destruct Ip|].
  split; [exact G3|]. split; [exact G4|]. intros [L1 L2]. rewrite D1, D2, D3, vs_of_R. exact (profile_right HS VpS VpC (sr_H row) (sr_K row) L1 L2).
Qed.
(** The condition is needed: with a Moho above the base of the sediment (such grid points are
    evaluated like the others: C60) three velocities are drawn at the depths in between. *)
Theorem C119_moho_in_sediment HS H a b c z : 0 < H -> H < z < HS -> HS < 50 ->
  on_line [0; HS; HS; H; H; 50] [a; a; b; b; c; c] z a /\ on_line [0; HS; HS; H; H; 50] [a; a; b; b; c; c] z b /\ on_line [0; HS; HS; H; H; 50] [a; a; b; b; c; c] z c.
Proof.
  intros P1 P2 P3. repeat split.
  - destruct (seg_param 0 HS z) as (t & Ht & E); [lra|lra|]. exists 0%nat, 0, HS, a, a, t. repeat split; try reflexivity; lra.
  - destruct (seg_param H HS z) as (t & Ht & E); [lra|lra|]. exists 2%nat, HS, H, b, b, (1 - t). repeat split; try reflexivity; lra.
  - destruct (seg_param H 50 z) as (t & Ht & E); [lra|lra|]. exists 4%nat, H, 50, c, c, t. repeat split; try reflexivity; lra.
Qed.

(** 2 km of sediment, Moho at 35 km: at 20 km the crust (6.5 km/s), at 40 km the mantle; with
    the Moho at 60 km the whole panel below 2 km is crust. *)
Example C119_example :
  medium_at (mat (mantle 35)) (earth 2 3 (65/10) 35 (175/100)) 20 (mkMat (rho_of (65/10)) (65/10) ((65/10) / (175/100))) /\
  medium_at (mat (mantle 35)) (earth 2 3 (65/10) 35 (175/100)) 40 (mat (mantle 35)) /\
  on_line [0; 2; 2; 35; 35; 50] [3; 3; 65/10; 65/10; 8045/1000; 8045/1000] 20 (65/10) /\
  on_line [0; 2; 2; 35; 35; 50] [3; 3; 65/10; 65/10; 8045/1000; 8045/1000] 40 (8045/1000) /\
  ~ on_line [0; 2; 2; 60; 60; 50] [3; 3; 65/10; 65/10; 8045/1000; 8045/1000] 49 (8045/1000).
Proof.
  repeat split.
  - apply medium_earth; [lra|lra|lra|]. right; left. split; [lra|reflexivity].
  - apply medium_earth; [lra|lra|lra|]. right; right. split; [lra|reflexivity].
  - apply on_profile; [lra|lra|lra|]. right; right; left. lra.
  - apply on_profile; [lra|lra|lra|]. right; right; right; right. lra.
  - intro X. apply on_profile in X; [|lra|lra|lra]. destruct X as [?|[?|[?|[?|?]]]]; lra.
Qed.
