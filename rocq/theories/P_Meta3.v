(** * P_Meta3: the H-k programs do not depend on the choice of units (C109). *)

From Coq Require Import Reals Lra.
From Verif Require Import Base Num NumPy Spec HkModel HkProofs HkReal HkFacts HkFacts2 HkFacts4 P_Hk DrawSpec P_Hk2 P_Hk3 P_Hk4 P_Hk5 P_Hk6 P_Meta P_Meta2.
Local Open Scope R_scope.

(** The same models in another unit of length ([L] new units to the old one) with all
    stack values multiplied by [C]. *)
Definition same_rows (L C : R) (t t' : list (row RN)) : Prop :=
  Forall2 (fun a b : row RN => rH b = L * rH a /\ rK b = rK a /\ rS b = C * rS a) t t'.
(** The same record with the unit of length [L], of time [T] and of amplitude [A]. *)
Definition same_record (L T A : R) (tr tr' : trace RN) : Prop :=
  tr_data tr' = map (Rmult A) (tr_data tr) /\ tr_delta tr' = T * tr_delta tr /\
  tr_slow tr' = tr_slow tr * T / L /\ tr_slowk tr' = tr_slowk tr.

(** ** Engine *)
Definition urow (L C : R) (r : row RN) : row RN := @mkRow RN (L * rH r) (rK r) (C * rS r).
Lemma urow_same L C rows : same_rows L C rows (map (urow L C) rows).
Proof. induction rows as [|a l IH]; constructor; [cbn; auto|exact IH]. Qed.
Lemma list_prod_map (g : R -> R) (K H : list R) : list_prod K (map g H) = map (fun kh => (fst kh, g (snd kh))) (list_prod K H).
Proof. induction K as [|k K IH]; [reflexivity|]. cbn [list_prod]. rewrite map_app, IH, !map_map. reflexivity. Qed.
Lemma table_units L C (f g : R -> R -> res R) K H rows :
  (forall k h v, In k K -> In h H -> f k h = Ok v -> g k (L * h) = Ok (C * v)) ->
  @is_table RN f K H rows -> @is_table RN g K (map (Rmult L) H) (map (urow L C) rows).
Proof.
  intros E T. unfold is_table in *. apply mapM_Ok in T. apply mapM_Ok. change (F RN) with R in *. rewrite list_prod_map.
  assert (G : forall kh : R * R, In kh (list_prod K H) -> In (fst kh) K /\ In (snd kh) H) by (intros [k h] Hi; apply in_prod_iff in Hi; exact Hi).
  induction T as [|[k h] r l rows0 Hr T IH]; constructor; [|apply IH; intros; apply G; right; assumption].
  unfold mkrow_of in *. cbn [fst snd] in *. apply bind_Ok_inv in Hr. destruct Hr as [v [Ev Hr]].
  destruct (G (k, h) (or_introl eq_refl)) as [Gk Gh]. cbn [fst snd] in Gk, Gh. inversion Hr; subst r. etransitivity; [apply (f_equal (fun x => bind x _) (E k h v Gk Gh Ev))|reflexivity].
Qed.
Lemma urow_rS L C rows : map rS (map (urow L C) rows) = map (Rmult C) (map rS rows).
Proof. rewrite !map_map. reflexivity. Qed.
Lemma urow_argmax L C rows k : 0 < C -> @argmax RN (map rS rows) = Ok k -> @argmax RN (map rS (map (urow L C) rows)) = Ok k.
Proof. intros HC E. rewrite urow_rS. apply argmax_scale; assumption. Qed.
Lemma urow_clip L C r : 0 < C -> clip_row (urow L C r) = urow L C (@clip_row RN r).
Proof.
  intro HC. destruct r as [h k s]. unfold clip_row, urow. cbn [rS rH rK].
  assert (Q : @nleb RN (C * s) (@nofZ RN 0) = @nleb RN s (@nofZ RN 0)).
  { simpl. change (F RN) with R in *. destruct (Rleb s 0) eqn:E.
    - apply Rleb_true in E. apply Rleb_true. nra.
    - destruct (Rleb (C * s) 0) eqn:E2; [|reflexivity]. apply Rleb_true in E2. rewrite <- E. symmetry. apply Rleb_true. nra. }
  rewrite Q. destruct (@nleb RN s (@nofZ RN 0)); [|reflexivity]. f_equal. simpl. change (F RN) with R. ring.
Qed.
Lemma urow_clips L C rows : 0 < C -> map clip_row (map (urow L C) rows) = map (urow L C) (map (@clip_row RN) rows).
Proof. intro HC. rewrite !map_map. apply map_ext. intro r. apply urow_clip. exact HC. Qed.

Lemma nearest_units T (axis : list R) x i : 0 < T ->
  @nearest_first RN axis x i -> @nearest_first RN (map (Rmult T) axis) (T * x) i.
Proof.
  intros HT Hn. apply nearest_R in Hn as (ti & Hti & Hall & Hfst).
  assert (S : forall t, Rabs (T * t - T * x) = T * Rabs (t - x)) by (intro t; rewrite <- Rmult_minus_distr_l, Rabs_mult, (Rabs_pos_eq T) by lra; reflexivity).
  apply (nearest_R_intro _ _ _ (T * ti)).
  - exact (map_nth_error (Rmult T) i axis Hti).
  - intros j tj Hj. destruct (nth_error_map_inv (Rmult T) axis j tj Hj) as [y [Ey ->]]. rewrite !S. apply Rmult_le_compat_l; [lra|]. exact (Hall j y Ey).
  - intros j tj Hji Hj. destruct (nth_error_map_inv (Rmult T) axis j tj Hj) as [y [Ey ->]]. rewrite !S. apply Rmult_lt_compat_l; [lra|]. exact (Hfst j y Hji Ey).
Qed.
Lemma getamp_units T A (data axis : list R) x a : 0 < T ->
  @getamp RN data axis (TR x) = Ok a -> @getamp RN (map (Rmult A) data) (map (Rmult T) axis) (TR (T * x)) = Ok (A * a).
Proof.
  intros HT E. apply getamp_R in E as (i & Hn & Hd). apply getamp_R. exists i. split; [apply nearest_units; assumption|].
  exact (map_nth_error (Rmult A) i data Hd).
Qed.
Lemma contrib_units T A W w1 w2 w3 (data axis : list R) x1 x2 x3 v : 0 < T ->
  @contrib RN w1 w2 w3 data axis (Ok (TR x1, TR x2, TR x3)) = Ok v ->
  @contrib RN (W * w1) (W * w2) (W * w3) (map (Rmult A) data) (map (Rmult T) axis) (Ok (TR (T * x1), TR (T * x2), TR (T * x3))) = Ok (W * A * v).
Proof.
  intros HT E. unfold contrib in *. cbn [bind] in *. binv E.
  rewrite (getamp_units T A _ _ _ _ HT E0). cbn [bind]. rewrite (getamp_units T A _ _ _ _ HT E1). cbn [bind].
  rewrite (getamp_units T A _ _ _ _ HT E2). cbn [bind]. inversion E; subst. f_equal. simpl. change (F RN) with R in *. ring.
Qed.
Lemma contribO_units T A W (w1 w2 w3 : R) (data axis : list R) x1 x2 x3 v : 0 < T ->
  @contribO RN (Some w1) (Some w2) (Some w3) data axis (Ok (TR x1, TR x2, TR x3)) = Ok v ->
  @contribO RN (Some (W * w1)) (Some (W * w2)) (Some (W * w3)) (map (Rmult A) data) (map (Rmult T) axis) (Ok (TR (T * x1), TR (T * x2), TR (T * x3))) = Ok (W * A * v).
Proof.
  intros HT E. unfold contribO in *. cbn [bind need] in *. binv E.
  rewrite (getamp_units T A _ _ _ _ HT E0). cbn [bind]. rewrite (getamp_units T A _ _ _ _ HT E1). cbn [bind].
  rewrite (getamp_units T A _ _ _ _ HT E2). cbn [bind]. inversion E; subst. f_equal. simpl. change (F RN) with R in *. ring.
Qed.
Lemma one_units C (c c' : res R) v : (forall y, c = Ok y -> c' = Ok (C * y)) -> @one RN c = Ok v -> @one RN c' = Ok (C * v).
Proof. intros H E. apply one_inv in E as (y & E & ->). unfold one. rewrite (H y E). cbn [bind]. f_equal. simpl. change (F RN) with R. ring. Qed.
Lemma lastv_units {A B} C (c : A -> res R) (c' : B -> res R) l l' v :
  Forall2 (fun x y => forall u, c x = Ok u -> c' y = Ok (C * u)) l l' -> @lastv RN A c l = Ok v -> @lastv RN B c' l' = Ok (C * v).
Proof.
  intros FF E. unfold lastv, lastM in *. apply bind_Ok_inv in E as (o & Eo & E). destruct o as [o|]; [|discriminate]. inversion E; subst o. clear E.
  assert (G : forall q, (q = None \/ exists z, q = Some z) ->
     forM l (fun tr (_ : option R) => v <- c tr ;; Ok (Some (@nadd RN v (@nofZ RN 0)))) q = Ok (Some v) ->
     forM l' (fun tr (_ : option R) => v <- c' tr ;; Ok (Some (@nadd RN v (@nofZ RN 0)))) (option_map (Rmult C) q) = Ok (Some (C * v))).
  { clear Eo. induction FF as [|x y l l' Hxy FF IH]; intros q Hq E; cbn [forM] in *.
    - inversion E. reflexivity.
    - apply bind_Ok_inv in E as (s1 & E1 & E). apply bind_Ok_inv in E1 as (u & Eu & E1). rewrite (Hxy u Eu). cbn [bind].
      specialize (IH s1). inversion E1; subst s1. cbn [option_map] in IH. rewrite <- IH; [|right; eauto|exact E]. f_equal. f_equal. simpl. change (F RN) with R. ring. }
  specialize (G None (or_introl eq_refl) Eo). cbn [option_map] in G. etransitivity; [apply (f_equal (fun x => bind x _) G)|reflexivity].
Qed.

(** ** Delays *)
Lemma qp_units L T V p : 0 < L -> 0 < T -> 0 < V -> qp (V * L / T) (p * T / L) = qp V p * (T / L).
Proof.
  intros HL HT HV. unfold qp. assert (0 < T / L) by (apply Rdiv_lt_0_compat; assumption).
  replace ((1 / (V * L / T)) ^ 2 - (p * T / L) ^ 2) with ((T / L) ^ 2 * ((1 / V) ^ 2 - p ^ 2)) by (field; repeat split; lra).
  rewrite sqrt_mult_alt by apply pow2_ge_0. rewrite sqrt_pow2 by lra. ring.
Qed.
Lemma qs_units L T V K p : 0 < L -> 0 < T -> 0 < V -> qs (V * L / T) K (p * T / L) = qs V K p * (T / L).
Proof.
  intros HL HT HV. unfold qs. assert (0 < T / L) by (apply Rdiv_lt_0_compat; assumption).
  replace ((K / (V * L / T)) ^ 2 - (p * T / L) ^ 2) with ((T / L) ^ 2 * ((K / V) ^ 2 - p ^ 2)) by (field; repeat split; lra).
  rewrite sqrt_mult_alt by apply pow2_ge_0. rewrite sqrt_pow2 by lra. ring.
Qed.
Lemma precritical_units L T V p : 0 < L -> 0 < T -> precritical V p -> precritical (V * L / T) (p * T / L).
Proof.
  intros HL HT [HV HP]. split; [apply Rdiv_lt_0_compat; [apply Rmult_lt_0_compat|]; assumption|].
  replace ((p * T / L) ^ 2) with ((T / L) ^ 2 * p ^ 2) by (field; lra). replace ((1 / (V * L / T)) ^ 2) with ((T / L) ^ 2 * (1 / V) ^ 2) by (field; repeat split; lra).
  apply Rmult_le_compat_l; [apply pow2_ge_0|exact HP].
Qed.
Lemma times_units L T V p pk h k : 0 < L -> 0 < T -> precritical V p ->
  @hk_times RN (V * L / T) (p * T / L) pk (L * h) k =
    Ok (TR (T * t_Ps V p h k), TR (T * t_PpPs V p h k), TR (T * t_PsPs V p h k)).
Proof.
  intros HL HT HP. rewrite (hk_times_R _ _ pk _ k (precritical_units L T V p HL HT HP)). destruct HP as [HV _].
  unfold t_Ps, t_PpPs, t_PsPs. rewrite qp_units, qs_units by assumption. apply ok3; field; lra.
Qed.
Lemma times2_units L T V1 h1 k1 V2 p pk h k : 0 < L -> 0 < T -> precritical V1 p -> precritical V2 p ->
  @hkSeqMoho_times RN (L * h1) k1 (V1 * L / T) (Some (V2 * L / T)) (p * T / L) pk (L * h) k =
    Ok (TR (T * t2_Ps V1 h1 k1 V2 p h k), TR (T * t2_PpPs V1 h1 k1 V2 p h k), TR (T * t2_PsPs V1 h1 k1 V2 p h k)).
Proof.
  intros HL HT HP HP2. rewrite (hkSeqMoho_times_R _ _ _ _ _ pk _ k (precritical_units L T V1 p HL HT HP) (precritical_units L T V2 p HL HT HP2)).
  destruct HP as [HV _], HP2 as [HV2 _].
  unfold t2_Ps, t2_PpPs, t2_PsPs, t_Ps, t_PpPs, t_PsPs. rewrite !qp_units, !qs_units by assumption. apply ok3; field; lra.
Qed.

Lemma urow_grid L C (K H : list R) (tb : list (row RN)) :
  @grid_table RN K H tb -> @grid_table RN K (map (Rmult L) H) (map (urow L C) tb).
Proof.
  intros [Ln G]. split; [rewrite !map_length; exact Ln|]. intros i j k h Ek Eh. rewrite map_length.
  rewrite nth_error_map in Eh. destruct (nth_error H j) as [h0|] eqn:E0; [|discriminate]. cbn in Eh. injection Eh as <-.
  destruct (G i j k h0 Ek E0) as [s Es]. eexists. exact (map_nth_error (urow L C) _ _ Es).
Qed.

(** ** C109: programs with their own time axis *)
Section Synth.
Variables L T A W : R.
Context (HL : 0 < L) (HT : 0 < T) (HA : 0 < A) (HW : 0 < W).
Lemma WA_pos : 0 < W * A. Proof. apply Rmult_lt_0_compat; assumption. Qed.

Theorem C109_hkSynth draw (data time : list R) p pk H K Vp w1 w2 w3 layer r :
  @hkSynth RN draw data time p pk H K (Some Vp) (Some w1) (Some w2) (Some w3) layer = Ok r ->
  draws draw K (map (Rmult L) H) -> precritical Vp p ->
  exists r', @hkSynth RN draw (map (Rmult A) data) (map (Rmult T) time) (p * T / L) pk (map (Rmult L) H) K
      (Some (Vp * L / T)) (Some (W * w1)) (Some (W * w2)) (Some (W * w3)) layer = Ok r' /\
    same_rows L (W * A) (hs_stk r) (hs_stk r') /\ hs_best r' = hs_best r.
Proof.
  intros E HD HP. apply hkSynth_inv in E as (u & Tb & Ar & D & _).
  destruct (HD (map (urow L (W * A)) (hs_stk r)) (urow_grid _ _ _ _ _ (grid_table_of _ _ _ _ Tb)) (fun _ _ => eq_refl)) as [u' D']. eexists. split.
  - eapply hkSynth_intro; [|apply urow_argmax; [exact WA_pos|exact Ar]|exact D']. cbn [dflt]. refine (table_units L (W * A) _ _ K H _ _ Tb).
    intros k h v _ _. cbn [dflt]. apply one_units. intros y Q. rewrite hkSynth_times_eq, (hk_times_R Vp p pk h k HP) in Q.
    apply (contrib_units T A W _ _ _ _ _ _ _ _ _ HT) in Q. etransitivity; [|exact Q]. f_equal.
    etransitivity; [apply hkSynth_times_eq|exact (times_units L T Vp p pk h k HL HT HP)].
  - cbn. split; [apply urow_same|reflexivity].
Qed.

Theorem C109_hkYu draw (flt time : list R) (tlag : R) tk p pk H K VM VS vs a b c r :
  @hkYu RN draw flt time tlag tk p pk H K (Some VM) (Some VS) (Some vs) (Some a) (Some b) (Some c) = Ok r ->
  draws draw K (map (Rmult L) H) -> precritical VM p -> 0 < VS -> 0 < vs ->
  exists r', @hkYu RN draw (map (Rmult A) flt) (map (Rmult T) time) (T * tlag) tk (p * T / L) pk (map (Rmult L) H) K
      (Some (VM * L / T)) (Some (VS * L / T)) (Some (vs * L / T)) (Some (W * a)) (Some (W * b)) (Some (W * c)) = Ok r' /\
    same_rows L (W * A) (yr_stk r) (yr_stk r') /\ yr_best r' = yr_best r /\
    yr_SedThick r' = L * yr_SedThick r /\ yr_Pdelay r' = T * yr_Pdelay r.
Proof.
  intros E HD HP HVS Hvs. apply hkYu_inv in E as (v & x & y & u & Ev & Eh & Ea & Eb & Ep & Tb & Ar & D & _). inversion Ev; subst v. clear Ev.
  destruct (HD (map (urow L (W * A)) (yr_stk r)) (urow_grid _ _ _ _ _ (grid_table_of _ _ _ _ Tb)) (fun _ _ => eq_refl)) as [u' D'].
  assert (HLT : 0 < L / T) by (apply Rdiv_lt_0_compat; assumption).
  assert (Kd : forall t z, 0 < z -> @kdiv RN tk t z = Ok (t / z)).
  { intros t z Hz. unfold kdiv. simpl. unfold Reqb. destruct (Req_EM_T z 0); [lra|]. destruct tk; reflexivity. }
  cbn [dflt] in Eb. rewrite Kd in Ea, Eb by assumption. inversion Ea; subst x. inversion Eb; subst y. clear Ea Eb.
  assert (Epd : yr_Pdelay r = tlag / 2 - tlag * vs / 2 / VS).
  { rewrite Ep, Eh. simpl. change (F RN) with R in *. field. split; lra. }
  eexists. rewrite hkYu_eq. cbn zeta. cbn [dflt need bind].
  rewrite !Kd by (replace (vs * L / T) with (vs * (L / T)) by (field; lra); replace (VS * L / T) with (VS * (L / T)) by (field; lra); apply Rmult_lt_0_compat; assumption).
  cbn [bind].
  match goal with |- context [hkYu_times _ _ _ _ ?pd] => assert (Hpd : pd = T * yr_Pdelay r) end.
  { rewrite Epd. simpl. change (F RN) with R in *. field. repeat split; lra. }
  rewrite Hpd.
  match goal with |- context [mapM (mkrow_of ?f)] => assert (T' : @is_table RN f K (map (Rmult L) H) (map (urow L (W * A)) (yr_stk r))) end.
  { refine (table_units L (W * A) _ _ K H _ _ Tb). intros k h z _ _. cbn [dflt]. apply one_units. intros y0.
    intro Q. rewrite hkYu_times_eq, (hk_times_R VM p pk h k HP) in Q. cbn [bind taddr taddt tsubr] in Q.
    apply (contribO_units T A W a b c _ _ _ _ _ _ HT) in Q. etransitivity; [|exact Q]. f_equal.
    etransitivity; [apply hkYu_times_eq|]. etransitivity; [exact (f_equal (fun x => bind x _) (times_units L T VM p pk h k HL HT HP))|]. cbn [bind taddr taddt tsubr].
    apply ok3; simpl; change (F RN) with R in *; ring. }
  unfold is_table in T'. change (list (F RN)) with (list R) in *. rewrite T'. cbn [bind]. rewrite (urow_argmax L _ _ _ WA_pos Ar). cbn [bind]. rewrite D'. cbn [bind].
  split; [reflexivity|]. cbn [yr_stk yr_best yr_SedThick yr_Pdelay]. split; [apply urow_same|]. split; [reflexivity|]. split; [|reflexivity].
  rewrite Eh. simpl. change (F RN) with R in *. field. lra.
Qed.

Theorem C109_hkSeqSynth A' W' draw (dS dM time : list R) p pk HS KS VS a b c HM KM VM d e f r :
  0 < A' -> 0 < W' ->
  @hkSeqSynth RN draw dS dM time p pk HS KS (Some VS) (Some a) (Some b) (Some c) HM KM (Some VM) (Some d) (Some e) (Some f) = Ok r ->
  draws draw KS (map (Rmult L) HS) -> draws draw KM (map (Rmult L) HM) -> precritical VS p -> precritical VM p ->
  exists r', @hkSeqSynth RN draw (map (Rmult A) dS) (map (Rmult A') dM) (map (Rmult T) time) (p * T / L) pk
      (map (Rmult L) HS) KS (Some (VS * L / T)) (Some (W * a)) (Some (W * b)) (Some (W * c))
      (map (Rmult L) HM) KM (Some (VM * L / T)) (Some (W' * d)) (Some (W' * e)) (Some (W' * f)) = Ok r' /\
    same_rows L (W * A) (ss_stkSed r) (ss_stkSed r') /\ ss_bestSed r' = ss_bestSed r /\
    same_rows L (W' * A') (ss_stkMoho r) (ss_stkMoho r') /\ ss_bestMoho r' = ss_bestMoho r.
Proof.
  intros HA' HW' E HD HD2 HP HP2. apply hkSeqSynth_inv in E as (u & u2 & bm & rowsM & Tb & Ar & D & Bm & TM & AM & DM & EM & _).
  destruct (HD (map (urow L (W * A)) (ss_stkSed r)) (urow_grid _ _ _ _ _ (grid_table_of _ _ _ _ Tb)) (fun _ _ => eq_refl)) as [v1 D1].
  destruct (HD2 (map (urow L (W' * A')) (map (@clip_row RN) rowsM)) (urow_grid _ _ _ _ _ (grid_table_clip _ _ _ (grid_table_of _ _ _ _ TM))) (fun _ _ => eq_refl)) as [v2 D2].
  assert (HC' : 0 < W' * A') by (apply Rmult_lt_0_compat; assumption).
  assert (Bm' : nth_error (map (urow L (W * A)) (ss_stkSed r)) (ss_bestSed r) = Some (urow L (W * A) bm)) by exact (map_nth_error (urow L (W * A)) _ _ Bm).
  eexists. rewrite hkSeqSynth_eq. cbn zeta. cbn [dflt].
  match goal with |- context [mapM (mkrow_of ?f) (list_prod KS _)] => assert (T' : @is_table RN f KS (map (Rmult L) HS) (map (urow L (W * A)) (ss_stkSed r))) end.
  { refine (table_units L (W * A) _ _ KS HS _ _ Tb). intros k h z _ _. cbn [dflt]. apply one_units. intros y Q.
    rewrite hkSeqSynthSed_times_eq, (hk_times_R VS p pk h k HP) in Q.
    apply (contrib_units T A W _ _ _ _ _ _ _ _ _ HT) in Q. etransitivity; [|exact Q]. f_equal. exact (times_units L T VS p pk h k HL HT HP). }
  unfold is_table in T'. change (list (F RN)) with (list R) in *. rewrite T'. cbn [bind]. rewrite (urow_argmax L _ _ _ WA_pos Ar). cbn [bind]. rewrite D1. cbn [bind].
  rewrite (proj2 (getitem_Ok _ _ _) Bm'). cbn [bind].
  match goal with |- context [mapM (mkrow_of ?f) (list_prod KM _)] => assert (TM' : @is_table RN f KM (map (Rmult L) HM) (map (urow L (W' * A')) rowsM)) end.
  { refine (table_units L (W' * A') _ _ KM HM _ _ TM). intros k h z _ _. cbn [dflt]. apply one_units. intros y Q.
    pose proof (eq_trans (f_equal (contribO (Some d) (Some e) (Some f) dM time) (eq_sym (hkSeqMoho_times_R (rH bm) (rK bm) VS VM p pk h k HP HP2))) Q) as Q'. clear Q. rename Q' into Q.
    apply (contribO_units T A' W' d e f _ _ _ _ _ _ HT) in Q. etransitivity; [|exact Q]. f_equal. exact (times2_units L T VS (rH bm) (rK bm) VM p pk h k HL HT HP HP2). }
  unfold is_table in TM'. change (list (F RN)) with (list R) in *. rewrite TM'. cbn [bind]. rewrite (urow_argmax L _ _ _ HC' AM). cbn [bind].
  rewrite (urow_clips L _ rowsM HC'). rewrite D2. cbn [bind].
  split; [reflexivity|]. cbn [ss_stkSed ss_bestSed ss_stkMoho ss_bestMoho]. rewrite EM. split; [apply urow_same|]. split; [reflexivity|]. split; [apply urow_same|reflexivity].
Qed.

(** ** C109: streams *)
Lemma taxis_units delta n pre : @taxis RN (T * delta) n (T * pre) = map (Rmult T) (@taxis RN delta n pre).
Proof. unfold taxis. change (F RN) with R. rewrite map_map. apply map_ext. intro i. simpl. change (F RN) with R. ring. Qed.
Lemma avg_units (rf rf' : stream RN) : Forall2 (same_record L T A) rf rf' -> @avgslow RN rf' = @avgslow RN rf * T / L.
Proof.
  intro FF. rewrite !avgslow_mean. assert (E1 : length rf' = length rf) by (clear -FF; induction FF; cbn [length]; congruence). rewrite E1.
  assert (E2 : sumR (map tr_slow rf') = sumR (map tr_slow rf) * T / L).
  { clear E1. induction FF as [|x y l l' (_ & _ & E & _) FF IH]; cbn [map sumR]; [change (F RN) with R; field; lra|]. rewrite E, IH. change (F RN) with R. field. lra. }
  rewrite E2. unfold Rdiv. change (F RN) with R. ring.
Qed.
Lemma rp_units km1 stack (avg : R) tr tr' : same_record L T A tr tr' ->
  @hk_rp RN km1 stack (avg * T / L) tr' = @hk_rp RN km1 stack avg tr * T / L /\ @hk_rpk RN stack tr' = @hk_rpk RN stack tr.
Proof.
  intros (_ & _ & E & Ek). unfold hk_rp, hk_rpk. rewrite E, Ek. destruct stack; (split; [simpl; change (F RN) with R; field; lra|reflexivity]).
Qed.
Lemma record_len tr0 tr0' : same_record L T A tr0 tr0' -> length (tr_data tr0') = length (tr_data tr0).
Proof. intros (E & _). rewrite E. apply (map_length (Rmult A)). Qed.
Lemma data_units stack st st' tr tr' : (stack = true -> tr_data st' = map (Rmult A) (tr_data st)) -> same_record L T A tr tr' ->
  @hk_data RN stack st' tr' = map (Rmult A) (@hk_data RN stack st tr).
Proof. intros Hs (E & _). unfold hk_data. destruct stack; [apply Hs; reflexivity|exact E]. Qed.

Theorem C109_hk km1 stackO draw (rf rf' : stream RN) (pre : R) H K Vp w1 w2 w3 layer (stack : bool) r st SR st' SR' :
  @hk RN km1 stackO draw rf pre H K (Some Vp) (Some w1) (Some w2) (Some w3) layer (Some stack) = Ok r ->
  draws draw K (map (Rmult L) H) -> Forall2 (same_record L T A) rf rf' ->
  stackO rf = Ok (st :: SR) -> stackO rf' = Ok (st' :: SR') -> (stack = true -> tr_data st' = map (Rmult A) (tr_data st)) ->
  (forall tr, In tr rf -> precritical Vp (ray_used stack km1 rf tr)) ->
  exists r', @hk RN km1 stackO draw rf' (T * pre) (map (Rmult L) H) K (Some (Vp * L / T)) (Some (W * w1)) (Some (W * w2)) (Some (W * w3)) layer (Some stack) = Ok r' /\
    same_rows L (W * A) (hr_stk r) (hr_stk r') /\ hr_best r' = hr_best r.
Proof.
  intros E HD FF ES ES' Hst HI. apply hk_inv in E as (SR0 & st0 & tr0 & u & ES0 & E1 & E2 & Tb & Ar & D & _).
  rewrite ES in ES0. inversion ES0; subst SR0. cbn [nth_error] in E1. inversion E1; subst st0. clear E1 ES0.
  destruct rf as [|t0 rf]; [discriminate|]. cbn [nth_error] in E2. inversion E2; subst t0. inversion FF as [|? tr0' ? rf1 P0 F1]; subst.
  destruct (HD (map (urow L (W * A)) (hr_stk r)) (urow_grid _ _ _ _ _ (grid_table_of _ _ _ _ Tb)) (fun _ _ => eq_refl)) as [u' D'].
  eexists. split.
  - eapply hk_intro with (tr0 := tr0'); [exact ES'|reflexivity| |apply urow_argmax; [exact WA_pos|exact Ar]|exact D'].
    cbn [dflt]. refine (table_units L (W * A) _ _ K H _ _ Tb). intros k h v _ _. cbn [dflt]. apply sumM_scale.
    rewrite (avg_units _ _ FF). rewrite (record_len _ _ P0). destruct P0 as (_ & -> & _). rewrite taxis_units.
    refine (Forall2_in _ _ _ _ FF _). intros tr tr' Htr Hs y Q. unfold hk_c in *.
    destruct (rp_units km1 stack (@avgslow RN (tr0 :: rf)) tr tr' Hs) as [Erp Erk]. rewrite Erp, Erk, (data_units stack st st' tr tr' Hst Hs).
    specialize (HI tr Htr). rewrite <- ray_rp in HI. rewrite (hk_times_R Vp _ _ h k HI) in Q.
    apply (contrib_units T A W _ _ _ _ _ _ _ _ _ HT) in Q. etransitivity; [|exact Q]. f_equal. exact (times_units L T Vp _ _ h k HL HT HI).
  - cbn. split; [apply urow_same|reflexivity].
Qed.
End Synth.

Theorem C109_hkSeq (L T A W A' W' : R) km1 stackO draw (rfS rfM rfS' rfM' : stream RN) (pre : R) HS KS VS a b c HM KM VM d e f (stack : bool) r stS SS stS' SS' stM SM stM' SM' :
  0 < L -> 0 < T -> 0 < A -> 0 < W -> 0 < A' -> 0 < W' ->
  @hkSeq RN km1 stackO draw rfS rfM pre HS KS (Some VS) (Some a) (Some b) (Some c) HM KM (Some VM) (Some d) (Some e) (Some f) (Some stack) = Ok r ->
  draws draw KS (map (Rmult L) HS) -> draws draw KM (map (Rmult L) HM) -> Forall2 (same_record L T A) rfS rfS' -> Forall2 (same_record L T A') rfM rfM' ->
  stackO rfS = Ok (stS :: SS) -> stackO rfS' = Ok (stS' :: SS') -> stackO rfM = Ok (stM :: SM) -> stackO rfM' = Ok (stM' :: SM') ->
  (stack = true -> tr_data stS' = map (Rmult A) (tr_data stS) /\ tr_data stM' = map (Rmult A') (tr_data stM)) ->
  (forall tr, In tr rfS \/ In tr rfM -> precritical VS (ray_used stack km1 rfM tr)) ->
  (forall tr, In tr rfM -> precritical VM (ray_used stack km1 rfM tr)) ->
  exists r', @hkSeq RN km1 stackO draw rfS' rfM' (T * pre) (map (Rmult L) HS) KS (Some (VS * L / T)) (Some (W * a)) (Some (W * b)) (Some (W * c))
      (map (Rmult L) HM) KM (Some (VM * L / T)) (Some (W' * d)) (Some (W' * e)) (Some (W' * f)) (Some stack) = Ok r' /\
    same_rows L (W * A) (sr_stkSed r) (sr_stkSed r') /\ sr_bestSed r' = sr_bestSed r /\
    same_rows L (W' * A') (sr_stkMoho r) (sr_stkMoho r') /\ sr_bestMoho r' = sr_bestMoho r.
Proof.
  intros HL HT HA HW HA' HW' E HD HD2 FS FM ES ES' EM EM' Hst HI HI2.
  apply hkSeq_inv in E as (SS0 & stS0 & SM0 & stM0 & tr0 & u & u2 & bm & rowsM & Q1 & Q2 & Q3 & Q4 & Q5 & Tb & Ar & D & Bm & TM & AM & DM & EMo & _).
  rewrite ES in Q1. inversion Q1; subst SS0. inversion Q2; subst stS0. rewrite EM in Q3. inversion Q3; subst SM0. inversion Q4; subst stM0. clear Q1 Q2 Q3 Q4.
  destruct rfS as [|t0 rfS]; [discriminate|]. cbn [nth_error] in Q5. inversion Q5; subst t0. inversion FS as [|? tr0' ? rf1 P0 F1]; subst.
  assert (HC : 0 < W * A) by (apply Rmult_lt_0_compat; assumption). assert (HC' : 0 < W' * A') by (apply Rmult_lt_0_compat; assumption).
  destruct (HD (map (urow L (W * A)) (sr_stkSed r)) (urow_grid _ _ _ _ _ (grid_table_of _ _ _ _ Tb)) (fun _ _ => eq_refl)) as [v1 D1].
  destruct (HD2 (map (urow L (W' * A')) (map (@clip_row RN) rowsM)) (urow_grid _ _ _ _ _ (grid_table_clip _ _ _ (grid_table_of _ _ _ _ TM))) (fun _ _ => eq_refl)) as [v2 D2].
  assert (Bm' : nth_error (map (urow L (W * A)) (sr_stkSed r)) (sr_bestSed r) = Some (urow L (W * A) bm)) by exact (map_nth_error (urow L (W * A)) _ _ Bm).
  eexists. rewrite hkSeq_eq. cbn zeta. cbn [dflt]. rewrite ES', EM'. cbn [bind getitem nth_error].
  rewrite (record_len L T A _ _ P0). destruct P0 as (_ & -> & _). rewrite taxis_units. rewrite (avg_units L T A' HL _ _ FM).
  match goal with |- context [mapM (mkrow_of ?f) (list_prod KS _)] => assert (T' : @is_table RN f KS (map (Rmult L) HS) (map (urow L (W * A)) (sr_stkSed r))) end.
  { refine (table_units L (W * A) _ _ KS HS _ _ Tb). intros k h z _ _. cbn [dflt]. apply lastv_units. refine (Forall2_in _ _ _ _ FS _). intros tr tr' Htr Hs y Q.
    unfold seqSed_c in *. destruct (rp_units L T A HL km1 stack (@avgslow RN rfM) tr tr' Hs) as [Erp Erk]. rewrite Erp, Erk.
    rewrite (data_units L T A stack stS stS' tr tr' (fun q => proj1 (Hst q)) Hs).
    assert (HP := HI tr (or_introl Htr)). rewrite <- ray_rp in HP. rewrite hkSeqSed_times_eq, (hk_times_R VS _ _ h k HP) in Q.
    apply (contrib_units T A W _ _ _ _ _ _ _ _ _ HT) in Q. etransitivity; [|exact Q]. f_equal. exact (times_units L T VS _ _ h k HL HT HP). }
  unfold is_table in T'. change (list (F RN)) with (list R) in *. rewrite T'. cbn [bind]. rewrite (urow_argmax L _ _ _ HC Ar). cbn [bind]. rewrite D1. cbn [bind].
  rewrite (proj2 (getitem_Ok _ _ _) Bm'). cbn [bind].
  match goal with |- context [mapM (mkrow_of ?f) (list_prod KM _)] => assert (TM' : @is_table RN f KM (map (Rmult L) HM) (map (urow L (W' * A')) rowsM)) end.
  { refine (table_units L (W' * A') _ _ KM HM _ _ TM). intros k h z _ _. cbn [dflt]. apply lastv_units. refine (Forall2_in _ _ _ _ FM _). intros tr tr' Htr Hs y Q.
    unfold seqMoho_c in *. destruct (rp_units L T A' HL km1 stack (@avgslow RN rfM) tr tr' Hs) as [Erp Erk]. rewrite Erp, Erk.
    rewrite (data_units L T A' stack stM stM' tr tr' (fun q => proj2 (Hst q)) Hs).
    assert (HP := HI tr (or_intror Htr)). assert (HP2 := HI2 tr Htr). rewrite <- ray_rp in HP, HP2.
    pose proof (eq_trans (f_equal (contribO (Some d) (Some e) (Some f) _ _) (eq_sym (hkSeqMoho_times_R (rH bm) (rK bm) VS VM _ _ h k HP HP2))) Q) as Q'. clear Q. rename Q' into Q.
    apply (contribO_units T A' W' d e f _ _ _ _ _ _ HT) in Q. etransitivity; [|exact Q]. f_equal. exact (times2_units L T VS (rH bm) (rK bm) VM _ _ h k HL HT HP HP2). }
  unfold is_table in TM'. change (list (F RN)) with (list R) in *. rewrite TM'. cbn [bind]. rewrite (urow_argmax L _ _ _ HC' AM). cbn [bind].
  rewrite (urow_clips L _ rowsM HC'). rewrite D2. cbn [bind].
  split; [reflexivity|]. cbn [sr_stkSed sr_bestSed sr_stkMoho sr_bestMoho]. rewrite EMo. split; [apply urow_same|]. split; [reflexivity|]. split; [apply urow_same|reflexivity].
Qed.
