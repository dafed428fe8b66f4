(** * P_Reverb4: C118, the resonance filter and the time axis (unit, origin, direction). *)

From Coq Require Import Reals Lra.
From Verif Require Import Base Num NumPy Spec HkModel HkReal Cplx DFT DFT2 SpecSignal ReverbModel ReverbProofs ReverbProofs2 P_Reverb P_Reverb2 P_Reverb3.
Local Open Scope R_scope.

(** Everything found from the autocorrelation depends on nothing else. *)
Lemma found_unique E A n L r ac L' r' ac' :
  let fp := match @find_peaks RN (map Ropp A) with [] => None | p :: _ => Some p end in
  ((E = 0 /\ ac = None /\ r = 0 /\ L = 0%nat) \/
   (E <> 0 /\ ac = Some A /\
      ((fp = None /\ r = 0 /\ L = 0%nat) \/ (fp = Some L /\ (L < n)%nat /\ r = Rabs (rnth A L))))) ->
  ((E = 0 /\ ac' = None /\ r' = 0 /\ L' = 0%nat) \/
   (E <> 0 /\ ac' = Some A /\
      ((fp = None /\ r' = 0 /\ L' = 0%nat) \/ (fp = Some L' /\ (L' < n)%nat /\ r' = Rabs (rnth A L'))))) ->
  L' = L /\ r' = r /\ ac' = ac.
Proof.
  intros fp [(H1&->&->&->)|(H1&->&H2)] [(H1'&->&->&->)|(H1'&->&H2')]; try contradiction; [auto|].
  destruct H2 as [(F1&->&->)|(F1&_&->)], H2' as [(F2&->&->)|(F2&_&->)]; try congruence; auto.
  rewrite F1 in F2. injection F2 as ->. auto.
Qed.

(** ** Time reversal *)
Lemma rnth_rev d j : (j < length d)%nat -> rnth (rev d) j = rnth d (length d - 1 - j).
Proof. intro H. unfold rnth. rewrite rev_nth by exact H. f_equal. lia. Qed.

Lemma ls_residual_rev d D : ls_residual d D -> ls_residual (rev d) (rev D).
Proof.
  intros (HL & (a & b & E) & S0 & S1). unfold ls_residual. rewrite !rev_length.
  split; [exact HL|]. split; [|split].
  - exists (a + b * (INR (length d) - 1)), (- b). intros j Hj. rewrite !rnth_rev by lia. rewrite HL, E by lia.
    rewrite !minus_INR by lia. simpl INR. ring.
  - rewrite <- S0, <- (rsum_rev (length d) (rnth D)). apply rsum_ext. intros j Hj. rewrite rnth_rev by lia. rewrite HL. reflexivity.
  - transitivity (rsum (length d) (fun i => (fun j => (INR (length d) - 1) * rnth D j + - 1 * (INR j * rnth D j)) (length d - 1 - i)%nat)).
    + apply rsum_ext. intros j Hj. rewrite rnth_rev by lia. rewrite HL. rewrite !minus_INR by lia. simpl INR. ring.
    + etransitivity; [exact (rsum_rev (length d) (fun j => (INR (length d) - 1) * rnth D j + - 1 * (INR j * rnth D j)))|].
      rewrite rsum_add, (rsum_scale _ (-1)), S1, (rsum_scale _ _ (rnth D)), S0. ring.
Qed.

Lemma acorr_rev D k : (k < length D)%nat -> acorr (rev D) k = acorr D k.
Proof.
  intro Hk. unfold acorr. rewrite rev_length.
  rewrite <- (rsum_rev _ (fun j => rnth D (j + k) * rnth D j)). cbn beta. apply rsum_ext. intros j Hj.
  rewrite !rnth_rev by lia.
  replace (length D - 1 - (j + k))%nat with (length D - k - 1 - j)%nat by lia.
  replace (length D - 1 - j)%nat with (length D - k - 1 - j + k)%nat by lia. ring.
Qed.

(** ** C118 *)

(** Two calls on the same (stacked) trace with any two time axes: same strength, autocorrelation,
    response and filtered trace, and the same lag in samples. *)
Theorem C118_time_unit data delta time o delta' time' o' :
  run_of data delta time o -> run_of data delta' time' o' ->
  fl_r o' = fl_r o /\ fl_autoc o' = fl_autoc o /\ fl_res o' = fl_res o /\ fl_filtered o' = fl_filtered o /\
  fl_tlag o' = delta' / delta * fl_tlag o.
Proof.
  intros H H'. apply run_of_facts in H. apply run_of_facts in H'. cbn zeta in H, H'.
  destruct H as (L&r&_&Hd&_&_&_&Hr&Ht&Hres&Hf&Hc). destruct H' as (L'&r'&_&Hd'&_&_&_&Hr'&Ht'&Hres'&Hf'&Hc').
  destruct (found_unique _ _ _ _ _ _ _ _ _ Hc Hc') as (EL & Er & Ea).
  rewrite Hr, Hr', Hres, Hres', Hf, Hf', Ht, Ht', EL, Er, Ea. repeat split. field. exact Hd.
Qed.

(** Reversing the trace in time changes neither the strength nor the lag. *)
Theorem C118_time_reversal data delta time o time' o' :
  run_of data delta time o -> run_of (rev data) delta time' o' ->
  fl_r o' = fl_r o /\ fl_tlag o' = fl_tlag o /\ fl_autoc o' = fl_autoc o /\ fl_res o' = fl_res o.
Proof.
  intros H H'. apply run_of_facts in H. apply run_of_facts in H'. cbn zeta in H, H'.
  destruct H as (L&r&_&Hd&_&_&_&Hr&Ht&Hres&_&Hc). destruct H' as (L'&r'&_&Hd'&_&_&_&Hr'&Ht'&Hres'&_&Hc').
  assert (ED : detrend (rev data) = rev (detrend data)).
  { apply (ls_residual_unique (rev data)); [apply detrend_ls|apply ls_residual_rev, detrend_ls]. }
  assert (EE : energy (detrend (rev data)) = energy (detrend data)).
  { rewrite ED, !energy_acorr. destruct (detrend data) as [|x l] eqn:E; [reflexivity|].
    apply acorr_rev. cbn. lia. }
  assert (EA : autoc_of (detrend (rev data)) = autoc_of (detrend data)).
  { unfold autoc_of. rewrite EE, !detrend_length, rev_length. apply map_ext_in. intros k Hk. apply in_seq in Hk.
    f_equal. rewrite !corr_acorr by (rewrite ?detrend_length, ?rev_length; lia). rewrite ED. apply acorr_rev.
    rewrite detrend_length. lia. }
  unfold first_peak in Hc, Hc'. rewrite EE, EA, rev_length in Hc'.
  destruct (found_unique _ _ _ _ _ _ _ _ _ Hc Hc') as (EL & Er & Ea).
  rewrite Hr, Hr', Hres, Hres', Ht, Ht', EL, Er, Ea, rev_length. repeat split.
Qed.

(** ** A run: the trace 1 0 1 4 at 2 Hz (lag 1 s, strength 1/2), the same trace with a sampling interval
    of 3 s and another origin, and the reversed trace. *)
Theorem C118_example : exists o o1 o2,
  ResonanceFiltSynth [1; 0; 1; 4] [0; 1 / 2; 1; 3 / 2] = Ok o /\
  ResonanceFiltSynth [1; 0; 1; 4] [-7; -4; -1; 2] = Ok o1 /\
  ResonanceFiltSynth [4; 1; 0; 1] [0; 1 / 2; 1; 3 / 2] = Ok o2 /\
  fl_tlag o = 1 /\ fl_tlag o1 = 6 /\ fl_tlag o2 = 1 /\ fl_r o = 1 / 2 /\ fl_r o1 = 1 / 2 /\ fl_r o2 = 1 / 2 /\
  fl_filtered o1 = [1 / 2; - (1 / 2); - (1 / 2); 1 / 2].
Proof.
  destruct C79_example as (o & E & Et & Er & Ef).
  destruct (C24_ResonanceFiltSynth_returns [1; 0; 1; 4] [-7; -4; -1; 2] (-7) (-4)) as [o1 E1]; try reflexivity; [lra|discriminate|].
  destruct (C24_ResonanceFiltSynth_returns [4; 1; 0; 1] [0; 1 / 2; 1; 3 / 2] 0 (1 / 2)) as [o2 E2]; try reflexivity; [lra|discriminate|].
  assert (R0 : run_of [1; 0; 1; 4] (1 / 2) [0; 1 / 2; 1; 3 / 2] o).
  { right. split; [exact E|]. exists 0, (1 / 2). repeat split; lra. }
  assert (R1 : run_of [1; 0; 1; 4] 3 [-7; -4; -1; 2] o1).
  { right. split; [exact E1|]. exists (-7), (-4). repeat split; lra. }
  assert (R2 : run_of (rev [1; 0; 1; 4]) (1 / 2) [0; 1 / 2; 1; 3 / 2] o2).
  { right. split; [exact E2|]. exists 0, (1 / 2). repeat split; lra. }
  destruct (C118_time_unit _ _ _ _ _ _ _ R0 R1) as (A1 & _ & _ & A4 & A5).
  destruct (C118_time_reversal _ _ _ _ _ _ R0 R2) as (B1 & B2 & _).
  exists o, o1, o2. rewrite A1, A4, A5, B1, B2, Et, Er, Ef. repeat split; try assumption. field.
Qed.
