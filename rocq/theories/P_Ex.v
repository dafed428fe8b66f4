(** * P_Ex: concrete cases for the theorems of C11, C25, C27, C28, C31, C32, C35, C38, C42,
    C51, C57, C61, C62, C64 and C67.  (The other claims have theirs beside them: names ending
    in _example or _hyps, the doc_* examples of P_Haskell2, wave_example of P_Wave6, and the
    refutations, which are concrete runs.) *)

From Coq Require Import Reals Lra Floats.SpecFloat.
From Verif Require Import Base Num NumPy Spec HkModel HkReal Cplx Mat4 DFT DFT2 SpecSignal SpecElastic ReverbModel ReverbProofs P_Reverb P_Reverb2 P_Reverb3
  DeconModel P_Decon HaskellModel HaskellProofs P_Haskell P_Haskell2 SynModel P_Syn PoolModel ExtractModel P_Extract PlotModel PlotProofs P_Plot P_Plot2.
Local Open Scope R_scope.

(** C11: plotting twice really happens: the second call returns, clips nothing further, and
    leaves the best model. *)
Theorem C11_example :
  match @plothk B64 (fun _ _ => None) (sf_lit 9 1000) "out" None None None (mkPst [] ex_res) with
  | (s1, Ok _) =>
      match @plothk B64 (fun _ _ => None) (sf_lit 9 1000) "out" None None None (mkPst [] (ps_d s1)) with
      | (s2, Ok _) => (length (hr_stk (ps_d s2)) =? 2)%nat && (hr_best (ps_d s2) =? 1)%nat
                      && SFeqb (rS (nth 0 (hr_stk (ps_d s2)) zrow)) (sf_ofZ 0) && SFeqb (rS (nth 1 (hr_stk (ps_d s2)) zrow)) (sf_ofZ 2)
      | _ => false
      end
  | _ => false
  end = true.
Proof. vm_compute. reflexivity. Qed.

(** C25, C27, C57: the lone spike, plus a line, and in another unit; a straight line. *)
Lemma run_exists data delta : data <> [] -> delta <> 0 -> exists o, run_of data delta [0; delta] o.
Proof.
  intros Hn Hd. destruct (C24_ResonanceFiltSynth_returns data [0; delta] 0 delta eq_refl eq_refl Hd Hn) as [o E].
  exists o. right. split; [exact E|]. exists 0, delta. repeat split. lra.
Qed.
Theorem C25_example : exists o, run_of [1; 3; 5; 7] (1 / 2) [0; 1 / 2] o /\ fl_r o = 0 /\ fl_tlag o = 0.
Proof.
  destruct (run_exists [1; 3; 5; 7] (1 / 2)) as [o E]; [discriminate|lra|]. exists o. split; [exact E|].
  assert (S : straight [1; 3; 5; 7]).
  { exists 1, 2. intros j Hj. simpl in Hj. do 4 (destruct j as [|j]; [unfold rnth; simpl; lra|]). lia. }
  pose proof (proj2 (C87_no_resonance_iff _ _ _ _ E) S) as T. split; [|exact T].
  destruct (C26_first_trough _ _ _ _ E) as (D & HD & Hm). pose proof (proj2 (straight_residual _ D HD) S) as Z.
  destruct (fl_autoc o) as [ac|] eqn:Ea; [destruct Hm as (_ & Hnz & _); contradiction|].
  apply (C25_no_trough _ _ _ _ E). rewrite Ea. exact I.
Qed.
Theorem C27_C57_example : exists o o1 o2,
  run_of [0; 3; 0; 0] (1 / 2) [0; 1 / 2] o /\ run_of [10; 15; 14; 16] (1 / 2) [0; 1 / 2] o1 /\
  run_of (map (Rmult 1000) [0; 3; 0; 0]) (1 / 2) [0; 1 / 2] o2 /\
  fl_tlag o1 = fl_tlag o /\ fl_tlag o2 = fl_tlag o.
Proof.
  destruct (run_exists [0; 3; 0; 0] (1 / 2)) as [o E]; [discriminate|lra|].
  destruct (run_exists [10; 15; 14; 16] (1 / 2)) as [o1 E1]; [discriminate|lra|].
  destruct (run_exists (map (Rmult 1000) [0; 3; 0; 0]) (1 / 2)) as [o2 E2]; [discriminate|lra|].
  exists o, o1, o2. split; [exact E|]. split; [exact E1|]. split; [exact E2|]. split.
  - apply (C27_line_invariant _ _ _ _ _ o o1 10 2 E E1); [reflexivity|].
    intros j Hj. simpl in Hj. do 4 (destruct j as [|j]; [unfold rnth; simpl; lra|]). lia.
  - apply (C57_unit_free [0; 3; 0; 0] (1 / 2) [0; 1 / 2] [0; 1 / 2] o o2 1000); [lra|exact E|exact E2].
Qed.
Theorem C28_example : let tr := @mkTrace RN [0; 3; 0; 0] (1 / 2) 0 PyF 0 0 0 "STA" "BHR" None in
  exists o, ResonanceFilt (fun s => Ok s) [tr] 1 = Ok o /\
    ResonanceFiltSynth [0; 3; 0; 0] (@uniform_axis RN (1 / 2) 4 1) = Ok o.
Proof.
  cbn zeta.
  destruct (C24_ResonanceFilt_returns (fun s => Ok s) [@mkTrace RN [0; 3; 0; 0] (1 / 2) 0 PyF 0 0 0 "STA" "BHR" None] 1
    (@mkTrace RN [0; 3; 0; 0] (1 / 2) 0 PyF 0 0 0 "STA" "BHR" None) (@mkTrace RN [0; 3; 0; 0] (1 / 2) 0 PyF 0 0 0 "STA" "BHR" None) [])
    as [o E]; [reflexivity|reflexivity|change ((1 / 2)%R <> 0%R); lra|discriminate|].
  exists o. split; [exact E|]. rewrite <- E. symmetry.
  apply (C28_stream_synth (fun s => Ok s) _ 1 (@mkTrace RN [0; 3; 0; 0] (1 / 2) 0 PyF 0 0 0 "STA" "BHR" None)
     (@mkTrace RN [0; 3; 0; 0] (1 / 2) 0 PyF 0 0 0 "STA" "BHR" None) []); [reflexivity|reflexivity|change ((1 / 2)%R <> 0%R); lra|simpl; lia|discriminate].
Qed.

(** C31, C61, C64: the docstring model of synrf.py; 42.5 km and 142.5 km of its deepest layer
    have the same spectral ratio and are the free-surface response.  C32: vertical incidence. *)
Definition doc_top : list layer := [mkLayer (mkMat 2.72 2 1.36) 2; mkLayer (mkMat 2.92 6.5 3.75) 33].
Definition doc_base : material := mkMat 3.3455 8.045 4.485.
Theorem C31_example : exists ur uz ur' uz',
  haskell 1 0.04 3 1 [2; 6.5; 8.045] [1.36; 3.75; 4.485] [2.72; 2.92; 3.3455] [2; 33; 42.5] = Ok (ur, uz) /\
  haskell 1 0.04 3 1 [2; 6.5; 8.045] [1.36; 3.75; 4.485] [2.72; 2.92; 3.3455] [2; 33; 142.5] = Ok (ur', uz') /\
  (ur' * uz)%C = (ur * uz')%C /\ (ur, uz) <> (C0, C0) /\
  free_surface_response 1 0.04 (doc_top ++ [mkLayer doc_base 42.5]) doc_base C1 C0 ur uz.
Proof.
  assert (A : forall z, Forall (fun l => admissible 0.04 (mat l)) (doc_top ++ [mkLayer doc_base z])).
  { intro z. unfold doc_top, doc_base, admissible. repeat constructor; cbn; lra. }
  destruct (C60_defined 1 0.04 1 (doc_top ++ [mkLayer doc_base 42.5])) as (ur & uz & E & N); [lra|discriminate|apply A|].
  destruct (C60_defined 1 0.04 1 (doc_top ++ [mkLayer doc_base 142.5])) as (ur' & uz' & E' & _); [lra|discriminate|apply A|].
  exists ur, uz, ur', uz'. split; [exact E|]. split; [exact E'|]. split.
  - apply (C31_ratio 1 0.04 1 doc_top doc_base 42.5 142.5 ur uz ur' uz'); [discriminate|exact E|exact E'].
  - split; [exact N|]. apply (C61_response 1 0.04 1 doc_top (mkLayer doc_base 42.5) ur uz); [lra|discriminate|apply A|exact E].
Qed.
Theorem C32_example : exists ur uz,
  haskell 1 0 3 1 [2; 6.5; 8.045] [1.36; 3.75; 4.485] [2.72; 2.92; 3.3455] [2; 33; 42.5] = Ok (ur, uz) /\ ur = C0 /\ uz <> C0.
Proof.
  destruct (C60_defined 1 0 1 (doc_top ++ [mkLayer doc_base 42.5])) as (ur & uz & E & N); [lra|discriminate| |].
  { unfold doc_top, doc_base, admissible. repeat constructor; cbn; lra. }
  exists ur, uz. split; [exact E|]. pose proof (C32_vertical 1 1 _ ur uz E) as Z. cbn in Z. split; [exact Z|].
  intro Q. apply N. rewrite Z, Q. reflexivity.
Qed.

(** C35: filtering [1 2 3 4] on 4 samples. *)
Theorem C35_example : exists G x' y', gaussFilter (1 / 10) 4 2 = Ok G /\
  gfilter [1; 2; 3; 4] 4 (map RtoC G) (1 / 10) = Ok x' /\
  gfilter (map (fun j => rnth [1; 2; 3; 4] (circ 4 j 1)) (seq 0 4)) 4 (map RtoC G) (1 / 10) = Ok y' /\
  rnth y' 1 = rnth x' 0.
Proof.
  assert (HG : exists G, gaussFilter (1 / 10) 4 2 = Ok G).
  { destruct (C34_gaussFilter (1 / 10) 4 2) as (G & E & _); [lra|lra|lia|exists 2%nat; reflexivity|eauto]. }
  destruct HG as [G E]. destruct (C35_real_even_kernel _ _ _ _ E) as (h & _ & _ & _ & K).
  destruct (K [1; 2; 3; 4]) as (x' & E1 & _). destruct (K (map (fun j => rnth [1; 2; 3; 4] (circ 4 j 1)) (seq 0 4))) as (y' & E2 & _).
  exists G, x', y'. split; [exact E|]. split; [exact E1|]. split; [exact E2|].
  apply (C35_shift (1 / 10) 4 2 G [1; 2; 3; 4] x' y' 1 E eq_refl E1 E2 1%nat). lia.
Qed.

(** C38: the run of C37_example has its residual history. *)
Theorem C38_example : exists rf rms it,
  deconv_iterative [1; 2; 0; 1] [2; 1; 0; 0] (1 / 10) None 0 2 10 (1 / 1000) "P" = Ok (rf, rms, it) /\
  (0 < it)%nat /\ exists Ps, length Ps = it /\
  greedy_run (1 / 10) 4 1 (gfilt (1 / 10) 4 2 [1; 2; 0; 1]) (gfilt (1 / 10) 4 2 [2; 1; 0; 0]) (repeat 0 4) Ps.
Proof.
  destruct C37_example as (rf & rms & it & E & P). exists rf, rms, it. split; [exact E|]. split; [exact P|].
  destruct (C38_residual _ _ _ _ _ _ _ _ _ _ _ E P) as (Ps & L & G & _). exists Ps. split; [exact L|]. exact G.
Qed.

(** C42: before run_fwd the docstring object refuses to filter, whatever was called. *)
Theorem C42_example bp : exists o,
  syn_init [2; 35; 77.5] [2; 6.5; 8.045] [1.36; 3.75; 4.485] [2.72; 2.92; 3.3455] (PyList [0.04; 0.06]) 0.025 2100 1 = Ok o /\
  do_calls bp o [CFilter (PF2 0.05 1.25); CFilter PFother] = o /\
  syn_filter bp o (PF2 0.05 1.25) = (o, Err AttributeError).
Proof.
  eexists. split; [reflexivity|].
  match goal with |- do_calls bp ?o ?cs = _ /\ _ =>
    destruct (C42_before_run_fwd bp [2; 35; 77.5] [2; 6.5; 8.045] [1.36; 3.75; 4.485] [2.72; 2.92; 3.3455] (PyList [0.04; 0.06]) 0.025 2100 1 o cs eq_refl) as (A & B & _) end.
  - intros [H|[H|[]]]; discriminate H.
  - split; [exact A|]. apply (B 0.05 1.25 0%nat false).
Qed.

(** C51: the first window of the concrete archive of P_Extract. *)
Theorem C51_example : is_window ex_geo ex_tt 52 4 (-10) 10 (ex_event (sec 50)) (mkW (sec 47) (sec 67) (sec 57)) /\
  is_window ex_geo ex_tt 52 4 10 (-10) (ex_event (sec 50)) (mkW (sec 47) (sec 67) (sec 57)).
Proof.
  assert (W : is_window ex_geo ex_tt 52 4 (-10) 10 (ex_event (sec 50)) (mkW (sec 47) (sec 67) (sec 57))).
  { apply (proj1 (C51_both ex_geo ex_tt 52 4 (-10) 10 (ex_event (sec 50)) (mkW (sec 47) (sec 67) (sec 57)) 6 [] eq_refl)).
    change (sec 47) with (sec (50 - 3)). change (sec 67) with (sec (50 + 17)). change (sec 57) with (sec (50 + 7)).
    apply (ex_window (sec 50) 50 (-10) 10); [apply ex_abs|apply ex_abs|reflexivity]. }
  split; [exact W|]. replace 10 with (- -10) at 1 by lra. apply (C51_window _ _ _ _ _ _ _ _ W).
Qed.
