(** * P_FloatEx4: a concrete double-precision run meeting the hypotheses of C125. *)

From Coq Require Import ZArith Reals Lra Lia Psatz Floats.SpecFloat.
From Flocq Require Import Core BinarySingleNaN.
From Verif Require Import Base Num NumPy Spec HkModel HkProofs HkReal HkFacts HkFacts4 P_Hk DrawSpec P_Hk5 P_Hk6 Float64 FloatErr FloatHk FloatStack FloatSeq P_Float P_Float2 P_FloatEx FloatTable FloatOne P_Float3 P_Float4 P_FloatEx2 P_Float5 P_FloatEx3 P_Float6.

Local Open Scope R_scope.

(** The record of C124_example with its first 12 samples (3 s, with the direct P) replaced by NaN and
    its last 13 samples by infinity. *)
Definition bsample (i : nat) : B64 :=
  if Nat.ltb i 12 then S754_nan else if Nat.ltb i 107 then gsample i else S754_infinity false.
Definition bdata : list B64 := map bsample (seq 0 120).
Definition btr (sta : string) : trace B64 := @mkTrace B64 bdata edelta eslow PyF (SFopp epre) d0 (dbl 60 1) sta "Q" None.
Definition brf : stream B64 := [btr "A"%string; btr "B"%string].

Lemma b_nth i : (i < 120)%nat -> nth_error bdata i = Some (bsample i).
Proof. intro Hi. unfold bdata. rewrite nth_error_map, nth_seq by exact Hi. reflexivity. Qed.

Lemma b_covers : covers edelta epre 120 (t_Ps (real eVp) (real fp16)) (t_PpPs (real eVp) (real fp16)) (t_PsPs (real eVp) (real fp16)) eH eK.
Proof.
  intros h k Hh Hk. rewrite v_delta, v_pre, v_Vp, v_p16. unfold covered. rewrite e_inr. unfold t_Ps, t_PpPs, t_PsPs.
  pose proof e_qp. pose proof e_qs6. pose proof e_qs7. pose proof e_qs8.
  destruct Hh as [<-|[<-|[<-|[]]]]; destruct Hk as [<-|[<-|[<-|[]]]]; rewrite ?v_24, ?v_32, ?v_40, ?v_k6, ?v_k7, ?v_k8; lra.
Qed.
Lemma b_same_T T : 1 < T < 243 / 10 -> same_near gdata bdata (1 / 4) (17 / 8) 120 T.
Proof.
  intros HT i Hi D. rewrite b_nth, g_nth by exact Hi. f_equal. pose proof e_tol as E. apply abs_le_inv in D. unfold bsample.
  destruct (Nat.ltb_spec i 12) as [L|L].
  - exfalso. assert (INR i <= 11) by (replace 11 with (INR 11) by (rewrite INR_IZR_INZ; reflexivity); apply le_INR; lia). lra.
  - destruct (Nat.ltb_spec i 107) as [L'|L']; [reflexivity|].
    exfalso. assert (107 <= INR i) by (replace 107 with (INR 107) by (rewrite INR_IZR_INZ; reflexivity); apply le_INR; lia). lra.
Qed.
Lemma b_same : same_arrivals gdata bdata edelta epre 120 (t_Ps (real eVp) (real fp16)) (t_PpPs (real eVp) (real fp16)) (t_PsPs (real eVp) (real fp16)) eH eK.
Proof.
  intros h k Hh Hk. rewrite v_delta, v_pre, v_Vp, v_p16. destruct (g_times h k Hh Hk) as [L1 L2]. revert L1 L2. unfold t_Ps, t_PpPs, t_PsPs.
  pose proof e_qp. pose proof e_qs6. pose proof e_qs7. pose proof e_qs8.
  destruct Hh as [<-|[<-|[<-|[]]]]; destruct Hk as [<-|[<-|[<-|[]]]]; rewrite ?v_24, ?v_32, ?v_40, ?v_k6, ?v_k7, ?v_k8; intros L1 L2;
    (split; [|split]); apply b_same_T; lra.
Qed.
Lemma b_axis : axis64 edelta epre 120.
Proof.
  split; [fdl|]. split; [fdl|]. split; [|lia]. rewrite v_delta, v_pre. constructor; [lra|apply Rabs_le; lra|vm_compute; discriminate].
Qed.

(** The NaN and infinite samples leave the table of hkSynth unchanged. *)
Theorem C125_example : nth_error bdata 8 = Some S754_nan /\ nth_error bdata 119 = Some (S754_infinity false) /\
  exists r r',
  @hkSynth B64 edraw gdata (@uniform_axis B64 edelta 120 epre) fp16 PyF eH eK (Some eVp) (Some ew1) (Some ew2) (Some ew3) None = Ok r /\
  @hkSynth B64 edraw bdata (@uniform_axis B64 edelta 120 epre) fp16 PyF eH eK (Some eVp) (Some ew1) (Some ew2) (Some ew3) None = Ok r' /\
  hs_stk r' = hs_stk r /\ hs_best r' = hs_best r /\ exists s, nth_error (hs_stk r') (hs_best r') = Some (@mkRow B64 e32 k7 s).
Proof.
  split; [reflexivity|]. split; [reflexivity|]. destruct C124_hkSynth_example as (r & E & s & Hs).
  destruct (C125_hkSynth edraw gdata bdata edelta epre 120 fp16 PyF eH eK eVp (Some ew1) (Some ew2) (Some ew3) None r E b_axis ltac:(fdl) f_grid b_covers b_same)
    as (r' & E' & H1 & H2).
  exists r, r'. do 4 (split; [assumption|]). exists s. rewrite H1, H2. exact Hs.
Qed.

(** ... and that of hk over two such traces. *)
Theorem C125_hk_example : exists r r',
  @hk B64 ekm estack edraw grf epre eH eK (Some eVp) (Some ew1) (Some ew2) (Some ew3) None (Some false) = Ok r /\
  @hk B64 ekm estack edraw brf epre eH eK (Some eVp) (Some ew1) (Some ew2) (Some ew3) None (Some false) = Ok r' /\
  hr_stk r' = hr_stk r /\ hr_best r' = hr_best r /\ exists s, nth_error (hr_stk r') (hr_best r') = Some (@mkRow B64 e32 k7 s).
Proof.
  destruct C124_example as (r & E & s & Hs).
  destruct (C125_hk ekm estack edraw grf brf epre eH eK eVp (Some ew1) (Some ew2) (Some ew3) None false r (gtr "A") (gtr "A") [gtr "B"%string] (btr "A") [btr "B"%string] E)
    as (r' & E' & H1 & H2).
  - repeat constructor.
  - reflexivity.
  - reflexivity.
  - reflexivity.
  - exact b_axis.
  - fdl.
  - assert (P : real ekm * real eslow = real fp16) by (rewrite v_km, v_slow, v_p16; lra).
    assert (G : forall x y, fdouble eslow /\ grid64 eVp (real ekm * real eslow) eH eK /\
      covers edelta epre 120 (t_Ps (real eVp) (real ekm * real eslow)) (t_PpPs (real eVp) (real ekm * real eslow)) (t_PsPs (real eVp) (real ekm * real eslow)) eH eK /\
      same_arrivals (tr_data (gtr x)) (tr_data (btr y)) edelta epre 120 (t_Ps (real eVp) (real ekm * real eslow)) (t_PpPs (real eVp) (real ekm * real eslow)) (t_PsPs (real eVp) (real ekm * real eslow)) eH eK).
    { intros x y. rewrite P. split; [fdl|]. split; [exact f_grid|]. split; [exact b_covers|exact b_same]. }
    constructor; [apply G|]. constructor; [apply G|constructor].
  - exists r, r'. do 4 (split; [assumption|]). exists s. rewrite H1, H2. exact Hs.
Qed.
