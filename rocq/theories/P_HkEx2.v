(** * P_HkEx2: concrete cases of the H-k theorems C05-C09, C11, C14, C15, C19-C22.

    Each example shows that the hypotheses of the theorems of its claim hold together for a
    concrete, non-trivial call, on the crust of P_HkEx (Vp = 20/3 km/s, p = 0.12 s/km, two
    traces of 160 samples, nine nodes). *)

From Coq Require Import Reals Lra Psatz Permutation.
From Verif Require Import Base Num NumPy Spec HkModel HkProofs HkReal HkFacts HkFacts2 HkFacts3 HkFacts4 P_Hk DrawSpec P_Hk2 P_Hk3 P_Hk4 P_Hk5 P_Hk6 P_HkEx.

Local Open Scope R_scope.

Lemma ex_len sta : length (tr_data (extr sta)) = 160%nat.
Proof. change (length exdata = 160%nat). unfold exdata. rewrite map_length, seq_length. reflexivity. Qed.
Lemma ex_neq (v : R) : v <> 0 -> @neqb RN v (@nofZ RN 0) = false.
Proof. intro Hv. simpl. unfold Reqb. destruct (Req_EM_T v 0) as [C|]; [contradiction|reflexivity]. Qed.
Lemma ex_prec3 : precritical 3 exp_.
Proof. unfold precritical, exp_. split; [lra|]. apply Rminus_le. replace ((12 / 100) ^ 2 - (1 / 3) ^ 2) with (144 / 10000 - 1 / 9) by field. lra. Qed.

(** C05, C06, C07: a call that returns, its grid, one of its values and its best model. *)
Theorem C05_example : exists r,
  @hk RN 1 exstack exdraw exrf 2 exH exK (Some exVp) (Some (6 / 10)) (Some (3 / 10)) (Some (1 / 10)) None (Some false) = Ok r /\
  length (hr_stk r) = 9%nat /\ grid_table exK exH (hr_stk r) /\ best_first (map rS (hr_stk r)) (hr_best r) /\
  nth_error exK 1 = Some (17 / 10) /\ nth_error exH 1 = Some 40 /\
  (exists v, nth_error (hr_stk r) 4 = Some (@mkRow RN 40 (17 / 10) v)).
Proof.
  destruct C78_hk_example as (r & E & B). exists r. split; [exact E|].
  pose proof (C05_hk_grid _ _ _ _ _ _ _ _ _ _ _ _ _ _ _ E) as G.
  assert (V := C06_hk_value_exact 1 exstack exdraw exrf 2 exH exK exVp (6 / 10) (3 / 10) (1 / 10) None r 1 1 (17 / 10) 40 E).
  destruct V as (am & V & _); [|reflexivity|reflexivity|lra|].
  { intros tr Htr. replace (1 * tr_slow tr) with exp_ by (destruct Htr as [<-|[<-|[]]]; simpl; ring). apply ex_precritical. }
  split; [|split; [exact G|split; [exact (C07_hk_best RN RN_laws _ _ _ _ _ _ _ _ _ _ _ _ _ _ E)|]]].
  - destruct G as [G _]. rewrite G. reflexivity.
  - split; [reflexivity|]. split; [reflexivity|]. eexists. exact V.
Qed.

(** C08: the stream in the other order, and in another unit. *)
Theorem C08_example : exists r,
  @hk RN 1 exstack exdraw exrf 2 exH exK (Some exVp) (Some (6 / 10)) (Some (3 / 10)) (Some (1 / 10)) None (Some false) = Ok r /\
  (exists r', @hk RN 1 exstack exdraw (rev exrf) 2 exH exK (Some exVp) (Some (6 / 10)) (Some (3 / 10)) (Some (1 / 10)) None (Some false) = Ok r' /\
     rev exrf <> exrf /\ hr_stk r' = hr_stk r) /\
  (exists r', @hk RN 1 exstack exdraw (scale_stream 1000 exrf) 2 exH exK (Some exVp) (Some (6 / 10)) (Some (3 / 10)) (Some (1 / 10)) None (Some false) = Ok r' /\
     hr_best r' = hr_best r).
Proof.
  destruct C78_hk_example as (r & E & _). exists r. split; [exact E|]. split.
  - destruct (C08_hk_order_free 1 exstack exdraw exrf (rev exrf) 2 exH exK (Some exVp) (Some (6 / 10)) (Some (3 / 10)) (Some (1 / 10)) None (Some false) r) as (r' & E' & S & _); [| | |exact E|].
    + apply Permutation_rev.
    + intros t t' [<-|[<-|[]]] [<-|[<-|[]]]; split; reflexivity.
    + intros st SR H. unfold exstack in H. injection H as <- <-. exists (extr "B"), [extr "A"%string]. split; reflexivity.
    + exists r'. split; [exact E'|]. split; [|exact S]. unfold exrf. simpl. intro H. pose proof (f_equal (fun l => tr_sta (hd (extr "A"%string) l)) H) as G. discriminate G.
  - destruct (C08_hk_unit_free 1 exstack exdraw exrf 2 exH exK (Some exVp) (Some (6 / 10)) (Some (3 / 10)) (Some (1 / 10)) None (Some false) r 1000) as (r' & E' & S & _);
      [lra| |exact ex_draws|exact E|exists r'; auto].
    intros st SR H. unfold exstack in H. injection H as <- <-. eexists _, _. split; reflexivity.
Qed.

(** C09: the library's stack of the two (equal) traces is their mean. *)
Theorem C09_example : exists r r',
  @hk RN 1 exstack exdraw exrf 2 exH exK (Some exVp) (Some (6 / 10)) (Some (3 / 10)) (Some (1 / 10)) None (Some false) = Ok r /\
  @hk RN 1 exstack exdraw exrf 2 exH exK (Some exVp) (Some (6 / 10)) (Some (3 / 10)) (Some (1 / 10)) None (Some true) = Ok r' /\
  hr_stk r' = hr_stk r.
Proof.
  destruct C78_hk_example as (r & E & _).
  destruct (C09_stack_agrees 1 exstack exdraw exrf 2 exH exK (Some exVp) (Some (6 / 10)) (Some (3 / 10)) (Some (1 / 10)) None r exp_ (extr "A") [extr "B"%string] E)
    as (r' & E' & S & _); [| | | |reflexivity| | | |exists r, r'; auto].
  - intros t t' [<-|[<-|[]]] [<-|[<-|[]]]; split; reflexivity.
  - intros t [<-|[<-|[]]]; reflexivity.
  - cbn [dflt]. rewrite Rmult_1_l. apply ex_precritical.
  - intros k [<-|[<-|[<-|[]]]]; lra.
  - intros i Hi. rewrite (nth_error_nth' _ (0 : R)) by exact Hi. f_equal. change (length exrf) with 2%nat. simpl. unfold Rdiv. field.
  - intros t [<-|[<-|[]]]; reflexivity.
  - rewrite ex_len. lia.
Qed.

(** C14: a second trace that ends before the last multiple of the largest node makes hk raise
    IndexError; a first trace shorter than the second does not. *)
Definition exshort (n : nat) (sta : string) : trace RN := cut_trace n (extr sta).
Theorem C14_example :
  @hk RN 1 exstack exdraw [extr "A"; exshort 100 "B"] 2 exH exK (Some exVp) (Some (6 / 10)) (Some (3 / 10)) (Some (1 / 10)) None (Some false)
    = Err IndexError /\
  (exists r, @hk RN 1 exstack exdraw [exshort 120 "B"; extr "A"] 2 [30; 40] exK (Some exVp) (Some (6 / 10)) (Some (3 / 10)) (Some (1 / 10)) None (Some false)
    = Ok r).
Proof.
  split.
  - pose proof (C14_IndexError_iff 1 exstack exdraw [extr "A"; exshort 100 "B"] 2 exH exK exVp (Some (6 / 10)) (Some (3 / 10)) (Some (1 / 10)) None
      (extr "A") [exshort 100 "B"] (extr "A")) as T. cbn zeta in T. apply T; clear T; try reflexivity; try discriminate.
    + exact ex_draws.
    + rewrite ex_len. lia.
    + intros t Ht. replace (1 * tr_slow t) with exp_ by (destruct Ht as [<-|[<-|[]]]; simpl; ring). apply ex_precritical.
    + intros k [<-|[<-|[<-|[]]]]; lra.
    + exists (exshort 100 "B"), (17 / 10), 40, 18, 100%nat. split; [right; left; reflexivity|].
      split; [right; left; reflexivity|]. split; [right; left; reflexivity|].
      split; [right; right; change (tr_slow (exshort 100 "B")) with exp_; rewrite Rmult_1_l; symmetry; apply ex_times|].
      split.
      * rewrite ex_len. apply ex_nearest; [lia|rewrite INR_IZR_INZ; simpl; lra].
      * change (tr_data (exshort 100 "B")) with (firstn 100 exdata). rewrite firstn_length. lia.
  - assert (Ls : length (tr_data (exshort 120 "B")) = 120%nat).
    { change (tr_data (exshort 120 "B")) with (firstn 120 exdata). rewrite firstn_length. change (length exdata) with (length (tr_data (extr ""))). rewrite ex_len. reflexivity. }
    eapply (drawn_R exdraw exK [30; 40] _ hr_stk).
    { apply (pyplot_draws_R exK [30; 40] 30 40 (4 / 3) (17 / 10)); try (simpl; auto; fail); lra. }
    eapply (C77_hk_completes RN 1 exstack exdraw [exshort 120 "B"; extr "A"] 2 [30; 40] exK (Some exVp)
      (Some (6 / 10)) (Some (3 / 10)) (Some (1 / 10)) None (Some false)); try reflexivity; try discriminate.
    + rewrite Ls. lia.
    + intros _ t [<-|[<-|[]]]; [lia|rewrite Ls, ex_len; lia].
    + apply ex_neq. cbn [dflt]. unfold exVp. lra.
Qed.

(** C15, C16-C18: a sequential run that returns; its Moho value at a node. *)
Theorem C15_example : exists r H1 K1 s1 v,
  @hkSeq RN 1 exstack exdraw exrf [extr "A"; extr "C"] 2 [1; 2] [2; 3] (Some 3) (Some (6 / 10)) (Some (3 / 10)) (Some (1 / 10))
     exH exK (Some exVp) (Some (6 / 10)) (Some (3 / 10)) (Some (1 / 10)) (Some false) = Ok r /\
  nth_error (sr_stkSed r) (sr_bestSed r) = Some (mkRow H1 K1 s1) /\ In H1 [1; 2] /\
  nth_error (sr_stkMoho r) 4 = Some (@mkRow RN 40 (17 / 10) v).
Proof.
  assert (exists r, @hkSeq RN 1 exstack exdraw exrf ([extr "A"] ++ [extr "C"])%list 2 [1; 2] [2; 3] (Some 3) (Some (6 / 10)) (Some (3 / 10)) (Some (1 / 10))
     exH exK (Some exVp) (Some (6 / 10)) (Some (3 / 10)) (Some (1 / 10)) (Some false) = Ok r) as [r E].
  { eapply (drawn2_R exdraw [2; 3] [1; 2] exK exH _ sr_stkSed sr_stkMoho).
    { apply (pyplot_draws_R [2; 3] [1; 2] 1 2 2 3); try (simpl; auto; fail); lra. }
    { exact ex_draws. }
    eapply (C77_hkSeq_completes RN 1 exstack exdraw exrf ([extr "A"] ++ [extr "C"])%list 2 [1; 2] [2; 3] (Some 3) (Some (6 / 10)) (Some (3 / 10)) (Some (1 / 10))
     exH exK exVp (6 / 10) (3 / 10) (1 / 10) (Some false) (extr "A") [extr "B"%string] (extr "A") [extr "C"%string] (extr "A"));
    try reflexivity; try discriminate.
    - rewrite ex_len. lia.
    - intros _ t Ht. assert (length (tr_data t) = 160%nat) as -> by (destruct Ht as [[<-|[<-|[]]]|[<-|[<-|[]]]]; apply ex_len). rewrite ex_len. lia.
    - apply ex_neq. cbn [dflt]. lra.
    - apply ex_neq. unfold exVp. lra. }
  - destruct (C15_hkSeq_moho_value 1 exstack exdraw exrf [extr "A"] (extr "C") 2 [1; 2] [2; 3] 3 (6 / 10) (3 / 10) (1 / 10)
       exH exK exVp (6 / 10) (3 / 10) (1 / 10) r 1 1 (17 / 10) 40 E) as (H1 & K1 & s1 & a1 & a2 & a3 & B & _ & _ & _ & V);
      try reflexivity; try lra.
    + change (tr_slow (extr "C")) with exp_. rewrite Rmult_1_l. apply ex_prec3.
    + change (tr_slow (extr "C")) with exp_. rewrite Rmult_1_l. apply ex_precritical.
    + intros k [<-|[<-|[]]]; lra.
    + exists r, H1, K1, s1. eexists. split; [exact E|]. split; [exact B|]. split; [|exact V].
      destruct (C05_hkSeq_grid _ _ _ _ _ _ _ _ _ _ _ _ _ _ _ _ _ _ _ _ _ E) as [G _].
      assert (In (mkRow H1 K1 s1) (sr_stkSed r)) as HI by (eapply nth_error_In; exact B).
      clear - G HI. destruct G as [GL GN]. destruct (In_nth_error _ _ HI) as [n Hn].
      assert (n < 4)%nat as Hb by (apply Nat.lt_le_trans with (length (sr_stkSed r)); [apply nth_error_Some; congruence|rewrite GL; simpl; lia]).
      assert (forall i j k h, nth_error [2; 3] i = Some k -> nth_error [1; 2] j = Some h -> n = (i * 2 + j)%nat -> In H1 [1; 2]) as K.
      { intros i j k h Ei Ej ->. destruct (GN i j k h Ei Ej) as [s Hs]. change (length [1; 2]) with 2%nat in Hs. assert (HH : Some (@mkRow RN H1 K1 s1) = Some (@mkRow RN h k s)) by (rewrite <- Hn; exact Hs). injection HH as -> _ _. eapply nth_error_In. exact Ej. }
      destruct n as [|[|[|[|n]]]]; [apply (K 0%nat 0%nat 2 1)|apply (K 0%nat 1%nat 2 2)|apply (K 1%nat 0%nat 3 1)|apply (K 1%nat 1%nat 3 2)|lia]; reflexivity.
Qed.

(** C19: one trace; both versions return, and agree. *)
Theorem C19_example : exists r r',
  @hk RN 1 exstack exdraw [extr "A"] 2 exH exK (Some exVp) (Some (6 / 10)) (Some (3 / 10)) (Some (1 / 10)) None (Some false) = Ok r /\
  @hkSynth RN exdraw exdata (@uniform_axis RN (1 / 5) 160 2) (1 * exp_) PyF exH exK (Some exVp) (Some (6 / 10)) (Some (3 / 10)) (Some (1 / 10)) None = Ok r' /\
  hr_stk r = hs_stk r' /\ hr_best r = hs_best r'.
Proof.
  assert (exists r, @hk RN 1 exstack exdraw [extr "A"] 2 exH exK (Some exVp) (Some (6 / 10)) (Some (3 / 10)) (Some (1 / 10)) None (Some false) = Ok r) as [r E].
  { eapply (drawn_R exdraw exK exH _ hr_stk ex_draws). eapply (C77_hk_completes RN 1 exstack exdraw [extr "A"] 2 exH exK (Some exVp)
      (Some (6 / 10)) (Some (3 / 10)) (Some (1 / 10)) None (Some false) (extr "A") [] (extr "A")); try reflexivity; try discriminate.
    - rewrite ex_len. lia.
    - intros _ t [<-|[]]. lia.
    - apply ex_neq. cbn [dflt]. unfold exVp. lra. }
  - pose proof (C19_hk_hkSynth RN 1 exstack exdraw (extr "A") (extr "A") [] 2 exH exK (Some exVp) (Some (6 / 10)) (Some (3 / 10)) (Some (1 / 10)) None eq_refl) as T.
    rewrite E in T. rewrite ex_len in T. change (tr_data (extr "A")) with exdata in T. change (tr_delta (extr "A")) with (1 / 5) in T.
    change (@nmul RN 1 (tr_slow (extr "A"))) with (1 * exp_) in T. change (tr_slowk (extr "A")) with PyF in T.
    destruct (@hkSynth RN exdraw exdata _ _ _ _ _ _ _ _ _ _) as [r'|x] eqn:E'; [|discriminate T].
    exists r, r'. split; [exact E|]. split; [reflexivity|]. cbn [outc] in T.
    split; [exact (f_equal (fun o => match o with Ok (a, _, _, _) => a | _ => [] end) T)
           |exact (f_equal (fun o => match o with Ok (_, b, _, _) => b | _ => 0%nat end) T)].
Qed.

(** C20, C22: velocities and slowness meeting all hypotheses. *)
Theorem C20_example : precritical 3 exp_ /\ precritical exVp exp_ /\
  @hkSeqMoho_times RN 0 2 3 (Some exVp) exp_ PyF 40 (17 / 10) = @hk_times RN exVp exp_ PyF 40 (17 / 10) /\
  @hkSeqMoho_times RN 2 (17 / 10) exVp (Some exVp) exp_ PyF 38 (17 / 10) = @hk_times RN exVp exp_ PyF (2 + 38) (17 / 10) /\
  @hk_times RN exVp exp_ PyF 40 (17 / 10) = Ok (TR (54 / 10), TR (126 / 10), TR 18).
Proof.
  split; [apply ex_prec3|]. split; [apply ex_precritical|].
  split; [apply C20_zero_sediment; [apply ex_prec3|apply ex_precritical|lra|lra]|].
  split; [apply C20_same_layers; [apply ex_precritical|lra]|].
  destruct ex_times as (E1 & E2 & E3). rewrite <- E1, <- E2, <- E3.
  apply C03_times_formula; [apply ex_precritical|lra].
Qed.

(** C21: a Yu run that returns with a sediment of 0.35 km and a P delay of 0.36 s. *)
Theorem C21_example : exists r,
  @hkYu RN exdraw exdata (@uniform_axis RN (1 / 5) 160 2) 1 NpF exp_ NpF exH exK (Some exVp) (Some (5 / 2)) (Some (7 / 10))
     (Some (6 / 10)) (Some (3 / 10)) (Some (1 / 10)) = Ok r /\
  yr_SedThick r = 35 / 100 /\ yr_Pdelay r = 36 / 100.
Proof.
  match goal with |- exists r, ?c = Ok r /\ _ => assert (exists r, c = Ok r) as [r E] end.
  { eapply (drawn_R exdraw exK exH _ yr_stk ex_draws). eapply (C77_hkYu_completes RN exdraw exdata (@uniform_axis RN (1 / 5) 160 2) 1 NpF exp_ NpF exH exK (Some exVp) (Some (5 / 2)) (7 / 10)
     (6 / 10) (3 / 10) (1 / 10)); try reflexivity; try discriminate.
    apply ex_neq. cbn [dflt]. unfold exVp. lra. }
  - exists r. split; [exact E|].
    destruct (C21_hkYu_sediment _ _ _ _ _ _ _ _ _ _ _ _ _ _ _ r E) as (A & B & _); [lra|lra|lra|].
    rewrite B, A. split; apply Rminus_diag_uniq; field.
Qed.
