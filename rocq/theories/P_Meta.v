(** * P_Meta: the H-k results and the choice of the grid (C107). *)

From Coq Require Import Reals Lra.
From Verif Require Import Base Num NumPy Spec HkModel HkProofs HkReal HkFacts HkFacts2 HkFacts4.

(** The two tables give the same stack value to the models they share. *)
Definition same_nodes {N : Num} (t1 t2 : list (row N)) : Prop :=
  forall a b, In a t1 -> In b t2 -> rH a = rH b -> rK a = rK b -> rS a = rS b.

Section Tables.
Context {N : Num}.
Lemma table_same (f : N -> N -> res N) K H rows K' H' rows' :
  is_table f K H rows -> is_table f K' H' rows' -> same_nodes rows rows'.
Proof.
  intros T T' a b Ha Hb EH EK. apply In_nth_error in Ha as [n Hn]. apply In_nth_error in Hb as [m Hm].
  destruct (table_row _ _ _ _ _ _ T Hn) as (i & j & _ & _ & _ & _ & Ea). destruct (table_row _ _ _ _ _ _ T' Hm) as (i' & j' & _ & _ & _ & _ & Eb).
  rewrite EH, EK in Ea. congruence.
Qed.
Lemma table_incl (f : N -> N -> res N) K H rows K' H' rows' :
  is_table f K H rows -> is_table f K' H' rows' -> incl H H' -> incl K K' -> incl rows rows'.
Proof.
  intros T T' IH IK a Ha. apply In_nth_error in Ha as [n Hn].
  destruct (table_row _ _ _ _ _ _ T Hn) as (i & j & _ & _ & Hk & Hh & Ea).
  destruct (In_nth_error K' (rK a)) as [i' Hi']; [apply IK; eapply nth_error_In; exact Hk|].
  destruct (In_nth_error H' (rH a)) as [j' Hj']; [apply IH; eapply nth_error_In; exact Hh|].
  destruct (table_node _ _ _ _ _ _ _ _ T' Hi' Hj') as (v & Hv & Ev). assert (v = rS a) by congruence. subst v.
  apply nth_error_In in Hv. destruct a. exact Hv.
Qed.
Lemma table_of_node (f : N -> N -> res N) K H rows b :
  is_table f K H rows -> In (rH b) H -> In (rK b) K -> f (rK b) (rH b) = Ok (rS b) -> In b rows.
Proof.
  intros T Hh Hk E. apply In_nth_error in Hh as [j Hj]. apply In_nth_error in Hk as [i Hi].
  destruct (table_node _ _ _ _ _ _ _ _ T Hi Hj) as (v & Hv & Ev). assert (v = rS b) by congruence. subst v.
  apply nth_error_In in Hv. destruct b. exact Hv.
Qed.
(** The best of the finer grid is at least the best of the coarser, and no more if it is
    one of the coarser grid's models. *)
Definition refined (H K H' K' : list N) (a b : row N) : Prop :=
  (incl H H' -> incl K K' -> nisnan (rS b) = false -> nleb (rS a) (rS b) = true) /\
  (incl H H' -> incl K K' -> nisnan (rS b) = false -> In (rH b) H -> In (rK b) K ->
     nleb (rS b) (rS a) = true).
Lemma table_refined (L : OrdLaws N) (f : N -> N -> res N) K H rows K' H' rows' ia ib a b :
  is_table f K H rows -> is_table f K' H' rows' -> best_first (map rS rows) ia -> best_first (map rS rows') ib ->
  nth_error rows ia = Some a -> nth_error rows' ib = Some b -> refined H K H' K' a b.
Proof.
  intros T T' (va & Ha & Ba) (vb & Hb & Bb) Na Nb. rewrite nth_error_map, Na in Ha. rewrite nth_error_map, Nb in Hb. cbn in Ha, Hb.
  inversion Ha; subst va. inversion Hb; subst vb.
  assert (G : incl H H' -> incl K K' -> nisnan (rS b) = false -> nleb (rS a) (rS b) = true).
  { intros IH IK Hn. destruct Bb as [[C _]|(_ & Bb & _)]; [congruence|].
    pose proof (table_incl _ _ _ _ _ _ _ T T' IH IK a (nth_error_In _ _ Na)) as Hin. apply In_nth_error in Hin as [n Hin].
    apply (Bb n). rewrite nth_error_map, Hin. reflexivity. }
  split; [exact G|]. intros IH IK Hn Hh Hk.
  assert (Hin : In b rows).
  { apply (table_of_node f K H rows b T Hh Hk). destruct (table_row _ _ _ _ _ _ T' Nb) as (? & ? & _ & _ & _ & _ & E). exact E. }
  destruct Ba as [[C _]|(_ & Ba & _)].
  - specialize (G IH IK Hn). rewrite (leb_nan_l N L) in G by exact C. discriminate.
  - apply In_nth_error in Hin as [n Hin]. apply (Ba n). rewrite nth_error_map, Hin. reflexivity.
Qed.
Lemma clip_same (t1 t2 : list (row N)) : same_nodes t1 t2 -> same_nodes (map clip_row t1) (map clip_row t2).
Proof.
  intros H a b Ha Hb EH EK. apply in_map_iff in Ha as (a0 & <- & Ha). apply in_map_iff in Hb as (b0 & <- & Hb).
  assert (KH : forall r : row N, rH (clip_row r) = rH r) by (intro r; unfold clip_row; destruct (nleb _ _); reflexivity).
  assert (KK : forall r : row N, rK (clip_row r) = rK r) by (intro r; unfold clip_row; destruct (nleb _ _); reflexivity).
  rewrite !KH in EH. rewrite !KK in EK. pose proof (H a0 b0 Ha Hb EH EK) as E. unfold clip_row. rewrite E. destruct (nleb _ _); cbn; congruence.
Qed.
End Tables.

(** C107: hk. *)
Theorem C107_hk (N : Num) (L : OrdLaws N) km1 stackO draw (rf : stream N) pre H K H' K' Vp w1 w2 w3 layer stack r r' :
  hk km1 stackO draw rf pre H K Vp w1 w2 w3 layer stack = Ok r ->
  hk km1 stackO draw rf pre H' K' Vp w1 w2 w3 layer stack = Ok r' ->
  same_nodes (hr_stk r) (hr_stk r') /\
  forall a b, nth_error (hr_stk r) (hr_best r) = Some a -> nth_error (hr_stk r') (hr_best r') = Some b -> refined H K H' K' a b.
Proof.
  intros E E'. apply hk_inv in E as (SR & st0 & tr0 & u & E1 & E2 & E3 & T & A & _ & _).
  apply hk_inv in E' as (SR' & st0' & tr0' & u' & E1' & E2' & E3' & T' & A' & _ & _).
  rewrite E1 in E1'. inversion E1'; subst SR'. rewrite E2 in E2'. inversion E2'; subst st0'. rewrite E3 in E3'. inversion E3'; subst tr0'.
  split; [eapply table_same; eassumption|]. intros a b Na Nb. apply best_first_of in A, A'; [|exact L|exact L].
  exact (table_refined L _ _ _ _ _ _ _ _ _ a b T T' A A' Na Nb).
Qed.

(** C107: hkSynth. *)
Theorem C107_hkSynth (N : Num) (L : OrdLaws N) draw (data time : list N) p pk H K H' K' Vp w1 w2 w3 layer r r' :
  hkSynth draw data time p pk H K Vp w1 w2 w3 layer = Ok r ->
  hkSynth draw data time p pk H' K' Vp w1 w2 w3 layer = Ok r' ->
  same_nodes (hs_stk r) (hs_stk r') /\
  forall a b, nth_error (hs_stk r) (hs_best r) = Some a -> nth_error (hs_stk r') (hs_best r') = Some b -> refined H K H' K' a b.
Proof.
  intros E E'. apply hkSynth_inv in E as (u & T & A & _ & _). apply hkSynth_inv in E' as (u' & T' & A' & _ & _).
  split; [eapply table_same; eassumption|]. intros a b Na Nb. apply best_first_of in A, A'; [|exact L|exact L].
  exact (table_refined L _ _ _ _ _ _ _ _ _ a b T T' A A' Na Nb).
Qed.

(** C107: hkYu. *)
Theorem C107_hkYu (N : Num) (L : OrdLaws N) draw (flt time : list N) tlag tk p pk H K H' K' VM VS vs a b c r r' :
  hkYu draw flt time tlag tk p pk H K VM VS vs a b c = Ok r ->
  hkYu draw flt time tlag tk p pk H' K' VM VS vs a b c = Ok r' ->
  same_nodes (yr_stk r) (yr_stk r') /\
  forall x y, nth_error (yr_stk r) (yr_best r) = Some x -> nth_error (yr_stk r') (yr_best r') = Some y -> refined H K H' K' x y.
Proof.
  intros E E'. apply hkYu_inv in E as (v & x1 & x2 & u & Ev & Eh & Ea & Eb & Ep & T & A & _ & _).
  apply hkYu_inv in E' as (v' & y1 & y2 & u' & Ev' & Eh' & Ea' & Eb' & Ep' & T' & A' & _ & _).
  assert (yr_Pdelay r' = yr_Pdelay r).
  { rewrite Ev in Ev'. inversion Ev'; subst v'. rewrite Eh' in Ea', Eb'. rewrite Eh in Ea, Eb. rewrite Ep, Ep'. congruence. }
  rewrite H0 in T'. split; [eapply table_same; eassumption|]. intros x y Nx Ny. apply best_first_of in A, A'; [|exact L|exact L].
  exact (table_refined L _ _ _ _ _ _ _ _ _ x y T T' A A' Nx Ny).
Qed.

(** C107: hkSeq.  The sediment table does not depend on the grids; the Moho table depends
    on the sediment grid only through the best sediment model. *)
Theorem C107_hkSeq (N : Num) (L : OrdLaws N) km1 stackO draw (rfS rfM : stream N) pre HS KS HS' KS' VS a b c HM KM HM' KM' VM d e f stack r r' :
  hkSeq km1 stackO draw rfS rfM pre HS KS VS a b c HM KM VM d e f stack = Ok r ->
  hkSeq km1 stackO draw rfS rfM pre HS' KS' VS a b c HM' KM' VM d e f stack = Ok r' ->
  same_nodes (sr_stkSed r) (sr_stkSed r') /\
  forall x y, nth_error (sr_stkSed r) (sr_bestSed r) = Some x -> nth_error (sr_stkSed r') (sr_bestSed r') = Some y ->
    refined HS KS HS' KS' x y /\
    (rH x = rH y -> rK x = rK y -> same_nodes (sr_stkMoho r) (sr_stkMoho r')).
Proof.
  intros E E'. apply hkSeq_inv in E as (SS & stS0 & SM & stM0 & tr0 & u & u2 & bm & rowsM & E1 & E2 & E3 & E4 & E5 & T & A & _ & B & TM & AM & _ & EM & _).
  apply hkSeq_inv in E' as (SS' & stS0' & SM' & stM0' & tr0' & u' & u2' & bm' & rowsM' & E1' & E2' & E3' & E4' & E5' & T' & A' & _ & B' & TM' & AM' & _ & EM' & _).
  assert (SS' = SS) by congruence. assert (SM' = SM) by congruence. subst. assert (stS0' = stS0) by congruence. assert (stM0' = stM0) by congruence. assert (tr0' = tr0) by congruence. subst.
  split; [eapply table_same; eassumption|]. intros x y Nx Ny. assert (bm = x) by congruence. assert (bm' = y) by congruence. subst bm bm'. split.
  - apply best_first_of in A, A'; [|exact L|exact L]. exact (table_refined L _ _ _ _ _ _ _ _ _ x y T T' A A' Nx Ny).
  - intros EH EK. rewrite EM, EM'. apply clip_same. rewrite EH, EK in TM. eapply table_same; eassumption.
Qed.

(** C107: hkSeqSynth. *)
Theorem C107_hkSeqSynth (N : Num) (L : OrdLaws N) draw (dS dM time : list N) p pk HS KS HS' KS' VS a b c HM KM HM' KM' VM d e f r r' :
  hkSeqSynth draw dS dM time p pk HS KS VS a b c HM KM VM d e f = Ok r ->
  hkSeqSynth draw dS dM time p pk HS' KS' VS a b c HM' KM' VM d e f = Ok r' ->
  same_nodes (ss_stkSed r) (ss_stkSed r') /\
  forall x y, nth_error (ss_stkSed r) (ss_bestSed r) = Some x -> nth_error (ss_stkSed r') (ss_bestSed r') = Some y ->
    refined HS KS HS' KS' x y /\
    (rH x = rH y -> rK x = rK y -> same_nodes (ss_stkMoho r) (ss_stkMoho r')).
Proof.
  intros E E'. apply hkSeqSynth_inv in E as (u & u2 & bm & rowsM & T & A & _ & B & TM & AM & _ & EM & _).
  apply hkSeqSynth_inv in E' as (u' & u2' & bm' & rowsM' & T' & A' & _ & B' & TM' & AM' & _ & EM' & _).
  split; [eapply table_same; eassumption|]. intros x y Nx Ny. assert (bm = x) by congruence. assert (bm' = y) by congruence. subst bm bm'. split.
  - apply best_first_of in A, A'; [|exact L|exact L]. exact (table_refined L _ _ _ _ _ _ _ _ _ x y T T' A A' Nx Ny).
  - intros EH EK. rewrite EM, EM'. apply clip_same. rewrite EH, EK in TM. eapply table_same; eassumption.
Qed.
