(** * P_Show: the console and the screen of the H-k programs (C92, C93). *)

From Verif Require Import Base Num NumPy HkModel HkProofs HkFacts P_Hk PlotModel ShowModel.

Section Laws.
Context {N : Num}.
Implicit Types (log : list (cev N)).

(** ** Specification *)

(** One figure: the contour of a table, a mark (and its label) at a row, axis limits, on screen. *)
Definition screen (tbl : list (row N)) (bm : row N) (hl kl : N * N) : list (cev N) :=
  [CContour tbl; CBest (rH bm) (rK bm); CXlim (fst hl) (snd hl); CYlim (fst kl) (snd kl); CShow].

(** The limits are two grid values and, when no grid value is NaN, contain the whole grid. *)
Definition encloses (l : list N) (p : N * N) : Prop :=
  In (fst p) l /\ In (snd p) l /\
  ((forall x, In x l -> nisnan x = false) -> forall x, In x l -> nleb (fst p) x = true /\ nleb x (snd p) = true).

(** A printed line about a model: depth, Vp/Vs, stack value. *)
Definition line (what : string) (bm : row N) : cev N := CPrint what [rH bm; rK bm; rS bm].

(** ** Lemmas *)

Lemma clift_ok {A} (r : res A) log log' a : clift r log = (log', Ok a) -> log' = log /\ r = Ok a.
Proof. unfold clift. intro E. injection E as <- ->. auto. Qed.
Lemma cbind_ok {A B} (m : CM A) (f : A -> CM B) log log' b :
  cbind m f log = (log', Ok b) -> exists l a, m log = (l, Ok a) /\ f a l = (log', Ok b).
Proof. unfold cbind. destruct (m log) as [l [a|e]]; intro E; [eauto|discriminate]. Qed.
Lemma print_ok what v log log' u : print_ (N := N) what v log = (log', Ok u) -> log' = log ++ [CPrint what v].
Proof. unfold print_. intro E. injection E as <-. reflexivity. Qed.
Lemma plt_ok pyplot e log log' u : plt_ (N := N) pyplot e log = (log', Ok u) -> log' = log ++ [e].
Proof. unfold plt_. destruct (pyplot log e); intro E; [discriminate|]. injection E as <-. reflexivity. Qed.

Context (L : OrdLaws N).

Lemma pymin_spec (l : list N) m : pymin l = Ok m -> In m l /\
  ((forall x, In x l -> nisnan x = false) -> forall x, In x l -> nleb m x = true).
Proof.
  destruct l as [|x l]; [discriminate|]. cbn [pymin]. intro E. injection E as <-.
  assert (R : forall a : N, nisnan a = false -> nleb a a = true) by (intros a Ha; destruct (leb_total N L a a Ha Ha); assumption).
  revert x. induction l as [|y l IH]; intro x; cbn [fold_left].
  - split; [now left|]. intros Hn z [<-|[]]. apply R, Hn. now left.
  - destruct (IH (if nltb y x then y else x)) as [I1 I2]. split.
    + destruct I1 as [<-|I1]; [destruct (nltb y x); [right; now left|now left]|right; right; exact I1].
    + intro Hn. assert (Hx := Hn x (or_introl eq_refl)). assert (Hy := Hn y (or_intror (or_introl eq_refl))).
      assert (C : forall z, In z ((if nltb y x then y else x) :: l) -> nisnan z = false).
      { intros z [<-|Hz]; [destruct (nltb y x); assumption|apply Hn; right; right; exact Hz]. }
      specialize (I2 C). set (m := fold_left _ l _) in *.
      assert (M : nleb m (if nltb y x then y else x) = true) by (apply I2; now left).
      rewrite (ltb_leb N L y x Hy Hx) in M. destruct (nleb x y) eqn:Exy; cbn [negb] in M.
      * intros z [<-|[<-|Hz]]; [exact M|exact (leb_trans N L _ _ _ M Exy)|apply I2; now right].
      * assert (Eyx : nleb y x = true) by (destruct (leb_total N L x y Hx Hy) as [Q|Q]; [congruence|exact Q]).
        intros z [<-|[<-|Hz]]; [exact (leb_trans N L _ _ _ M Eyx)|exact M|apply I2; now right].
Qed.

Lemma pymax_spec (l : list N) m : pymax l = Ok m -> In m l /\
  ((forall x, In x l -> nisnan x = false) -> forall x, In x l -> nleb x m = true).
Proof.
  destruct l as [|x l]; [discriminate|]. cbn [pymax]. intro E. injection E as <-.
  assert (R : forall a : N, nisnan a = false -> nleb a a = true) by (intros a Ha; destruct (leb_total N L a a Ha Ha); assumption).
  revert x. induction l as [|y l IH]; intro x; cbn [fold_left].
  - split; [now left|]. intros Hn z [<-|[]]. apply R, Hn. now left.
  - destruct (IH (if nltb x y then y else x)) as [I1 I2]. split.
    + destruct I1 as [<-|I1]; [destruct (nltb x y); [right; now left|now left]|right; right; exact I1].
    + intro Hn. assert (Hx := Hn x (or_introl eq_refl)). assert (Hy := Hn y (or_intror (or_introl eq_refl))).
      assert (C : forall z, In z ((if nltb x y then y else x) :: l) -> nisnan z = false).
      { intros z [<-|Hz]; [destruct (nltb x y); assumption|apply Hn; right; right; exact Hz]. }
      specialize (I2 C). set (m := fold_left _ l _) in *.
      assert (M : nleb (if nltb x y then y else x) m = true) by (apply I2; now left).
      rewrite (ltb_leb N L x y Hx Hy) in M. destruct (nleb y x) eqn:Eyx; cbn [negb] in M.
      * intros z [<-|[<-|Hz]]; [exact M|exact (leb_trans N L _ _ _ Eyx M)|apply I2; now right].
      * assert (Exy : nleb x y = true) by (destruct (leb_total N L x y Hx Hy) as [Q|Q]; [exact Q|congruence]).
        intros z [<-|[<-|Hz]]; [exact (leb_trans N L _ _ _ Exy M)|exact M|apply I2; now right].
Qed.

Lemma show_ok pyplot stk ib H K log log' u : show_table (N := N) pyplot stk ib H K log = (log', Ok u) ->
  exists bm hl kl, nth_error stk ib = Some bm /\ encloses H hl /\ encloses K kl /\ log' = log ++ screen stk bm hl kl.
Proof.
  unfold show_table. intro E.
  apply cbind_ok in E. destruct E as (l1 & u1 & E1 & E). apply plt_ok in E1.
  apply cbind_ok in E. destruct E as (l2 & bm & E2 & E). apply clift_ok in E2. destruct E2 as [-> E2]. apply getitem_Ok in E2.
  apply cbind_ok in E. destruct E as (l3 & u3 & E3 & E). apply plt_ok in E3.
  apply cbind_ok in E. destruct E as (l4 & hlo & E4 & E). apply clift_ok in E4. destruct E4 as [-> E4].
  apply cbind_ok in E. destruct E as (l5 & hhi & E5 & E). apply clift_ok in E5. destruct E5 as [-> E5].
  apply cbind_ok in E. destruct E as (l6 & u6 & E6 & E). apply plt_ok in E6.
  apply cbind_ok in E. destruct E as (l7 & klo & E7 & E). apply clift_ok in E7. destruct E7 as [-> E7].
  apply cbind_ok in E. destruct E as (l8 & khi & E8 & E). apply clift_ok in E8. destruct E8 as [-> E8].
  apply cbind_ok in E. destruct E as (l9 & u9 & E9 & E). apply plt_ok in E9, E.
  exists bm, (hlo, hhi), (klo, khi). unfold encloses. cbn [fst snd].
  destruct (pymin_spec _ _ E4) as [A1 A2], (pymax_spec _ _ E5) as [A3 A4], (pymin_spec _ _ E7) as [A5 A6], (pymax_spec _ _ E8) as [A7 A8].
  repeat split; auto. subst. rewrite <- !app_assoc. reflexivity.
Qed.
End Laws.

(** [hkSeq] and [hkSeqSynth] are their two stages with the drawings in between. *)
Lemma bind_assoc {A B C} (x : res A) (f : A -> res B) (g : B -> res C) : bind (bind x f) g = bind x (fun a => bind (f a) g).
Proof. destruct x; reflexivity. Qed.

Lemma hkSeq_stages {N : Num} km1 stackO draw (rfS rfM : stream N) pre HS KS VS a b c HM KM VM d e f stack :
  hkSeq km1 stackO draw rfS rfM pre HS KS VS a b c HM KM VM d e f stack =
  (let VpSed := dflt VS (nlit 30 10) in
   let st := dflt stack false in
   SS <- stackO rfS ;; stS0 <- getitem SS 0 ;; SM <- stackO rfM ;; stM0 <- getitem SM 0 ;; tr0 <- getitem rfS 0 ;;
   let t := taxis (tr_delta tr0) (length (tr_data tr0)) pre in
   sed <- seq_sed km1 rfS st stS0 (avgslow rfM) t HS KS VpSed (dflt a (nlit 6 10)) (dflt b (nlit 3 10)) (dflt c (nlit 1 10)) ;;
   _ <- draw (fst sed) ;;
   bm <- getitem (fst sed) (snd sed) ;;
   moho <- seq_moho km1 rfM st stM0 (avgslow rfM) t (rH bm) (rK bm) VpSed HM KM VM d e f ;;
   _ <- draw (fst moho) ;;
   Ok (mkSeqRes rfS (tr_data stS0) rfM (tr_data stM0) t (snd sed) (fst sed) (snd moho) (fst moho) st (tr_chan tr0) (avgslow rfM)
        VpSed VM HS KS HM KM (tr_sta tr0))).
Proof.
  unfold hkSeq, seq_sed, seq_moho. cbn zeta.
  destruct (stackO rfS) as [SS|]; [|reflexivity]. cbn [bind]. destruct (getitem SS 0) as [stS0|]; [|reflexivity]. cbn [bind].
  destruct (stackO rfM) as [SM|]; [|reflexivity]. cbn [bind]. destruct (getitem SM 0) as [stM0|]; [|reflexivity]. cbn [bind].
  destruct (getitem rfS 0) as [tr0|]; [|reflexivity]. cbn [bind].
  match goal with |- bind ?x _ = _ => destruct x as [[[stkS zS] qS]|]; [|reflexivity] end. cbn [bind].
  destruct (argmax (map rS stkS)) as [ibS|]; [|reflexivity]. cbn [bind fst snd].
  destruct (draw stkS) as [u|]; [|reflexivity]. cbn [bind].
  destruct (getitem stkS ibS) as [bm|]; [|reflexivity]. cbn [bind].
  match goal with |- bind ?x _ = _ => destruct x as [[[stkM zM] qM]|]; [|reflexivity] end. cbn [bind].
  destruct (argmax (map rS stkM)) as [ibM|]; [|reflexivity]. cbn [bind].
  destruct (clip_loop stkM) as [stkM'|]; [|reflexivity]. reflexivity.
Qed.

Lemma hkSeqSynth_stages {N : Num} draw (rfS rfM time : list N) p pk HS KS VS a b c HM KM VM d e f :
  hkSeqSynth draw rfS rfM time p pk HS KS VS a b c HM KM VM d e f =
  (let VpSed := dflt VS (nlit 30 10) in
   sed <- synth_sed rfS time p pk HS KS VpSed (dflt a (nlit 6 10)) (dflt b (nlit 3 10)) (dflt c (nlit 1 10)) ;;
   _ <- draw (fst sed) ;;
   bm <- getitem (fst sed) (snd sed) ;;
   moho <- synth_moho rfM time p pk (rH bm) (rK bm) VpSed HM KM VM d e f ;;
   _ <- draw (fst moho) ;;
   Ok (mkSeqsRes rfS rfM time (snd sed) (fst sed) (snd moho) (fst moho) p VpSed VM HS KS HM KM)).
Proof.
  unfold hkSeqSynth, synth_sed, synth_moho. cbn zeta.
  match goal with |- bind ?x _ = _ => destruct x as [[stkS zS]|]; [|reflexivity] end. cbn [bind].
  destruct (argmax (map rS stkS)) as [ibS|]; [|reflexivity]. cbn [bind fst snd].
  destruct (draw stkS) as [u|]; [|reflexivity]. cbn [bind].
  destruct (getitem stkS ibS) as [bm|]; [|reflexivity]. cbn [bind].
  match goal with |- bind ?x _ = _ => destruct x as [[stkM zM]|]; [|reflexivity] end. cbn [bind].
  destruct (argmax (map rS stkM)) as [ibM|]; [|reflexivity]. cbn [bind].
  destruct (clip_loop stkM) as [stkM'|]; [|reflexivity]. reflexivity.
Qed.

Tactic Notation "cb" hyp(E) ident(l) ident(a) ident(E1) := apply cbind_ok in E; destruct E as (l & a & E1 & E).

(** ** C93: everything the programs show, in order, when they return.

    The result is the one of the computation (HkModel); each figure is the contour of the returned table, marked at
    its best row, with limits that enclose the grids; then the printed line. *)

Theorem C93_hk (N : Num) (L : OrdLaws N) pyplot km1 stackO (rf : stream N) pre H K Vp w1 w2 w3 layer stack log log' r :
  hk_shown pyplot km1 stackO rf pre H K Vp w1 w2 w3 layer stack log = (log', Ok r) ->
  hk km1 stackO nodraw rf pre H K Vp w1 w2 w3 layer stack = Ok r /\
  exists bm hl kl, nth_error (hr_stk r) (hr_best r) = Some bm /\ encloses H hl /\ encloses K kl /\
    log' = log ++ screen (hr_stk r) bm hl kl ++ [line "Best depth" bm].
Proof.
  unfold hk_shown. intro E. cb E l1 r1 E1. apply clift_ok in E1. destruct E1 as [-> E1].
  cb E l2 u2 E2. apply (show_ok L) in E2. destruct E2 as (bm & hl & kl & B & Eh & Ek & ->).
  cb E l3 b3 E3. apply clift_ok in E3. destruct E3 as [-> E3]. apply getitem_Ok in E3. rewrite B in E3. injection E3 as <-.
  cb E l4 u4 E4. apply print_ok in E4. injection E as <- <-. subst l4. split; [exact E1|].
  exists bm, hl, kl. rewrite <- app_assoc. auto.
Qed.

Theorem C93_hkSynth (N : Num) (L : OrdLaws N) pyplot (data time : list N) p pk H K Vp w1 w2 w3 layer log log' r :
  hkSynth_shown pyplot data time p pk H K Vp w1 w2 w3 layer log = (log', Ok r) ->
  hkSynth nodraw data time p pk H K Vp w1 w2 w3 layer = Ok r /\
  exists bm hl kl, nth_error (hs_stk r) (hs_best r) = Some bm /\ encloses H hl /\ encloses K kl /\
    log' = log ++ screen (hs_stk r) bm hl kl ++ [line "Best depth" bm].
Proof.
  unfold hkSynth_shown. intro E. cb E l1 r1 E1. apply clift_ok in E1. destruct E1 as [-> E1].
  cb E l2 u2 E2. apply (show_ok L) in E2. destruct E2 as (bm & hl & kl & B & Eh & Ek & ->).
  cb E l3 b3 E3. apply clift_ok in E3. destruct E3 as [-> E3]. apply getitem_Ok in E3. rewrite B in E3. injection E3 as <-.
  cb E l4 u4 E4. apply print_ok in E4. injection E as <- <-. subst l4. split; [exact E1|].
  exists bm, hl, kl. rewrite <- app_assoc. auto.
Qed.

Theorem C93_hkYu (N : Num) (L : OrdLaws N) pyplot (flt time : list N) tlag tk p pk H K VM VS vs a b c log log' r :
  hkYu_shown pyplot flt time tlag tk p pk H K VM VS vs a b c log = (log', Ok r) ->
  hkYu nodraw flt time tlag tk p pk H K VM VS vs a b c = Ok r /\
  exists bm hl kl, nth_error (yr_stk r) (yr_best r) = Some bm /\ encloses H hl /\ encloses K kl /\
    log' = log ++ [CPrint "Sediment thickness" [yr_SedThick r]] ++ screen (yr_stk r) bm hl kl ++ [line "Best Subsediment thickness" bm].
Proof.
  unfold hkYu_shown. intro E. cb E l0 v0 E0. apply clift_ok in E0. destruct E0 as [-> E0].
  cb E l5 u5 E5. apply print_ok in E5.
  cb E l1 r1 E1. apply clift_ok in E1. destruct E1 as [-> E1].
  cb E l2 u2 E2. apply (show_ok L) in E2. destruct E2 as (bm & hl & kl & B & Eh & Ek & ->).
  cb E l3 b3 E3. apply clift_ok in E3. destruct E3 as [-> E3]. apply getitem_Ok in E3. rewrite B in E3. injection E3 as <-.
  cb E l4 u4 E4. apply print_ok in E4. injection E as <- <-. subst l4 l5. split; [exact E1|].
  exists bm, hl, kl. pose proof E1 as X. apply hkYu_inv in X. destruct X as (vs' & q1 & q2 & u0 & Ev & ES & _).
  rewrite Ev in E0. injection E0 as <-. rewrite ES, <- !app_assoc. auto.
Qed.

Theorem C93_hkSeq (N : Num) (L : OrdLaws N) pyplot km1 stackO (rfS rfM : stream N) pre HS KS VS a b c HM KM VM d e f stack log log' r :
  hkSeq_shown pyplot km1 stackO rfS rfM pre HS KS VS a b c HM KM VM d e f stack log = (log', Ok r) ->
  hkSeq km1 stackO nodraw rfS rfM pre HS KS VS a b c HM KM VM d e f stack = Ok r /\
  exists bmS hlS klS bmM hlM klM,
    nth_error (sr_stkSed r) (sr_bestSed r) = Some bmS /\ encloses HS hlS /\ encloses KS klS /\
    nth_error (sr_stkMoho r) (sr_bestMoho r) = Some bmM /\ encloses HM hlM /\ encloses KM klM /\
    log' = log ++ screen (sr_stkSed r) bmS hlS klS ++ [line "Best Sediment depth" bmS] ++
           screen (sr_stkMoho r) bmM hlM klM ++ [CPrint "Best Moho depth" [rH bmM; rK bmM; rS bmS]].
Proof.
  rewrite hkSeq_stages. unfold hkSeq_shown. cbn zeta. intro E.
  cb E l1 SS E1. apply clift_ok in E1. destruct E1 as [-> ->]. cb E l2 stS0 E2. apply clift_ok in E2. destruct E2 as [-> E2].
  cb E l3 SM E3. apply clift_ok in E3. destruct E3 as [-> ->]. cb E l4 stM0 E4. apply clift_ok in E4. destruct E4 as [-> E4].
  cb E l5 tr0 E5. apply clift_ok in E5. destruct E5 as [-> E5].
  cb E l6 sed E6. apply clift_ok in E6. destruct E6 as [-> E6]. destruct sed as [stkS ibS].
  cb E l7 u7 E7. apply (show_ok L) in E7. destruct E7 as (bmS & hlS & klS & BS & EhS & EkS & ->).
  cb E l8 b8 E8. apply clift_ok in E8. destruct E8 as [-> E8]. pose proof E8 as E8'. apply getitem_Ok in E8'. rewrite BS in E8'. injection E8' as <-.
  cb E l9 u9 E9. apply print_ok in E9.
  cb E l10 moho E10. apply clift_ok in E10. destruct E10 as [-> E10]. destruct moho as [stkM ibM].
  cb E l11 u11 E11. apply (show_ok L) in E11. destruct E11 as (bmM & hlM & klM & BM & EhM & EkM & ->).
  cb E l12 b12 E12. apply clift_ok in E12. destruct E12 as [-> E12]. apply getitem_Ok in E12. rewrite BM in E12. injection E12 as <-.
  cb E l13 u13 E13. apply print_ok in E13. unfold cret in E. injection E as <- <-. subst l13 l9.
  cbn [bind]. rewrite E2. cbn [bind]. rewrite E4. cbn [bind]. rewrite E5. cbn [bind]. rewrite E6. cbn [bind fst snd nodraw]. rewrite E8. cbn [bind]. rewrite E10. cbn [bind fst snd nodraw].
  split; [reflexivity|]. cbn [sr_stkSed sr_bestSed sr_stkMoho sr_bestMoho].
  exists bmS, hlS, klS, bmM, hlM, klM. rewrite <- !app_assoc. repeat (split; [assumption|]). reflexivity.
Qed.

Theorem C93_hkSeqSynth (N : Num) (L : OrdLaws N) pyplot (rfS rfM time : list N) p pk HS KS VS a b c HM KM VM d e f log log' r :
  hkSeqSynth_shown pyplot rfS rfM time p pk HS KS VS a b c HM KM VM d e f log = (log', Ok r) ->
  hkSeqSynth nodraw rfS rfM time p pk HS KS VS a b c HM KM VM d e f = Ok r /\
  exists bmS hlS klS bmM hlM klM,
    nth_error (ss_stkSed r) (ss_bestSed r) = Some bmS /\ encloses HS hlS /\ encloses KS klS /\
    nth_error (ss_stkMoho r) (ss_bestMoho r) = Some bmM /\ encloses HM hlM /\ encloses KM klM /\
    log' = log ++ screen (ss_stkSed r) bmS hlS klS ++ [line "Best Sediment depth" bmS] ++
           screen (ss_stkMoho r) bmM hlM klM ++ [CPrint "Best Moho depth" [rH bmM; rK bmM; rS bmS]].
Proof.
  rewrite hkSeqSynth_stages. unfold hkSeqSynth_shown. cbn zeta. intro E.
  cb E l6 sed E6. apply clift_ok in E6. destruct E6 as [-> E6]. destruct sed as [stkS ibS].
  cb E l7 u7 E7. apply (show_ok L) in E7. destruct E7 as (bmS & hlS & klS & BS & EhS & EkS & ->).
  cb E l8 b8 E8. apply clift_ok in E8. destruct E8 as [-> E8]. pose proof E8 as E8'. apply getitem_Ok in E8'. rewrite BS in E8'. injection E8' as <-.
  cb E l9 u9 E9. apply print_ok in E9.
  cb E l10 moho E10. apply clift_ok in E10. destruct E10 as [-> E10]. destruct moho as [stkM ibM].
  cb E l11 u11 E11. apply (show_ok L) in E11. destruct E11 as (bmM & hlM & klM & BM & EhM & EkM & ->).
  cb E l12 b12 E12. apply clift_ok in E12. destruct E12 as [-> E12]. apply getitem_Ok in E12. rewrite BM in E12. injection E12 as <-.
  cb E l13 u13 E13. apply print_ok in E13. unfold cret in E. injection E as <- <-. subst l13 l9.
  rewrite E6. cbn [bind fst snd nodraw]. rewrite E8. cbn [bind]. rewrite E10. cbn [bind fst snd nodraw].
  split; [reflexivity|]. cbn [ss_stkSed ss_bestSed ss_stkMoho ss_bestMoho].
  exists bmS, hlS, klS, bmM, hlM, klM. rewrite <- !app_assoc. repeat (split; [assumption|]). reflexivity.
Qed.
