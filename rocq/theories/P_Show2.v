(** * P_Show2: the printed lines (C92), interrupted runs, concrete cases. *)

From Verif Require Import Base Num NumPy Spec HkModel HkProofs HkFacts P_Hk PlotModel ShowModel P_Show.
From Coq Require Import Floats.SpecFloat.

(** The printed lines of a log. *)
Definition printed {N : Num} (es : list (cev N)) : list (string * list N) :=
  flat_map (fun e => match e with CPrint w v => [(w, v)] | _ => [] end) es.
Definition model_line {N : Num} (what : string) (bm : row N) : string * list N := (what, [rH bm; rK bm; rS bm]).

Lemma printed_app {N : Num} (a b : list (cev N)) : printed (a ++ b) = printed a ++ printed b.
Proof. apply flat_map_app. Qed.

(** [bm] is the row the program returns as best, and its value is the maximum of the returned table (the first NaN, if
    there is one). *)
Definition best_row {N : Num} (stk : list (row N)) (ib : nat) (bm : row N) : Prop :=
  nth_error stk ib = Some bm /\ best_first (map rS stk) ib.

Theorem C92_hk (N : Num) (L : OrdLaws N) pyplot km1 stackO (rf : stream N) pre H K Vp w1 w2 w3 layer stack log log' r :
  hk_shown pyplot km1 stackO rf pre H K Vp w1 w2 w3 layer stack log = (log', Ok r) ->
  exists bm, best_row (hr_stk r) (hr_best r) bm /\ printed log' = printed log ++ [model_line "Best depth" bm].
Proof.
  intro E. apply (C93_hk N L) in E. destruct E as (E & bm & hl & kl & B & _ & _ & ->).
  exists bm. split; [split; [exact B|exact (C07_hk_best N L _ _ _ _ _ _ _ _ _ _ _ _ _ _ E)]|]. rewrite !printed_app. reflexivity.
Qed.

Theorem C92_hkSynth (N : Num) (L : OrdLaws N) pyplot (data time : list N) p pk H K Vp w1 w2 w3 layer log log' r :
  hkSynth_shown pyplot data time p pk H K Vp w1 w2 w3 layer log = (log', Ok r) ->
  exists bm, best_row (hs_stk r) (hs_best r) bm /\ printed log' = printed log ++ [model_line "Best depth" bm].
Proof.
  intro E. apply (C93_hkSynth N L) in E. destruct E as (E & bm & hl & kl & B & _ & _ & ->).
  exists bm. split; [split; [exact B|exact (C07_hkSynth_best N L _ _ _ _ _ _ _ _ _ _ _ _ _ E)]|]. rewrite !printed_app. reflexivity.
Qed.

Theorem C92_hkYu (N : Num) (L : OrdLaws N) pyplot (flt time : list N) tlag tk p pk H K VM VS vs a b c log log' r :
  hkYu_shown pyplot flt time tlag tk p pk H K VM VS (Some vs) a b c log = (log', Ok r) ->
  exists bm, best_row (yr_stk r) (yr_best r) bm /\
    printed log' = printed log ++ [("Sediment thickness"%string, [ndiv (nmul tlag vs) (nofZ 2)]); model_line "Best Subsediment thickness" bm].
Proof.
  intro E. apply (C93_hkYu N L) in E. destruct E as (E & bm & hl & kl & B & _ & _ & ->).
  pose proof E as X. apply hkYu_inv in X. destruct X as (vs' & q1 & q2 & u0 & Ev & ES & _ & _ & _ & _ & Am & _). injection Ev as <-.
  exists bm. split; [split; [exact B|apply (best_first_of L); exact Am]|]. rewrite ES, !printed_app. reflexivity.
Qed.

(** The sequential programs: the sediment line is right; the Moho line gives the Moho model with the SEDIMENT's value. *)
Theorem C92_hkSeq (N : Num) (L : OrdLaws N) pyplot km1 stackO (rfS rfM : stream N) pre HS KS VS a b c HM KM VM d e f stack log log' r :
  hkSeq_shown pyplot km1 stackO rfS rfM pre HS KS VS a b c HM KM VM d e f stack log = (log', Ok r) ->
  exists bmS bmM, best_row (sr_stkSed r) (sr_bestSed r) bmS /\ nth_error (sr_stkMoho r) (sr_bestMoho r) = Some bmM /\
    printed log' = printed log ++ [model_line "Best Sediment depth" bmS; ("Best Moho depth"%string, [rH bmM; rK bmM; rS bmS])].
Proof.
  intro E. apply (C93_hkSeq N L) in E. destruct E as (E & bmS & hlS & klS & bmM & hlM & klM & BS & _ & _ & BM & _ & _ & ->).
  exists bmS, bmM. split; [split; [exact BS|exact (C07_hkSeq_best_sed N L _ _ _ _ _ _ _ _ _ _ _ _ _ _ _ _ _ _ _ _ E)]|].
  split; [exact BM|]. rewrite !printed_app. reflexivity.
Qed.

Theorem C92_hkSeqSynth (N : Num) (L : OrdLaws N) pyplot (rfS rfM time : list N) p pk HS KS VS a b c HM KM VM d e f log log' r :
  hkSeqSynth_shown pyplot rfS rfM time p pk HS KS VS a b c HM KM VM d e f log = (log', Ok r) ->
  exists bmS bmM, best_row (ss_stkSed r) (ss_bestSed r) bmS /\ nth_error (ss_stkMoho r) (ss_bestMoho r) = Some bmM /\
    printed log' = printed log ++ [model_line "Best Sediment depth" bmS; ("Best Moho depth"%string, [rH bmM; rK bmM; rS bmS])].
Proof.
  intro E. apply (C93_hkSeqSynth N L) in E. destruct E as (E & bmS & hlS & klS & bmM & hlM & klM & BS & _ & _ & BM & _ & _ & ->).
  apply hkSeqSynth_inv in E. destruct E as (u & u' & bm & rowsM & _ & Am & _).
  exists bmS, bmM. split; [split; [exact BS|apply (best_first_of L); exact Am]|].
  split; [exact BM|]. rewrite !printed_app. reflexivity.
Qed.

(** The Moho line shows the value of the best Moho model exactly when the two best values happen to be equal. *)
Theorem C92_hkSeq_moho_line_iff (N : Num) (L : OrdLaws N) pyplot km1 stackO (rfS rfM : stream N) pre HS KS VS a b c HM KM VM d e f stack log r bmS bmM :
  hkSeq_shown pyplot km1 stackO rfS rfM pre HS KS VS a b c HM KM VM d e f stack [] = (log, Ok r) ->
  nth_error (sr_stkSed r) (sr_bestSed r) = Some bmS -> nth_error (sr_stkMoho r) (sr_bestMoho r) = Some bmM ->
  (In (model_line "Best Moho depth" bmM) (printed log) <-> rS bmM = rS bmS).
Proof.
  intros E BS BM. apply (C92_hkSeq N L) in E. destruct E as (bmS' & bmM' & [BS' _] & BM' & ->).
  rewrite BS in BS'. injection BS' as <-. rewrite BM in BM'. injection BM' as <-. cbn [printed flat_map app In]. unfold model_line. split.
  - intros [X|[X|[]]]; [discriminate X|]. injection X as X. symmetry. exact X.
  - intros ->. right. now left.
Qed.

(** ** Interrupted runs: whatever raises, nothing wrong has been printed. *)
Definition silent {N : Num} {A} (m : @CM N A) : Prop := forall log, printed (fst (m log)) = printed log /\ exists es, fst (m log) = log ++ es.
Lemma silent_lift {N : Num} {A} (r : res A) : @silent N A (clift r).
Proof. intro log. split; [reflexivity|exists []; cbn; now rewrite app_nil_r]. Qed.
Lemma silent_plt {N : Num} pyplot (e : cev N) : (forall w v, e <> CPrint w v) -> silent (plt_ pyplot e).
Proof.
  intros He log. unfold plt_. destruct (pyplot log e); cbn [fst]; [split; [reflexivity|exists []; now rewrite app_nil_r]|].
  split; [|eauto]. rewrite printed_app. destruct e; cbn; try apply app_nil_r. exfalso. exact (He _ _ eq_refl).
Qed.
Lemma silent_bind {N : Num} {A B} (m : @CM N A) (k : A -> @CM N B) : silent m -> (forall a, silent (k a)) -> silent (cbind m k).
Proof.
  intros Hm Hk log. unfold cbind. destruct (Hm log) as [P [es Ee]]. destruct (m log) as [l [a|x]]; cbn [fst] in *; [|split; [exact P|eauto]].
  destruct (Hk a l) as [P' [es' Ee']]. split; [congruence|]. exists (es ++ es'). rewrite Ee', Ee. symmetry. apply app_assoc.
Qed.
Lemma silent_show {N : Num} pyplot (stk : list (row N)) ib H K : silent (show_table pyplot stk ib H K).
Proof.
  unfold show_table. repeat first [apply silent_bind; [|intro] | apply silent_lift | apply silent_plt; discriminate].
Qed.

Lemma cbind_err {N : Num} {A B} (m : @CM N A) (k : A -> @CM N B) log log' x : cbind m k log = (log', Err x) ->
  m log = (log', Err x) \/ exists l a, m log = (l, Ok a) /\ k a l = (log', Err x).
Proof. unfold cbind. destruct (m log) as [l [a|y]]; intro E; [right; eauto|left]. injection E as <- <-. reflexivity. Qed.
Lemma lift_err {N : Num} {A} (r : res A) (log log' : list (cev N)) x : clift r log = (log', Err x) -> log' = log.
Proof. unfold clift. intro E. injection E as <- _. reflexivity. Qed.
Lemma print_err {N : Num} w v (log log' : list (cev N)) x : print_ w v log = (log', Err x) -> False.
Proof. discriminate. Qed.

Ltac sil E := first [apply lift_err in E; subst; left; reflexivity | left; match type of E with show_table ?p ?a ?b ?c ?d ?l = _ => let P := fresh in destruct (silent_show p a b c d l) as [P _]; rewrite E in P; exact P end].

(** A run of hkSeq that raises has printed nothing, or exactly the line of the sediment found by the first stage, which
    the run had shown before. *)
Theorem C92_hkSeq_interrupted (N : Num) (L : OrdLaws N) pyplot km1 stackO (rfS rfM : stream N) pre HS KS VS a b c HM KM VM d e f stack log log' x :
  hkSeq_shown pyplot km1 stackO rfS rfM pre HS KS VS a b c HM KM VM d e f stack log = (log', Err x) ->
  printed log' = printed log \/
  exists tbl ib bm hl kl rest, best_row tbl ib bm /\ log' = log ++ screen tbl bm hl kl ++ line "Best Sediment depth" bm :: rest /\
    printed log' = printed log ++ [model_line "Best Sediment depth" bm].
Proof.
  unfold hkSeq_shown. cbn zeta. intro E.
  apply cbind_err in E. destruct E as [E|(l1 & SS & E1 & E)]; [sil E|]. apply clift_ok in E1. destruct E1 as [-> E1].
  apply cbind_err in E. destruct E as [E|(l2 & stS0 & E2 & E)]; [sil E|]. apply clift_ok in E2. destruct E2 as [-> E2].
  apply cbind_err in E. destruct E as [E|(l3 & SM & E3 & E)]; [sil E|]. apply clift_ok in E3. destruct E3 as [-> E3].
  apply cbind_err in E. destruct E as [E|(l4 & stM0 & E4 & E)]; [sil E|]. apply clift_ok in E4. destruct E4 as [-> E4].
  apply cbind_err in E. destruct E as [E|(l5 & tr0 & E5 & E)]; [sil E|]. apply clift_ok in E5. destruct E5 as [-> E5].
  apply cbind_err in E. destruct E as [E|(l6 & [stkS ibS] & E6 & E)]; [sil E|]. apply clift_ok in E6. destruct E6 as [-> E6].
  apply cbind_err in E. destruct E as [E|(l7 & u7 & E7 & E)]; [sil E|]. apply (show_ok L) in E7. destruct E7 as (bm & hl & kl & B & _ & _ & ->).
  apply cbind_err in E. destruct E as [E|(l8 & b8 & E8 & E)].
  { apply lift_err in E. subst log'. left. rewrite printed_app. apply app_nil_r. }
  apply clift_ok in E8. destruct E8 as [-> E8]. apply getitem_Ok in E8. rewrite B in E8. injection E8 as <-.
  apply cbind_err in E. destruct E as [E|(l9 & u9 & E9 & E)]; [destruct (print_err _ _ _ _ _ E)|]. apply print_ok in E9.
  right. exists stkS, ibS, bm, hl, kl.
  assert (R : printed log' = printed l9 /\ exists rest, log' = l9 ++ rest).
  { apply cbind_err in E. destruct E as [E|(l10 & [stkM ibM] & E10 & E)].
    { apply lift_err in E. subst log'. split; [reflexivity|exists []; now rewrite app_nil_r]. }
    apply clift_ok in E10. destruct E10 as [-> E10].
    apply cbind_err in E. destruct E as [E|(l11 & u11 & E11 & E)].
    { destruct (silent_show pyplot stkM ibM HM KM l9) as [P Q]. rewrite E in P, Q. auto. }
    destruct (silent_show pyplot stkM ibM HM KM l9) as [P Q]. rewrite E11 in P, Q. cbn [fst] in P, Q.
    apply cbind_err in E. destruct E as [E|(l12 & b12 & E12 & E)]; [apply lift_err in E; subst log'; auto|].
    apply cbind_err in E. destruct E as [E|(l13 & u13 & E13 & E)]; [destruct (print_err _ _ _ _ _ E)|discriminate E]. }
  destruct R as [P [rest Er]]. exists rest. subst l9. split.
  - split; [exact B|]. unfold seq_sed in E6. apply bind_Ok_inv in E6. destruct E6 as [[[t1 z1] q1] [_ E6]].
    apply bind_Ok_inv in E6. destruct E6 as [ib [Am E6]]. injection E6 as -> ->. apply (best_first_of L). exact Am.
  - split; [rewrite Er, <- !app_assoc; reflexivity|]. rewrite P, !printed_app. cbn [screen printed flat_map app]. rewrite app_nil_r. reflexivity.
Qed.

(** ** When nothing raises in pyplot, the programs with their screen return what the computation returns. *)
Definition calm {N : Num} (_ : list (cev N)) (_ : cev N) : option exn := None.

Lemma argmax_lt {N : Num} (l : list N) k : argmax l = Ok k -> k < length l.
Proof.
  intro E. destruct l as [|x l]; [discriminate|]. destruct (argmax_Ok_iff (x :: l)) as (k' & E' & B); [discriminate|].
  rewrite E in E'. injection E' as <-. exact B.
Qed.

Lemma show_calm {N : Num} (stk : list (row N)) ib H K log bm : nth_error stk ib = Some bm -> H <> [] -> K <> [] ->
  exists log', show_table calm stk ib H K log = (log', Ok tt).
Proof.
  intros B HH HK. unfold show_table, cbind, plt_, clift, calm. unfold getitem. rewrite B.
  destruct H as [|h H]; [congruence|]. destruct K as [|k K]; [congruence|]. cbn [pymin pymax]. eauto.
Qed.

Lemma table_nonempty {N : Num} (f : N -> N -> res N) K H (rows : list (row N)) ib :
  is_table f K H rows -> argmax (map rS rows) = Ok ib -> exists bm, nth_error rows ib = Some bm /\ H <> [] /\ K <> [].
Proof.
  intros T Am. apply argmax_lt in Am. rewrite map_length in Am. destruct (nth_error rows ib) as [bm|] eqn:B; [|apply nth_error_None in B; lia].
  exists bm. split; [reflexivity|]. pose proof (proj1 (grid_table_of _ _ _ _ T)) as Ln. rewrite Ln in Am.
  split; intros ->; cbn [length] in Am; lia.
Qed.

Theorem C93_hk_returns (N : Num) km1 stackO (rf : stream N) pre H K Vp w1 w2 w3 layer stack log r :
  hk km1 stackO nodraw rf pre H K Vp w1 w2 w3 layer stack = Ok r ->
  exists log', hk_shown calm km1 stackO rf pre H K Vp w1 w2 w3 layer stack log = (log', Ok r).
Proof.
  intro E. unfold hk_shown, cbind. unfold clift at 1. rewrite E. apply hk_inv in E. destruct E as (SR & st0 & tr0 & u & _ & _ & _ & T & Am & _ & _).
  destruct (table_nonempty _ _ _ _ _ T Am) as (bm & B & HH & HK). destruct (show_calm _ _ H K log bm B HH HK) as [l ->].
  unfold clift, getitem, print_, cret. rewrite B. eauto.
Qed.

Theorem C93_hkSynth_returns (N : Num) (data time : list N) p pk H K Vp w1 w2 w3 layer log r :
  hkSynth nodraw data time p pk H K Vp w1 w2 w3 layer = Ok r ->
  exists log', hkSynth_shown calm data time p pk H K Vp w1 w2 w3 layer log = (log', Ok r).
Proof.
  intro E. unfold hkSynth_shown, cbind. unfold clift at 1. rewrite E. apply hkSynth_inv in E. destruct E as (u & T & Am & _).
  destruct (table_nonempty _ _ _ _ _ T Am) as (bm & B & HH & HK). destruct (show_calm _ _ H K log bm B HH HK) as [l ->].
  unfold clift, getitem, print_, cret. rewrite B. eauto.
Qed.

Theorem C93_hkYu_returns (N : Num) (flt time : list N) tlag tk p pk H K VM VS vs a b c log r :
  hkYu nodraw flt time tlag tk p pk H K VM VS vs a b c = Ok r ->
  exists log', hkYu_shown calm flt time tlag tk p pk H K VM VS vs a b c log = (log', Ok r).
Proof.
  intro E. unfold hkYu_shown, cbind. unfold clift at 1. pose proof E as X. apply hkYu_inv in X.
  destruct X as (vs' & q1 & q2 & u0 & Ev & _ & _ & _ & _ & T & Am & _). rewrite Ev. cbn [need]. unfold print_ at 1. unfold clift at 1. rewrite <- Ev, E.
  destruct (table_nonempty _ _ _ _ _ T Am) as (bm & B & HH & HK).
  match goal with |- context [show_table calm _ _ _ _ ?l0] => destruct (show_calm _ _ H K l0 bm B HH HK) as [l ->] end.
  unfold clift, getitem, print_, cret. rewrite B. eauto.
Qed.

Theorem C93_hkSeq_returns (N : Num) km1 stackO (rfS rfM : stream N) pre HS KS VS a b c HM KM VM d e f stack log r :
  hkSeq km1 stackO nodraw rfS rfM pre HS KS VS a b c HM KM VM d e f stack = Ok r ->
  exists log', hkSeq_shown calm km1 stackO rfS rfM pre HS KS VS a b c HM KM VM d e f stack log = (log', Ok r).
Proof.
  intro E. pose proof E as X. apply hkSeq_inv in X. cbn zeta in X. rewrite hkSeq_stages in E. unfold hkSeq_shown. cbn zeta in *.
  destruct X as (SS & stS0 & SM & stM0 & tr0 & u & u' & bm & rowsM & E1 & E2 & E3 & E4 & E5 & T & Am & _ & B & T' & Am' & _ & Em & _).
  unfold getitem in *. rewrite E1 in E. cbn [bind] in E. rewrite E2 in E. cbn [bind] in E. rewrite E3 in E. cbn [bind] in E.
  rewrite E4 in E. cbn [bind] in E. rewrite E5 in E. cbn [bind] in E.
  unfold cbind. unfold clift at 1. rewrite E1. unfold clift at 1. rewrite E2. unfold clift at 1. rewrite E3. unfold clift at 1. rewrite E4.
  unfold clift at 1. rewrite E5. unfold clift at 1.
  destruct (seq_sed _ _ _ _ _ _ _ _ _ _ _ _) as [[stkS ibS]|] eqn:ES; [|discriminate E]. cbn [bind fst snd nodraw] in E.
  destruct (nth_error stkS ibS) as [bmS|] eqn:BS; [|discriminate E]. cbn [bind] in E.
  destruct (seq_moho _ _ _ _ _ _ _ _ _ _ _ _ _ _) as [[stkM ibM]|] eqn:EM; [|discriminate E]. cbn [bind fst snd nodraw] in E. injection E as <-.
  cbn [sr_stkSed sr_bestSed sr_stkMoho sr_bestMoho] in *.
  destruct (table_nonempty _ _ _ _ _ T Am) as (bm1 & B1 & HH & HK). destruct (table_nonempty _ _ _ _ _ T' Am') as (bm2 & B2 & HH' & HK').
  destruct (show_calm stkS ibS HS KS log bmS BS HH HK) as [l ->]. unfold clift at 1. unfold print_ at 1. unfold clift at 1. try rewrite EM.
  assert (B3 : exists b3, nth_error stkM ibM = Some b3) by (rewrite Em, nth_error_map, B2; cbn; eauto). destruct B3 as [b3 B3].
  match goal with |- context [show_table calm _ _ _ _ ?l0] => destruct (show_calm stkM ibM HM KM l0 b3 B3 HH' HK') as [l2 ->] end.
  unfold clift, print_, cret. rewrite B3. eauto.
Qed.

Theorem C93_hkSeqSynth_returns (N : Num) (rfS rfM time : list N) p pk HS KS VS a b c HM KM VM d e f log r :
  hkSeqSynth nodraw rfS rfM time p pk HS KS VS a b c HM KM VM d e f = Ok r ->
  exists log', hkSeqSynth_shown calm rfS rfM time p pk HS KS VS a b c HM KM VM d e f log = (log', Ok r).
Proof.
  intro E. pose proof E as X. apply hkSeqSynth_inv in X. rewrite hkSeqSynth_stages in E. unfold hkSeqSynth_shown. cbn zeta in *.
  destruct X as (u & u' & bm & rowsM & T & Am & _ & B & T' & Am' & _ & Em & _).
  unfold cbind. unfold clift at 1. unfold getitem in *.
  destruct (synth_sed _ _ _ _ _ _ _ _ _ _) as [[stkS ibS]|] eqn:ES; [|discriminate E]. cbn [bind fst snd nodraw] in E.
  destruct (nth_error stkS ibS) as [bmS|] eqn:BS; [|discriminate E]. cbn [bind] in E.
  destruct (synth_moho _ _ _ _ _ _ _ _ _ _ _ _ _) as [[stkM ibM]|] eqn:EM; [|discriminate E]. cbn [bind fst snd nodraw] in E. injection E as <-.
  cbn [ss_stkSed ss_bestSed ss_stkMoho ss_bestMoho] in *.
  destruct (table_nonempty _ _ _ _ _ T Am) as (bm1 & B1 & HH & HK). destruct (table_nonempty _ _ _ _ _ T' Am') as (bm2 & B2 & HH' & HK').
  destruct (show_calm stkS ibS HS KS log bmS BS HH HK) as [l ->]. unfold clift at 1. unfold print_ at 1. unfold clift at 1. try rewrite EM.
  assert (B3 : exists b3, nth_error stkM ibM = Some b3) by (rewrite Em, nth_error_map, B2; cbn; eauto). destruct B3 as [b3 B3].
  match goal with |- context [show_table calm _ _ _ _ ?l0] => destruct (show_calm stkM ibM HM KM l0 b3 B3 HH' HK') as [l2 ->] end.
  unfold clift, print_, cret. rewrite B3. eauto.
Qed.

(** ** Concrete runs *)
Definition sz (l : list Z) : list B64 := map sf_ofZ l.
Definition shown_ex : list (cev B64) * res (seqsres B64) :=
  @hkSeqSynth_shown B64 (fun _ _ => None) (sz [0; 5; 0; 0; 0; 0; 0; 0]%Z) (sz [0; 0; 0; 9; 0; 0; 0; 0]%Z) (sz [0; 1; 2; 3; 4; 5; 6; 7]%Z)
    (sf_ofZ 0) PyF (sz [1; 2]%Z) (sz [2]%Z) (Some (sf_ofZ 1)) None None None
    (sz [2; 4]%Z) (sz [2]%Z) (Some (sf_ofZ 1)) (Some (sf_ofZ 1)) (Some (sf_ofZ 1)) (Some (sf_ofZ 1)) [].

Definition shown_res : seqsres B64 :=
  Eval vm_compute in match snd shown_ex with Ok r => r | Err _ => mkSeqsRes (N := B64) [] [] [] 0 [] 0 [] (sf_ofZ 0) (sf_ofZ 0) None [] [] [] [] end.
Definition shown_log : list (cev B64) := Eval vm_compute in fst shown_ex.
Definition shown_moho : row B64 := Eval vm_compute in nth (ss_bestMoho shown_res) (ss_stkMoho shown_res) (@zrow B64).
Definition shown_sed : row B64 := Eval vm_compute in nth (ss_bestSed shown_res) (ss_stkSed shown_res) (@zrow B64).

(** hkSeqSynth (binary64): best sediment value 3 (0.6*5), best Moho value 9; the Moho line says 3. *)
Theorem C92_moho_value_refuted :
  shown_ex = (shown_log, Ok shown_res) /\
  nth_error (ss_stkSed shown_res) (ss_bestSed shown_res) = Some shown_sed /\
  nth_error (ss_stkMoho shown_res) (ss_bestMoho shown_res) = Some shown_moho /\
  printed shown_log = [("Best Sediment depth"%string, sz [1; 2; 3]%Z); ("Best Moho depth"%string, sz [2; 2; 3]%Z)] /\
  shown_moho = @mkRow B64 (sf_ofZ 2) (sf_ofZ 2) (sf_ofZ 9).
Proof.
  split; [exact (eq_refl shown_ex <: shown_ex = (shown_log, Ok shown_res))|]. split; [reflexivity|]. split; [reflexivity|]. split; reflexivity.
Qed.
