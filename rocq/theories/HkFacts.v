(** * HkFacts: consequences of the functional forms. *)

From Coq Require Import Reals Lra Psatz Permutation.
From Verif Require Import Base Num NumPy Spec HkModel HkProofs HkReal.

Ltac binv H :=
  repeat match type of H with
  | bind _ _ = Ok _ =>
      let a := fresh "a" in let E := fresh "E" in
      apply bind_Ok_inv in H; destruct H as [a [E H]]
  end.

Section Inv.
Context {N : Num} (km1 : N) (stackO : stream N -> res (list (trace N)))
  (draw : list (row N) -> res unit).

Lemma hk_inv rfstream preonset H K Vp w1 w2 w3 layer stack r :
  hk km1 stackO draw rfstream preonset H K Vp w1 w2 w3 layer stack = Ok r ->
  exists SR st0 tr0 u,
    stackO rfstream = Ok SR /\ nth_error SR 0 = Some st0 /\ nth_error rfstream 0 = Some tr0 /\
    is_table (fun k h => sumM (hk_c km1 (dflt stack false) st0 (avgslow rfstream)
       (taxis (tr_delta tr0) (length (tr_data tr0)) preonset)
       (dflt Vp (nlit 65 10)) (dflt w1 (nlit 6 10)) (dflt w2 (nlit 3 10)) (dflt w3 (nlit 1 10)) k h) rfstream)
       K H (hr_stk r) /\
    argmax (map rS (hr_stk r)) = Ok (hr_best r) /\ draw (hr_stk r) = Ok u /\
    r = mkHkRes rfstream (tr_data st0) (taxis (tr_delta tr0) (length (tr_data tr0)) preonset)
          (hr_best r) (tr_sta tr0) (dflt Vp (nlit 65 10)) (hr_stk r) (dflt layer "Moho"%string)
          (dflt stack false) (tr_chan tr0) (avgslow rfstream) H K.
Proof.
  rewrite hk_eq. cbn zeta. intro E. binv E. inversion E; subst r; clear E. cbn [hr_stk hr_best].
  apply getitem_Ok in E1, E2. do 4 eexists. repeat split; try eassumption.
Qed.

Lemma hkSynth_inv Synthrf time rayp raypk H K Vp w1 w2 w3 layer r :
  hkSynth draw Synthrf time rayp raypk H K Vp w1 w2 w3 layer = Ok r ->
  exists u,
    is_table (fun k h => one (contrib (dflt w1 (nlit 6 10)) (dflt w2 (nlit 3 10)) (dflt w3 (nlit 1 10))
       Synthrf time (hkSynth_times (dflt Vp (nlit 65 10)) rayp raypk h k))) K H (hs_stk r) /\
    argmax (map rS (hs_stk r)) = Ok (hs_best r) /\ draw (hs_stk r) = Ok u /\
    r = mkHksRes Synthrf time (hs_best r) (dflt Vp (nlit 65 10)) (hs_stk r) (dflt layer "Moho"%string)
          rayp H K.
Proof.
  rewrite hkSynth_eq. cbn zeta. intro E. binv E. inversion E; subst r; clear E. cbn [hs_stk hs_best].
  eexists. repeat split; try eassumption.
Qed.

Lemma hkSeq_inv rfS rfM preonset HSed KSed VpSed w1S w2S w3S HMoho KMoho VpMoho w1M w2M w3M stack r :
  hkSeq km1 stackO draw rfS rfM preonset HSed KSed VpSed w1S w2S w3S HMoho KMoho VpMoho w1M w2M w3M stack = Ok r ->
  exists SS stS0 SM stM0 tr0 u u' bm rowsM,
    let t := taxis (tr_delta tr0) (length (tr_data tr0)) preonset in
    stackO rfS = Ok SS /\ nth_error SS 0 = Some stS0 /\
    stackO rfM = Ok SM /\ nth_error SM 0 = Some stM0 /\ nth_error rfS 0 = Some tr0 /\
    is_table (fun k h => lastv (seqSed_c km1 (dflt stack false) stS0 (avgslow rfM) t
        (dflt VpSed (nlit 30 10)) (dflt w1S (nlit 6 10)) (dflt w2S (nlit 3 10)) (dflt w3S (nlit 1 10)) k h) rfS)
        KSed HSed (sr_stkSed r) /\
    argmax (map rS (sr_stkSed r)) = Ok (sr_bestSed r) /\ draw (sr_stkSed r) = Ok u /\
    nth_error (sr_stkSed r) (sr_bestSed r) = Some bm /\
    is_table (fun k h => lastv (seqMoho_c km1 (dflt stack false) stM0 (avgslow rfM) t (rH bm) (rK bm)
        (dflt VpSed (nlit 30 10)) VpMoho w1M w2M w3M k h) rfM) KMoho HMoho rowsM /\
    argmax (map rS rowsM) = Ok (sr_bestMoho r) /\ draw (map clip_row rowsM) = Ok u' /\
    sr_stkMoho r = map clip_row rowsM /\
    r = mkSeqRes rfS (tr_data stS0) rfM (tr_data stM0) t (sr_bestSed r) (sr_stkSed r)
          (sr_bestMoho r) (sr_stkMoho r) (dflt stack false) (tr_chan tr0) (avgslow rfM)
          (dflt VpSed (nlit 30 10)) VpMoho HSed KSed HMoho KMoho (tr_sta tr0).
Proof.
  rewrite hkSeq_eq. cbn zeta. intro E. binv E. inversion E; subst r; clear E.
  cbn [sr_stkSed sr_bestSed sr_stkMoho sr_bestMoho].
  repeat match goal with X : getitem _ _ = Ok _ |- _ => apply getitem_Ok in X end.
  do 9 eexists. repeat split; try eassumption.
Qed.

Lemma hkSeqSynth_inv rfS rfM time rayp raypk HSed KSed VpSed w1S w2S w3S HMoho KMoho VpMoho w1M w2M w3M r :
  hkSeqSynth draw rfS rfM time rayp raypk HSed KSed VpSed w1S w2S w3S HMoho KMoho VpMoho w1M w2M w3M = Ok r ->
  exists u u' bm rowsM,
    is_table (fun k h => one (contrib (dflt w1S (nlit 6 10)) (dflt w2S (nlit 3 10)) (dflt w3S (nlit 1 10))
        rfS time (hkSeqSynthSed_times (dflt VpSed (nlit 30 10)) rayp raypk h k))) KSed HSed (ss_stkSed r) /\
    argmax (map rS (ss_stkSed r)) = Ok (ss_bestSed r) /\ draw (ss_stkSed r) = Ok u /\
    nth_error (ss_stkSed r) (ss_bestSed r) = Some bm /\
    is_table (fun k h => one (contribO w1M w2M w3M rfM time
        (hkSeqSynthMoho_times (rH bm) (rK bm) (dflt VpSed (nlit 30 10)) VpMoho rayp raypk h k))) KMoho HMoho rowsM /\
    argmax (map rS rowsM) = Ok (ss_bestMoho r) /\ draw (map clip_row rowsM) = Ok u' /\
    ss_stkMoho r = map clip_row rowsM /\
    r = mkSeqsRes rfS rfM time (ss_bestSed r) (ss_stkSed r) (ss_bestMoho r) (ss_stkMoho r) rayp
          (dflt VpSed (nlit 30 10)) VpMoho HSed KSed HMoho KMoho.
Proof.
  rewrite hkSeqSynth_eq. cbn zeta. intro E. binv E. inversion E; subst r; clear E.
  cbn [ss_stkSed ss_bestSed ss_stkMoho ss_bestMoho].
  repeat match goal with X : getitem _ _ = Ok _ |- _ => apply getitem_Ok in X end.
  do 4 eexists. repeat split; try eassumption.
Qed.

Lemma hkYu_inv flt time tlag tlagk rayp raypk H K VpMoho VpSed VsSed w1 w2 w3 r :
  hkYu draw flt time tlag tlagk rayp raypk H K VpMoho VpSed VsSed w1 w2 w3 = Ok r ->
  exists vs a b u,
    VsSed = Some vs /\
    yr_SedThick r = ndiv (nmul tlag vs) (nofZ 2) /\
    kdiv tlagk (yr_SedThick r) vs = Ok a /\ kdiv tlagk (yr_SedThick r) (dflt VpSed (nlit 25 10)) = Ok b /\
    yr_Pdelay r = nsub a b /\
    is_table (fun k h => one (contribO w1 w2 w3 flt time
       (hkYu_times (dflt VpMoho (nlit 65 10)) rayp raypk tlag (yr_Pdelay r) h k))) K H (yr_stk r) /\
    argmax (map rS (yr_stk r)) = Ok (yr_best r) /\ draw (yr_stk r) = Ok u /\
    r = mkYuRes flt time tlag (yr_Pdelay r) rayp (yr_best r) (dflt VpMoho (nlit 65 10))
          (dflt VpSed (nlit 25 10)) (yr_stk r) H K (yr_SedThick r).
Proof.
  rewrite hkYu_eq. cbn zeta. intro E. binv E. inversion E; subst r; clear E.
  cbn [yr_stk yr_best yr_Pdelay yr_SedThick].
  destruct VsSed as [vs|]; [|discriminate]. inversion E0; subst.
  do 4 eexists. repeat split; try eassumption.
Qed.

(** ** argmax as "first best" *)

Lemma best_first_of (L : OrdLaws N) (l : list N) k : argmax l = Ok k -> best_first l k.
Proof.
  intro E. apply (argmax_first_best L) in E. destruct E as [v [Hv Hb]].
  exists v. split; [assumption|]. destruct Hb as [[Hn Ha]|[Hn [Ha Hs]]]; [left; auto|right].
  split; [assumption|]. split.
  - intros i x Hx. apply (Ha i x Hx).
  - intros i x Hi Hx. destruct (Ha i x Hx) as [Nx _]. specialize (Hs i x Hi Hx).
    unfold geN in Hs. rewrite (ltb_leb N L) by assumption.
    destruct (nleb v x); [destruct Hs; reflexivity|reflexivity].
Qed.

(** ** sums *)

Lemma sumM_inv {A} (c : A -> res N) l s0 v :
  forM l (fun x s => y <- c x ;; Ok (nadd y s)) s0 = Ok v ->
  exists vs, Forall2 (fun x y => c x = Ok y) l vs /\ v = fold_left (fun s y => nadd y s) vs s0.
Proof.
  revert s0; induction l as [|x l IH]; intros s0 E; simpl in E.
  - inversion E; subst. exists []. split; [constructor|reflexivity].
  - destruct (c x) as [y|e] eqn:Ec; simpl in E; [|discriminate].
    apply IH in E. destruct E as [vs [F ->]]. exists (y :: vs). split; [constructor; assumption|reflexivity].
Qed.

Lemma sumM_intro {A} (c : A -> res N) l s0 vs :
  Forall2 (fun x y => c x = Ok y) l vs ->
  forM l (fun x s => y <- c x ;; Ok (nadd y s)) s0 = Ok (fold_left (fun s y => nadd y s) vs s0).
Proof.
  intro F; revert s0; induction F as [|x y l vs Hxy F IH]; intro s0; simpl; [reflexivity|].
  rewrite Hxy; simpl. apply IH.
Qed.

Lemma contrib_inv (w1 w2 w3 : N) data t ts v :
  contrib w1 w2 w3 data t (Ok ts) = Ok v ->
  exists a1 a2 a3, getamp data t (fst (fst ts)) = Ok a1 /\ getamp data t (snd (fst ts)) = Ok a2 /\
    getamp data t (snd ts) = Ok a3 /\ v = nsub (nadd (nmul w1 a1) (nmul w2 a2)) (nmul w3 a3).
Proof.
  destruct ts as [[t1 t2] t3]. cbn. intro E. binv E. inversion E; subst.
  do 3 eexists. repeat split; eassumption.
Qed.

Lemma lastM_app {A} (c : A -> res N) l x q v :
  forM (l ++ [x]) (fun tr _ => v <- c tr ;; Ok (Some (nadd v (nofZ 0)))) q = Ok (Some v) ->
  exists y, c x = Ok y /\ v = nadd y (nofZ 0).
Proof.
  rewrite forM_app. intro E. binv E. simpl in E.
  destruct (c x) as [y|]; simpl in E; [|discriminate]. inversion E. eauto.
Qed.

(** hkSeq's node value is the last trace's contribution. *)
Lemma lastv_last {A} (c : A -> res N) l x v :
  lastv c (l ++ [x]) = Ok v -> exists y, c x = Ok y /\ v = nadd y (nofZ 0).
Proof.
  unfold lastv, lastM. intro E. binv E. destruct a as [v'|]; [|discriminate].
  inversion E; subst. eapply lastM_app; eassumption.
Qed.

Lemma lastv_ok {A} (c : A -> res N) l x y :
  (forall z, In z l -> exists v, c z = Ok v) -> c x = Ok y ->
  lastv c (l ++ [x]) = Ok (nadd y (nofZ 0)).
Proof.
  intros Hl Hx. unfold lastv, lastM. rewrite forM_app.
  assert (E : forall q, exists o, forM l (fun tr (_ : option N) => v <- c tr ;; Ok (Some (nadd v (nofZ 0)))) q = Ok o).
  { clear Hx. induction l as [|z l IH]; intro q; simpl; [eauto|].
    destruct (Hl z (or_introl eq_refl)) as [v Ev]. rewrite Ev; simpl. apply IH. intros; apply Hl; right; assumption. }
  destruct (E None) as [o Eo]. rewrite Eo. simpl. rewrite Hx. reflexivity.
Qed.

End Inv.

Lemma fold_add_R (l : list R) s : fold_left (fun s y => @nadd RN y s) l s = (sumR l + s)%R.
Proof. revert s; induction l as [|x l IH]; intro s; simpl; [lra|]. rewrite IH. simpl. lra. Qed.

Lemma sumR_Rsum l : Rsum l = sumR l.
Proof. induction l; simpl; congruence. Qed.

Lemma sumR_perm l l' : Permutation l l' -> sumR l = sumR l'.
Proof. induction 1; simpl; lra. Qed.

Lemma sumR_scale c l : sumR (map (Rmult c) l) = (c * sumR l)%R.
Proof. induction l; simpl; lra. Qed.

Lemma sumR_repeat x n : sumR (repeat x n) = (INR n * x)%R.
Proof. induction n; [simpl; lra|]. rewrite S_INR. simpl. rewrite IHn. lra. Qed.
