(** * P_Noise: noise in the records moves the stack values and the best model only so much (C136).

    Two runs of the same H-k program with the same arguments on records that differ by at most [e] in
    every sample.  Exact arithmetic; no condition on rays, grids, weights or time axes. *)

From Coq Require Import Reals Lra.
From Verif Require Import Base Num NumPy Spec HkModel HkProofs HkReal HkFacts HkFacts2 HkFacts4 P_Hk P_Hk4.
Local Open Scope R_scope.

(** ** Specification *)

(** Two records of the same length, at most [e] apart in every sample. *)
Definition near (e : R) (x y : list R) : Prop :=
  length x = length y /\ forall i a b, nth_error x i = Some a -> nth_error y i = Some b -> Rabs (b - a) <= e.
(** ... two traces with the same sampling and slowness *)
Definition noisy (e : R) (tr tr' : trace RN) : Prop :=
  near e (tr_data tr) (tr_data tr') /\ tr_delta tr' = tr_delta tr /\ tr_slow tr' = tr_slow tr /\ tr_slowk tr' = tr_slowk tr.
(** Total weight of the three phases. *)
Definition total (w1 w2 w3 : R) : R := Rabs w1 + Rabs w2 + Rabs w3.
(** The tables [rows], [rows'] (best rows number [b], [b']) belong to the same grid, their stack values
    differ by at most [B]; the model called best in the second table is within [2B] of the best one of the first;
    and it is the same model if the best one of the first table is ahead of all others by more than [2B]. *)
Definition stable (B : R) (rows : list (row RN)) (b : nat) (rows' : list (row RN)) (b' : nat) : Prop :=
  Forall2 (fun r r' : row RN => rH r' = rH r /\ rK r' = rK r /\ Rabs ((rS r' : R) - (rS r : R)) <= B) rows rows' /\
  (exists x, nth_error rows b' = Some x /\ forall y, In y rows -> (rS y : R) <= (rS x : R) + 2 * B) /\
  ((exists x, nth_error rows b = Some x /\ forall n y, n <> b -> nth_error rows n = Some y -> (rS y : R) + 2 * B < (rS x : R)) ->
   b' = b).

(** ** Lemmas *)
Lemma near_nth e x y i (a b : R) : near e x y -> nth_error x i = Some a -> nth_error y i = Some b -> Rabs (b - a) <= e.
Proof. intros [_ H]. apply H. Qed.

Lemma getamp_near e (d d' ax : list R) t (a a' : R) : near e d d' ->
  @getamp RN d ax t = Ok a -> @getamp RN d' ax t = Ok a' -> Rabs (a' - a) <= e.
Proof.
  intros Hn E E'. unfold getamp in E, E'. apply bind_Ok_inv in E as (i & Ei & E). rewrite Ei in E'. cbn [bind] in E'.
  apply getitem_Ok in E, E'. exact (near_nth e d d' i a a' Hn E E').
Qed.

Lemma wsum_near (w1 w2 w3 a1 a2 a3 b1 b2 b3 e : R) :
  Rabs (b1 - a1) <= e -> Rabs (b2 - a2) <= e -> Rabs (b3 - a3) <= e ->
  Rabs (wsum w1 w2 w3 b1 b2 b3 - wsum w1 w2 w3 a1 a2 a3) <= total w1 w2 w3 * e.
Proof.
  intros H1 H2 H3. unfold wsum, total.
  replace (w1 * b1 + w2 * b2 - w3 * b3 - (w1 * a1 + w2 * a2 - w3 * a3))
    with (w1 * (b1 - a1) + w2 * (b2 - a2) + - (w3 * (b3 - a3))) by ring.
  eapply Rle_trans; [apply Rabs_triang|]. rewrite Rabs_Ropp.
  pose proof (Rabs_triang (w1 * (b1 - a1)) (w2 * (b2 - a2))) as T.
  rewrite !Rabs_mult in *.
  pose proof (Rmult_le_compat_l _ _ _ (Rabs_pos w1) H1). pose proof (Rmult_le_compat_l _ _ _ (Rabs_pos w2) H2).
  pose proof (Rmult_le_compat_l _ _ _ (Rabs_pos w3) H3). lra.
Qed.

Lemma contrib_near e (w1 w2 w3 : R) (d d' ax : list R) ts (v v' : R) : near e d d' ->
  @contrib RN w1 w2 w3 d ax ts = Ok v -> @contrib RN w1 w2 w3 d' ax ts = Ok v' -> Rabs (v' - v) <= total w1 w2 w3 * e.
Proof.
  intros Hn E E'. destruct ts as [ts|x]; [|discriminate E].
  apply contrib_inv in E as (a1&a2&a3&E1&E2&E3&->). apply contrib_inv in E' as (b1&b2&b3&F1&F2&F3&->).
  exact (wsum_near w1 w2 w3 a1 a2 a3 b1 b2 b3 e (getamp_near e d d' ax _ a1 b1 Hn E1 F1)
           (getamp_near e d d' ax _ a2 b2 Hn E2 F2) (getamp_near e d d' ax _ a3 b3 Hn E3 F3)).
Qed.
Lemma contribO_near e (w1 w2 w3 : R) (d d' ax : list R) ts (v v' : R) : near e d d' ->
  @contribO RN (Some w1) (Some w2) (Some w3) d ax ts = Ok v -> @contribO RN (Some w1) (Some w2) (Some w3) d' ax ts = Ok v' ->
  Rabs (v' - v) <= total w1 w2 w3 * e.
Proof.
  intros Hn E E'. apply contribO_inv in E as (x1&x2&x3&ts1&Q1&Q2&Q3&Et&E). apply contribO_inv in E' as (y1&y2&y3&ts2&P1&P2&P3&Et'&E').
  rewrite Et in Et'. injection Et' as Et'. subst ts2.
  injection Q1 as <-. injection Q2 as <-. injection Q3 as <-. injection P1 as <-. injection P2 as <-. injection P3 as <-.
  exact (contrib_near e w1 w2 w3 d d' ax (Ok ts1) v v' Hn E E').
Qed.
Lemma one_near B (c c' : res R) (v v' : R) : (forall y y', c = Ok y -> c' = Ok y' -> Rabs (y' - y) <= B) ->
  @one RN c = Ok v -> @one RN c' = Ok v' -> Rabs (v' - v) <= B.
Proof.
  intros H E E'. apply one_inv in E as (y & E & ->). apply one_inv in E' as (y' & E' & ->).
  specialize (H y y' E E'). simpl. replace (y' + 0 - (y + 0)) with (y' - y) by ring. exact H.
Qed.
Lemma sum_near {A A'} B (c : A -> res R) (c' : A' -> res R) l l' : forall v v',
  Forall2 (fun x x' => forall y y', c x = Ok y -> c' x' = Ok y' -> Rabs (y' - y) <= B) l l' ->
  @sumM RN A c l = Ok v -> @sumM RN A' c' l' = Ok v' -> Rabs (v' - v) <= INR (length l) * B.
Proof.
  intros v v' F E E'. apply sumM_R in E as (vs & G & ->). apply sumM_R in E' as (vs' & G' & ->).
  revert vs vs' G G'. induction F as [|x x' l l' Hx F IH]; intros vs vs' G G'; inversion G; inversion G'; subst.
  - simpl. rewrite Rminus_0_r, Rabs_R0. lra.
  - cbn [sumR length]. rewrite S_INR.
    match goal with H1 : c x = Ok ?y, H2 : c' x' = Ok ?y' |- context [?y + sumR ?a] =>
      replace (y' + sumR l'1 - (y + sumR a)) with ((y' - y) + (sumR l'1 - sumR a)) by ring;
      pose proof (Hx y y' H1 H2) end.
    eapply Rle_trans; [apply Rabs_triang|].
    match goal with |- _ + Rabs (sumR ?p - sumR ?q) <= _ => assert (Rabs (sumR p - sumR q) <= INR (length l) * B) by (apply IH; assumption) end.
    lra.
Qed.
Lemma last_near {A A'} B (c : A -> res R) (c' : A' -> res R) l l' (v v' : R) :
  Forall2 (fun x x' => forall y y', c x = Ok y -> c' x' = Ok y' -> Rabs (y' - y) <= B) l l' ->
  @lastv RN A c l = Ok v -> @lastv RN A' c' l' = Ok v' -> Rabs (v' - v) <= B.
Proof.
  intros F. destruct l as [|x0 l0] using rev_ind; [discriminate|]. clear IHl0.
  apply Forall2_app_inv_l in F as (m & m' & Fm & Fx & ->). inversion Fx as [|? x' ? z Hx Fz]; subst. inversion Fz; subst.
  intros E E'. apply lastv_last in E as (y & E & ->). apply lastv_last in E' as (y' & E' & ->).
  specialize (Hx y y' E E'). simpl. replace (y' + 0 - (y + 0)) with (y' - y) by ring. exact Hx.
Qed.

Lemma table_near B (f g : R -> R -> res R) (K H : list R) (rows rows' : list (row RN)) :
  (forall k h v v', In k K -> In h H -> f k h = Ok v -> g k h = Ok v' -> Rabs (v' - v) <= B) ->
  @is_table RN f K H rows -> @is_table RN g K H rows' ->
  Forall2 (fun r r' : row RN => rH r' = rH r /\ rK r' = rK r /\ Rabs ((rS r' : R) - (rS r : R)) <= B) rows rows'.
Proof.
  intros Hfg T T'. unfold is_table in *. apply mapM_Ok in T, T'.
  assert (G : forall kh : RN * RN, In kh (@list_prod RN RN K H) -> In (fst kh) K /\ In (snd kh) H) by (intros [k h] Hi; apply in_prod_iff in Hi; exact Hi).
  revert rows' T'. induction T as [|kh r l rows0 Hr T IH]; intros rows' T'; inversion T' as [|? r' ? rows0' Hr' T0]; subst; constructor.
  - unfold mkrow_of in Hr, Hr'. apply bind_Ok_inv in Hr as (v & Ev & Hr). apply bind_Ok_inv in Hr' as (v' & Ev' & Hr').
    destruct (G kh (or_introl eq_refl)) as [Gk Gh]. specialize (Hfg _ _ v v' Gk Gh Ev Ev').
    injection Hr as <-. injection Hr' as <-. cbn [rH rK rS]. auto.
  - apply IH; [intros; apply G; now right|exact T0].
Qed.

Lemma argmax_R (l : list R) b : @argmax RN l = Ok b ->
  exists v, nth_error l b = Some v /\ forall i x, nth_error l i = Some x -> x <= v.
Proof.
  intro A. destruct (best_first_of RN_laws _ _ A) as (v & Hv & Hb). exists v. split; [exact Hv|].
  destruct Hb as [[C _]|(_ & Hm & _)]; [discriminate|]. intros i x Hx. apply Rleb_true. exact (Hm i x Hx).
Qed.

Lemma F2_nth_r {A B} (P : A -> B -> Prop) l l' : Forall2 P l l' -> forall i y, nth_error l' i = Some y -> exists x, nth_error l i = Some x /\ P x y.
Proof. induction 1 as [|x y l l' Hxy F IH]; intros [|i] z Hz; cbn in *; try discriminate; eauto. injection Hz as <-. eauto. Qed.

Lemma stable_of B (rows rows' : list (row RN)) b b' :
  Forall2 (fun r r' : row RN => rH r' = rH r /\ rK r' = rK r /\ Rabs ((rS r' : R) - (rS r : R)) <= B) rows rows' ->
  @argmax RN (map rS rows) = Ok b -> @argmax RN (map rS rows') = Ok b' -> stable B rows b rows' b'.
Proof.
  intros Fo A A'. split; [exact Fo|].
  destruct (argmax_R _ _ A') as (v' & Hv' & Hm'). rewrite nth_error_map in Hv'.
  destruct (nth_error rows' b') as [x'|] eqn:Ex'; [|discriminate]. cbn in Hv'. injection Hv' as Hv'.
  destruct (F2_nth_r _ _ _ Fo b' x' Ex') as (x & Ex & HH & HK & HS).
  assert (Top : forall y, In y rows -> (rS y : R) <= (rS x : R) + 2 * B).
  { intros y Hy. apply In_nth_error in Hy as [n Hn]. destruct (Forall2_nth _ _ _ _ _ Fo Hn) as (y' & Hn' & _ & _ & HSy).
    assert (L : (rS y' : R) <= v') by (apply (Hm' n); rewrite nth_error_map, Hn'; reflexivity).
    rewrite <- Hv' in L. change (F RN) with R in *.
    unfold Rabs in HS, HSy. destruct (Rcase_abs _) in HS; destruct (Rcase_abs _) in HSy; lra. }
  split; [exists x; auto|].
  intros (x0 & Hx0 & Hlead). destruct (Nat.eq_dec b' b) as [E|N]; [exact E|].
  pose proof (Hlead b' x N Ex) as L. pose proof (Top x0 (nth_error_In _ _ Hx0)). lra.
Qed.

(** Clipping negative values changes nothing. *)
Lemma clip_R (r : row RN) : (rS (clip_row r) : R) = Rmax (rS r) 0 /\ rH (clip_row r) = rH r /\ rK (clip_row r) = rK r.
Proof.
  unfold clip_row. cbn [nleb RN nofZ]. destruct (Rleb (rS r) (IZR 0)) eqn:E; cbn [rS rH rK].
  - apply Rleb_true in E. rewrite Rmax_right by exact E. auto.
  - assert (0 < rS r) by (apply Rnot_le_lt; intro C; apply Rleb_true in C; congruence). rewrite Rmax_left by lra. auto.
Qed.
Lemma max_near (a b B : R) : Rabs (b - a) <= B -> Rabs (Rmax b 0 - Rmax a 0) <= B.
Proof. unfold Rmax. intro H. destruct (Rle_dec b 0), (Rle_dec a 0); unfold Rabs in *; repeat destruct (Rcase_abs _); lra. Qed.
Lemma stable_clip B rows b rows' b' : 0 <= B -> stable B rows b rows' b' -> stable B (map clip_row rows) b (map clip_row rows') b'.
Proof.
  intros HB (F & (x & Hx & Top) & W). split; [|split].
  - clear -F. induction F as [|r r' l l' (HH & HK & HS) F IH]; cbn [map]; constructor; [|exact IH].
    destruct (clip_R r) as (-> & -> & ->), (clip_R r') as (-> & -> & ->). auto using max_near.
  - exists (clip_row x). split; [rewrite nth_error_map, Hx; reflexivity|].
    intros y Hy. apply in_map_iff in Hy as (y0 & <- & Hy0). specialize (Top y0 Hy0).
    rewrite (proj1 (clip_R x)), (proj1 (clip_R y0)). unfold Rmax. destruct (Rle_dec _ _), (Rle_dec _ _); lra.
  - intros (z & Hz & Lead). apply W. rewrite nth_error_map in Hz. destruct (nth_error rows b) as [z0|] eqn:Ez; [|discriminate].
    injection Hz as <-. exists z0. split; [reflexivity|]. intros n y Nn Hn.
    specialize (Lead n (clip_row y) Nn). rewrite nth_error_map, Hn in Lead. specialize (Lead eq_refl).
    rewrite (proj1 (clip_R z0)), (proj1 (clip_R y)) in Lead. revert Lead. unfold Rmax.
    destruct (Rle_dec _ _), (Rle_dec _ _); intros; lra.
Qed.

Lemma noisy_avg e rf rf' : Forall2 (noisy e) rf rf' -> @avgslow RN rf' = @avgslow RN rf.
Proof.
  intro Fo. unfold avgslow. f_equal. induction Fo as [|x y l l' (_ & _ & E & _) Fo IH]; [reflexivity|]. cbn [map]. rewrite E, IH. reflexivity.
Qed.
Lemma noisy_axis e tr tr' (pre : R) : noisy e tr tr' ->
  @taxis RN (tr_delta tr') (length (tr_data tr')) pre = @taxis RN (tr_delta tr) (length (tr_data tr)) pre.
Proof. intros ((L & _) & -> & _). f_equal. symmetry. exact L. Qed.
Lemma noisy_rp e km1 stack avg tr tr' : noisy e tr tr' -> @hk_rp RN km1 stack avg tr' = @hk_rp RN km1 stack avg tr.
Proof. intros (_ & _ & E & _). unfold hk_rp. rewrite E. reflexivity. Qed.
Lemma noisy_rpk e stack tr tr' : noisy e tr tr' -> @hk_rpk RN stack tr' = @hk_rpk RN stack tr.
Proof. intros (_ & _ & _ & E). unfold hk_rpk. rewrite E. reflexivity. Qed.
Lemma noisy_data e stack st st' tr tr' : noisy e tr tr' -> (stack = true -> near e (tr_data st) (tr_data st')) ->
  near e (@hk_data RN stack st tr) (@hk_data RN stack st' tr').
Proof. intros (Hn & _) Hs. unfold hk_data. destruct stack; auto. Qed.
Lemma total_pos w1 w2 w3 : 0 <= total w1 w2 w3.
Proof. unfold total. pose proof (Rabs_pos w1). pose proof (Rabs_pos w2). pose proof (Rabs_pos w3). lra. Qed.

(** ** C136 *)

Theorem C136_hkSynth draw draw' (data data' time : list R) p pk H K Vp (w1 w2 w3 : R) layer r r' e :
  near e data data' ->
  @hkSynth RN draw data time p pk H K Vp (Some w1) (Some w2) (Some w3) layer = Ok r ->
  @hkSynth RN draw' data' time p pk H K Vp (Some w1) (Some w2) (Some w3) layer = Ok r' ->
  stable (total w1 w2 w3 * e) (hs_stk r) (hs_best r) (hs_stk r') (hs_best r').
Proof.
  intros Hn E E'. apply hkSynth_inv in E as (u & T & A & _). apply hkSynth_inv in E' as (u' & T' & A' & _). cbn [dflt] in T, T'.
  apply stable_of; [|exact A|exact A']. refine (table_near _ _ _ K H _ _ _ T T'). intros k h v v' _ _.
  apply one_near. intros y y'. apply contrib_near. exact Hn.
Qed.

Theorem C136_hkYu draw draw' (flt flt' time : list R) (tlag : R) tk p pk H K VM VS vs (a b c : R) r r' e :
  near e flt flt' ->
  @hkYu RN draw flt time tlag tk p pk H K VM VS vs (Some a) (Some b) (Some c) = Ok r ->
  @hkYu RN draw' flt' time tlag tk p pk H K VM VS vs (Some a) (Some b) (Some c) = Ok r' ->
  stable (total a b c * e) (yr_stk r) (yr_best r) (yr_stk r') (yr_best r').
Proof.
  intros Hn E E'. apply hkYu_inv in E as (v & x & y & u & Ev & Eh & Ea & Eb & Ep & T & A & _).
  apply hkYu_inv in E' as (v2 & x2 & y2 & u2 & Ev2 & Eh2 & Ea2 & Eb2 & Ep2 & T' & A' & _).
  rewrite Ev in Ev2. injection Ev2 as <-. rewrite Eh in Ea, Eb. rewrite Eh2 in Ea2, Eb2.
  rewrite Ea in Ea2. injection Ea2 as <-. rewrite Eb in Eb2. injection Eb2 as <-. rewrite Ep in T. rewrite Ep2 in T'.
  apply stable_of; [|exact A|exact A']. refine (table_near _ _ _ K H _ _ _ T T'). intros k h z z' _ _.
  apply one_near. intros q q'. apply contribO_near. exact Hn.
Qed.

(** Sequential programs: the sediment table; the Moho table if the sediment stage reports the same model
    in both runs (which the first part ensures when that model is ahead by more than twice the bound). *)
Theorem C136_hkSeqSynth draw draw' (dS dM dS' dM' time : list R) p pk HS KS VS (a b c : R) HM KM VM (d f g : R) r r' e :
  0 <= e -> near e dS dS' -> near e dM dM' ->
  @hkSeqSynth RN draw dS dM time p pk HS KS VS (Some a) (Some b) (Some c) HM KM VM (Some d) (Some f) (Some g) = Ok r ->
  @hkSeqSynth RN draw' dS' dM' time p pk HS KS VS (Some a) (Some b) (Some c) HM KM VM (Some d) (Some f) (Some g) = Ok r' ->
  stable (total a b c * e) (ss_stkSed r) (ss_bestSed r) (ss_stkSed r') (ss_bestSed r') /\
  (ss_bestSed r' = ss_bestSed r -> stable (total d f g * e) (ss_stkMoho r) (ss_bestMoho r) (ss_stkMoho r') (ss_bestMoho r')).
Proof.
  intros He HnS HnM E E'.
  apply hkSeqSynth_inv in E as (u & u1 & bm & rowsM & T & A & _ & Bm & TM & AM & _ & EM & _).
  apply hkSeqSynth_inv in E' as (u2 & u3 & bm' & rowsM' & T' & A' & _ & Bm' & TM' & AM' & _ & EM' & _). cbn [dflt] in *.
  assert (S1 : stable (total a b c * e) (ss_stkSed r) (ss_bestSed r) (ss_stkSed r') (ss_bestSed r')).
  { apply stable_of; [|exact A|exact A']. refine (table_near _ _ _ KS HS _ _ _ T T'). intros k h v v' _ _.
    apply one_near. intros y y'. apply contrib_near. exact HnS. }
  split; [exact S1|]. intro Eb. rewrite Eb in Bm'. destruct S1 as (F & _).
  destruct (Forall2_nth _ _ _ _ _ F Bm) as (x & Hx & HH & HK & _). rewrite Hx in Bm'. injection Bm' as ->.
  rewrite HH, HK in TM'. rewrite EM, EM'. apply stable_clip; [apply Rmult_le_pos; [apply total_pos|exact He]|].
  apply stable_of; [|exact AM|exact AM']. refine (table_near _ _ _ KM HM _ _ _ TM TM'). intros k h v v' _ _.
  apply one_near. intros y y'. apply contribO_near. exact HnM.
Qed.

(** Streams.  With [stack=True] the stacked records are assumed to be at most [e] apart as well (a mean of
    such records is). *)
Theorem C136_hk km1 stackO draw draw' (rf rf' : stream RN) (pre : R) H K Vp (w1 w2 w3 : R) layer (stack : bool) r r' e st SR st' SR' :
  Forall2 (noisy e) rf rf' -> stackO rf = Ok (st :: SR) -> stackO rf' = Ok (st' :: SR') ->
  (stack = true -> near e (tr_data st) (tr_data st')) ->
  @hk RN km1 stackO draw rf pre H K Vp (Some w1) (Some w2) (Some w3) layer (Some stack) = Ok r ->
  @hk RN km1 stackO draw' rf' pre H K Vp (Some w1) (Some w2) (Some w3) layer (Some stack) = Ok r' ->
  stable (INR (length rf) * (total w1 w2 w3 * e)) (hr_stk r) (hr_best r) (hr_stk r') (hr_best r').
Proof.
  intros Fo ES ES' Hs E E'.
  apply hk_inv in E as (SR0 & st0 & tr0 & u & Q1 & Q2 & Q3 & T & A & _).
  apply hk_inv in E' as (SR1 & st1 & tr1 & u' & P1 & P2 & P3 & T' & A' & _). cbn [dflt] in *.
  rewrite ES in Q1. injection Q1 as <-. rewrite ES' in P1. injection P1 as <-. cbn in Q2, P2. injection Q2 as <-. injection P2 as <-.
  assert (N0 : noisy e tr0 tr1).
  { destruct (Forall2_nth _ _ _ _ _ Fo Q3) as (x & Hx & Hn). rewrite P3 in Hx. injection Hx as <-. exact Hn. }
  rewrite (noisy_axis e tr0 tr1 pre N0), (noisy_avg e rf rf' Fo) in T'.
  apply stable_of; [|exact A|exact A']. refine (table_near _ _ _ K H _ _ _ T T'). intros k h v v' _ _.
  apply sum_near. eapply Forall2_imp; [|exact Fo]. intros tr tr' Hn y y'.
  unfold hk_c. rewrite (noisy_rp e km1 stack _ tr tr' Hn), (noisy_rpk e stack tr tr' Hn).
  apply contrib_near. apply noisy_data; assumption.
Qed.

Theorem C136_hkSeq km1 stackO draw draw' (rfS rfM rfS' rfM' : stream RN) (pre : R) HS KS VS (a b c : R) HM KM VM (d f g : R) (stack : bool) r r' e
    stS SS stS' SS' stM SM stM' SM' :
  0 <= e -> Forall2 (noisy e) rfS rfS' -> Forall2 (noisy e) rfM rfM' ->
  stackO rfS = Ok (stS :: SS) -> stackO rfS' = Ok (stS' :: SS') -> stackO rfM = Ok (stM :: SM) -> stackO rfM' = Ok (stM' :: SM') ->
  (stack = true -> near e (tr_data stS) (tr_data stS') /\ near e (tr_data stM) (tr_data stM')) ->
  @hkSeq RN km1 stackO draw rfS rfM pre HS KS VS (Some a) (Some b) (Some c) HM KM VM (Some d) (Some f) (Some g) (Some stack) = Ok r ->
  @hkSeq RN km1 stackO draw' rfS' rfM' pre HS KS VS (Some a) (Some b) (Some c) HM KM VM (Some d) (Some f) (Some g) (Some stack) = Ok r' ->
  stable (total a b c * e) (sr_stkSed r) (sr_bestSed r) (sr_stkSed r') (sr_bestSed r') /\
  (sr_bestSed r' = sr_bestSed r -> stable (total d f g * e) (sr_stkMoho r) (sr_bestMoho r) (sr_stkMoho r') (sr_bestMoho r')).
Proof.
  intros He FS FM ES ES' EM EM' Hs E E'.
  apply hkSeq_inv in E. apply hkSeq_inv in E'. cbn zeta in E, E'. cbn [dflt] in E, E'.
  destruct E as (A1 & s1 & A2 & s2 & tr0 & u & u2 & bm & rowsM & Q1 & Q2 & Q3 & Q4 & Q5 & T & A & _ & Bm & TM & AM & _ & EMo & _).
  destruct E' as (A1' & s1' & A2' & s2' & tr0' & u' & u2' & bm' & rowsM' & P1 & P2 & P3 & P4 & P5 & T' & A' & _ & Bm' & TM' & AM' & _ & EMo' & _).
  rewrite ES in Q1. injection Q1 as <-. rewrite ES' in P1. injection P1 as <-. rewrite EM in Q3. injection Q3 as <-. rewrite EM' in P3. injection P3 as <-.
  cbn in Q2, Q4, P2, P4. injection Q2 as <-. injection Q4 as <-. injection P2 as <-. injection P4 as <-.
  assert (N0 : noisy e tr0 tr0').
  { destruct (Forall2_nth _ _ _ _ _ FS Q5) as (x & Hx & Hn). rewrite P5 in Hx. injection Hx as <-. exact Hn. }
  rewrite (noisy_axis e tr0 tr0' pre N0), (noisy_avg e rfM rfM' FM) in T', TM'.
  assert (S1 : stable (total a b c * e) (sr_stkSed r) (sr_bestSed r) (sr_stkSed r') (sr_bestSed r')).
  { apply stable_of; [|exact A|exact A']. refine (table_near _ _ _ KS HS _ _ _ T T'). intros k h v v' _ _.
    apply last_near. eapply Forall2_imp; [|exact FS]. intros tr tr' Hn y y'.
    unfold seqSed_c. rewrite (noisy_rp e km1 stack _ tr tr' Hn), (noisy_rpk e stack tr tr' Hn).
    apply contrib_near. apply noisy_data; [exact Hn|intro X; apply (Hs X)]. }
  split; [exact S1|]. intro Eb. rewrite Eb in Bm'. destruct S1 as (Fo & _).
  destruct (Forall2_nth _ _ _ _ _ Fo Bm) as (x & Hx & HH & HK & _). rewrite Hx in Bm'. injection Bm' as ->.
  rewrite HH, HK in TM'. rewrite EMo, EMo'. apply stable_clip; [apply Rmult_le_pos; [apply total_pos|exact He]|].
  apply stable_of; [|exact AM|exact AM']. refine (table_near _ _ _ KM HM _ _ _ TM TM'). intros k h v v' _ _.
  apply last_near. eapply Forall2_imp; [|exact FM]. intros tr tr' Hn y y'.
  unfold seqMoho_c. rewrite (noisy_rp e km1 stack _ tr tr' Hn), (noisy_rpk e stack tr tr' Hn).
  apply contribO_near. apply noisy_data; [exact Hn|intro X; apply (Hs X)].
Qed.
