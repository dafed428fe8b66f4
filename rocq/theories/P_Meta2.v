(** * P_Meta2: samples outside the predicted arrivals do not matter (C108). *)

From Coq Require Import Reals Lra.
From Verif Require Import Base Num NumPy Spec HkModel HkProofs HkReal HkFacts HkFacts2 HkFacts4 P_Hk P_Hk2 P_Hk3 P_Hk4 P_Hk5 P_Hk6 P_Meta.
Local Open Scope R_scope.

(** [x] lies between two times of the axis. *)
Definition inside (axis : list R) (x : R) : Prop := exists a b, In a axis /\ In b axis /\ a <= x <= b.
(** The times [TA] come before, the times [TB] after those of the axis. *)
Definition around (TA axis TB : list R) : Prop :=
  (forall a t, In a TA -> In t axis -> a < t) /\ (forall b t, In b TB -> In t axis -> t <= b).
(** [tr'] is [tr] with [m] more samples at the start and any number at the end. *)
Definition padded (m : nat) (tr tr' : trace RN) : Prop :=
  (exists A B : list R, length A = m /\ tr_data tr' = A ++ tr_data tr ++ B) /\
  tr_delta tr' = tr_delta tr /\ tr_slow tr' = tr_slow tr /\ tr_slowk tr' = tr_slowk tr.

(** ** Reading *)
Lemma getamp_pad (A data B TA axis TB : list R) x v :
  length A = length TA -> inside axis x -> around TA axis TB ->
  @getamp RN data axis (TR x) = Ok v -> @getamp RN (A ++ data ++ B) (TA ++ axis ++ TB) (TR x) = Ok v.
Proof.
  intros HL (a & b & Ha & Hb & Hx) [H1 H2] E. apply getamp_R in E as (i & Hn & Hd). apply getamp_R.
  apply nearest_R in Hn as (ti & Hti & Hall & Hfst). exists (length A + i)%nat. split.
  - apply (nearest_R_intro _ _ _ ti).
    + rewrite nth_error_app2 by lia. replace (length A + i - length TA)%nat with i by lia.
      rewrite nth_error_app1; [exact Hti|]. apply nth_error_Some. congruence.
    + intros j tj Hj.
      destruct (Nat.lt_ge_cases j (length TA)) as [L|L].
      * rewrite nth_error_app1 in Hj by exact L. apply nth_error_In in Hj. pose proof (H1 tj a Hj Ha) as Hlt.
        destruct (In_nth_error _ _ Ha) as [n Hna]. pose proof (Hall n a Hna) as Hle.
        assert (Rabs (a - x) <= Rabs (tj - x)) by (rewrite !Rabs_left1 by lra; lra). lra.
      * rewrite nth_error_app2 in Hj by exact L. destruct (Nat.lt_ge_cases (j - length TA) (length axis)) as [L2|L2].
        { rewrite nth_error_app1 in Hj by exact L2. exact (Hall _ _ Hj). }
        rewrite nth_error_app2 in Hj by exact L2. apply nth_error_In in Hj. pose proof (H2 tj b Hj Hb) as Hlt.
        destruct (In_nth_error _ _ Hb) as [n Hnb]. pose proof (Hall n b Hnb) as Hle.
        assert (Rabs (b - x) <= Rabs (tj - x)) by (rewrite !Rabs_pos_eq by lra; lra). lra.
    + intros j tj Hji Hj. destruct (Nat.lt_ge_cases j (length TA)) as [L|L].
      * rewrite nth_error_app1 in Hj by exact L. apply nth_error_In in Hj. pose proof (H1 tj a Hj Ha) as Hlt.
        destruct (In_nth_error _ _ Ha) as [n Hna]. pose proof (Hall n a Hna) as Hle.
        assert (Rabs (a - x) < Rabs (tj - x)) by (rewrite !Rabs_left1 by lra; lra). lra.
      * rewrite nth_error_app2 in Hj by exact L. assert (Hi : (i < length axis)%nat) by (apply nth_error_Some; congruence).
        rewrite nth_error_app1 in Hj by lia. apply (Hfst (j - length TA)%nat); [lia|exact Hj].
  - rewrite nth_error_app2 by lia. replace (length A + i - length A)%nat with i by lia. rewrite nth_error_app1; [exact Hd|]. apply nth_error_Some. change (nth_error data i <> None). intro Q. change (nth_error data i = Some v) in Hd. rewrite Q in Hd. discriminate Hd.
Qed.
Definition inside3 (axis : list R) (x1 x2 x3 : R) : Prop := inside axis x1 /\ inside axis x2 /\ inside axis x3.
Lemma contrib_pad (w1 w2 w3 : R) (A data B TA axis TB : list R) ts x1 x2 x3 v :
  ts = Ok (TR x1, TR x2, TR x3) -> length A = length TA -> inside3 axis x1 x2 x3 -> around TA axis TB ->
  @contrib RN w1 w2 w3 data axis ts = Ok v -> @contrib RN w1 w2 w3 (A ++ data ++ B) (TA ++ axis ++ TB) ts = Ok v.
Proof.
  intros -> HL (I1 & I2 & I3) HO E. unfold contrib in *. cbn [bind] in *. binv E.
  rewrite (getamp_pad A data B TA axis TB x1 a HL I1 HO E0). cbn [bind].
  rewrite (getamp_pad A data B TA axis TB x2 a0 HL I2 HO E1). cbn [bind].
  rewrite (getamp_pad A data B TA axis TB x3 a1 HL I3 HO E2). cbn [bind]. exact E.
Qed.
Lemma contribO_pad w1 w2 w3 (A data B TA axis TB : list R) ts x1 x2 x3 v :
  ts = Ok (TR x1, TR x2, TR x3) -> length A = length TA -> inside3 axis x1 x2 x3 -> around TA axis TB ->
  @contribO RN w1 w2 w3 data axis ts = Ok v -> @contribO RN w1 w2 w3 (A ++ data ++ B) (TA ++ axis ++ TB) ts = Ok v.
Proof.
  intros -> HL (I1 & I2 & I3) HO E. unfold contribO in *. cbn [bind] in *. binv E.
  rewrite (getamp_pad A data B TA axis TB x1 a HL I1 HO E0). cbn [bind].
  rewrite (getamp_pad A data B TA axis TB x2 a0 HL I2 HO E1). cbn [bind].
  rewrite (getamp_pad A data B TA axis TB x3 a1 HL I3 HO E2). cbn [bind]. rewrite E3, E4, E5. exact E.
Qed.
Lemma one_mono {N : Num} (c c' : res N) v : (forall y, c = Ok y -> c' = Ok y) -> one c = Ok v -> one c' = Ok v.
Proof. intros H E. apply one_inv in E as (y & E & ->). unfold one. rewrite (H y E). reflexivity. Qed.
Lemma table_mono_in {N : Num} (f g : N -> N -> res N) K H rows :
  (forall k h v, In k K -> In h H -> f k h = Ok v -> g k h = Ok v) -> is_table f K H rows -> is_table g K H rows.
Proof.
  intros E T. unfold is_table in *. apply mapM_Ok in T. apply mapM_Ok.
  assert (G : forall kh, In kh (list_prod K H) -> In (fst kh) K /\ In (snd kh) H) by (intros [k h] Hi; apply in_prod_iff in Hi; exact Hi).
  induction T as [|[k h] r l rows0 Hr T IH]; constructor; [|apply IH; intros; apply G; right; assumption].
  unfold mkrow_of in *. simpl in *. apply bind_Ok_inv in Hr. destruct Hr as [v [Ev Hr]].
  destruct (G (k, h) (or_introl eq_refl)) as [Gk Gh]. cbn [fst snd] in Gk, Gh. rewrite (E k h v Gk Gh Ev). exact Hr.
Qed.
Lemma sumM_mono {N : Num} {A B} (c : A -> res N) (c' : B -> res N) l l' v :
  Forall2 (fun x y => forall u, c x = Ok u -> c' y = Ok u) l l' -> sumM c l = Ok v -> sumM c' l' = Ok v.
Proof.
  intro F. unfold sumM. generalize (@nofZ N 0). induction F as [|x y l l' Hxy F IH]; intros s E; cbn [forM] in *; [exact E|].
  apply bind_Ok_inv in E as (s1 & E1 & E). apply bind_Ok_inv in E1 as (u & Eu & E1). rewrite (Hxy u Eu). cbn [bind]. inversion E1; subst. apply IH. exact E.
Qed.
Lemma lastv_mono {N : Num} {A B} (c : A -> res N) (c' : B -> res N) l l' v :
  Forall2 (fun x y => forall u, c x = Ok u -> c' y = Ok u) l l' -> lastv c l = Ok v -> lastv c' l' = Ok v.
Proof.
  intros F E. unfold lastv, lastM in *. apply bind_Ok_inv in E as (o & Eo & E).
  assert (G : forM l' (fun tr (_ : option N) => v <- c' tr ;; Ok (Some (nadd v (nofZ 0)))) None = Ok o); [|rewrite G; exact E].
  clear E. revert Eo. generalize (@None N). induction F as [|x y l l' Hxy F IH]; intros q E; cbn [forM] in *; [exact E|].
  apply bind_Ok_inv in E as (s1 & E1 & E). apply bind_Ok_inv in E1 as (u & Eu & E1). rewrite (Hxy u Eu). cbn [bind]. inversion E1; subst. apply IH. exact E.
Qed.

(** ** The uniform axis of a longer record *)
Lemma taxis_pad (delta pre : R) m l n : 0 < delta ->
  exists TA TB, @taxis RN delta (m + (l + n)) (pre + INR m * delta) = TA ++ @taxis RN delta l pre ++ TB /\ length TA = m /\
    around TA (@taxis RN delta l pre) TB.
Proof.
  intro Hd. set (g := fun i : nat => delta * INR i - (pre + INR m * delta)).
  exists (map g (seq 0 m)), (map g (seq (m + l) n)).
  assert (E : forall a k, map (fun i => @nsub RN (@nmul RN delta (@nofZ RN (Z.of_nat i))) (pre + INR m * delta)) (seq a k) = map g (seq a k)).
  { intros. apply map_ext. intro i. unfold g. simpl. rewrite <- INR_IZR_INZ. reflexivity. }
  assert (Em : @taxis RN delta l pre = map g (seq m l)).
  { enough (Q : forall k z, map (fun i => @nsub RN (@nmul RN delta (@nofZ RN (Z.of_nat i))) pre) (seq z k) = map g (seq (m + z) k)).
    { unfold taxis. rewrite (Q l 0%nat), Nat.add_0_r. reflexivity. }
    induction k as [|k IH]; intro z; [reflexivity|]. cbn [seq map]. f_equal.
    - unfold g. simpl. rewrite <- INR_IZR_INZ, plus_INR. change (F RN) with R. ring.
    - rewrite IH. f_equal. f_equal. lia. }
  split; [|split].
  - unfold taxis at 1. rewrite E. rewrite !seq_app, !map_app, Em. reflexivity.
  - rewrite map_length, seq_length. reflexivity.
  - rewrite Em. split; intros a t Ha Ht; apply in_map_iff in Ha as (i & <- & Hi); apply in_map_iff in Ht as (j & <- & Hj); apply in_seq in Hi, Hj; unfold g.
    + assert (INR i < INR j) by (apply lt_INR; lia). nra.
    + assert (INR j <= INR i) by (apply le_INR; lia). nra.
Qed.
Lemma covered_inside delta l pre x : (1 <= l)%nat -> covered delta l pre x -> inside (@taxis RN delta l pre) x.
Proof.
  intros Hl [H1 H2]. exists (- pre), (delta * INR (l - 1) - pre). split; [|split; [|lra]].
  - apply (nth_error_In _ 0). rewrite taxis_R_nth by lia. f_equal. simpl. ring.
  - apply (nth_error_In _ (l - 1)). rewrite taxis_R_nth by lia. reflexivity.
Qed.

(** ** C108: programs with their own time axis *)
Theorem C108_hkSynth draw (A data B TA time TB : list R) p pk H K Vp w1 w2 w3 layer r :
  @hkSynth RN draw data time p pk H K (Some Vp) w1 w2 w3 layer = Ok r ->
  length A = length TA -> around TA time TB -> precritical Vp p ->
  (forall h k, In h H -> In k K -> inside3 time (t_Ps Vp p h k) (t_PpPs Vp p h k) (t_PsPs Vp p h k)) ->
  exists r', @hkSynth RN draw (A ++ data ++ B) (TA ++ time ++ TB) p pk H K (Some Vp) w1 w2 w3 layer = Ok r' /\
    hs_stk r' = hs_stk r /\ hs_best r' = hs_best r.
Proof.
  intros E HL HO HP HI. apply hkSynth_inv in E as (u & T & Ar & D & _). eexists. split.
  - eapply hkSynth_intro; [|exact Ar|exact D]. refine (table_mono_in _ _ _ _ _ _ T). intros k h v Hk Hh. cbn [dflt].
    apply one_mono. intros y. rewrite hkSynth_times_eq.
    apply (contrib_pad _ _ _ A data B TA time TB _ _ _ _ y (hk_times_R Vp p pk h k HP) HL (HI h k Hh Hk) HO).
  - cbn. auto.
Qed.
Theorem C108_hkYu draw (A flt B TA time TB : list R) (tlag : R) tk p pk H K VM VS vs a b c r :
  @hkYu RN draw flt time tlag tk p pk H K (Some VM) (Some VS) (Some vs) a b c = Ok r ->
  length A = length TA -> around TA time TB -> precritical VM p ->
  (forall h k, In h H -> In k K ->
     inside3 time (t_Ps VM p h k + yr_Pdelay r) (t_PpPs VM p h k + tlag - yr_Pdelay r) (t_PsPs VM p h k + tlag)) ->
  exists r', @hkYu RN draw (A ++ flt ++ B) (TA ++ time ++ TB) tlag tk p pk H K (Some VM) (Some VS) (Some vs) a b c = Ok r' /\
    yr_stk r' = yr_stk r /\ yr_best r' = yr_best r.
Proof.
  intros E HL HO HP HI. apply hkYu_inv in E as (v & x & y & u & Ev & Eh & Ea & Eb & Ep & T & Ar & D & _). inversion Ev; subst v.
  eexists. rewrite hkYu_eq. cbn zeta. cbn [dflt need bind]. rewrite Eh in Ea, Eb. cbn [dflt] in Eb. rewrite Ea. cbn [bind]. rewrite Eb. cbn [bind].
  rewrite <- Ep. match goal with |- context [mapM (mkrow_of ?f)] => assert (T' : is_table f K H (yr_stk r)) end.
  { refine (table_mono_in _ _ _ _ _ _ T). intros k h z Hk Hh. cbn [dflt]. apply one_mono. intros y0.
    assert (Ets : @hkYu_times RN VM p pk tlag (yr_Pdelay r) h k = Ok (TR (t_Ps VM p h k + yr_Pdelay r), TR (t_PpPs VM p h k + tlag - yr_Pdelay r), TR (t_PsPs VM p h k + tlag)))
      by (rewrite hkYu_times_eq, (hk_times_R VM p pk h k HP); reflexivity).
    apply (contribO_pad _ _ _ A flt B TA time TB _ _ _ _ y0 Ets HL (HI h k Hh Hk) HO). }
  unfold is_table in T'. rewrite T'. cbn [bind]. rewrite Ar. cbn [bind]. rewrite D. cbn [bind]. split; [reflexivity|]. cbn. auto.
Qed.
Theorem C108_hkSeqSynth draw (A dS B A' dM B' TA time TB : list R) p pk HS KS VS a b c HM KM VM d e f r :
  @hkSeqSynth RN draw dS dM time p pk HS KS (Some VS) a b c HM KM (Some VM) d e f = Ok r ->
  length A = length TA -> length A' = length TA -> around TA time TB -> precritical VS p -> precritical VM p ->
  (forall h k, In h HS -> In k KS -> inside3 time (t_Ps VS p h k) (t_PpPs VS p h k) (t_PsPs VS p h k)) ->
  (forall h1 k1 h k, In h1 HS -> In k1 KS -> In h HM -> In k KM ->
     inside3 time (t2_Ps VS h1 k1 VM p h k) (t2_PpPs VS h1 k1 VM p h k) (t2_PsPs VS h1 k1 VM p h k)) ->
  exists r', @hkSeqSynth RN draw (A ++ dS ++ B) (A' ++ dM ++ B') (TA ++ time ++ TB) p pk HS KS (Some VS) a b c HM KM (Some VM) d e f = Ok r' /\
    ss_stkSed r' = ss_stkSed r /\ ss_bestSed r' = ss_bestSed r /\ ss_stkMoho r' = ss_stkMoho r /\ ss_bestMoho r' = ss_bestMoho r.
Proof.
  intros E HL HL' HO HP HP2 HI HI2. apply hkSeqSynth_inv in E as (u & u' & bm & rowsM & T & Ar & D & Bm & TM & AM & DM & EM & _).
  assert (Hb : In (rH bm) HS /\ In (rK bm) KS).
  { destruct (table_row _ _ _ _ _ _ T Bm) as (i & j & _ & _ & X & Y & _). split; eapply nth_error_In; eassumption. }
  eexists. rewrite hkSeqSynth_eq. cbn zeta. cbn [dflt].
  match goal with |- context [mapM (mkrow_of ?f) (list_prod KS HS)] => assert (T' : is_table f KS HS (ss_stkSed r)) end.
  { refine (table_mono_in _ _ _ _ _ _ T). intros k h z Hk Hh. cbn [dflt]. apply one_mono. intros y0. rewrite hkSeqSynthSed_times_eq.
    apply (contrib_pad _ _ _ A dS B TA time TB _ _ _ _ y0 (hk_times_R VS p pk h k HP) HL (HI h k Hh Hk) HO). }
  unfold is_table in T'. rewrite T'. cbn [bind]. rewrite Ar. cbn [bind]. rewrite D. cbn [bind]. rewrite (proj2 (getitem_Ok _ _ _) Bm). cbn [bind].
  match goal with |- context [mapM (mkrow_of ?f) (list_prod KM HM)] => assert (TM' : is_table f KM HM rowsM) end.
  { refine (table_mono_in _ _ _ _ _ _ TM). intros k h z Hk Hh. cbn [dflt]. apply one_mono. intros y0. rewrite hkSeqSynthMoho_times_eq.
    apply (contribO_pad _ _ _ A' dM B' TA time TB _ _ _ _ y0 (hkSeqMoho_times_R (rH bm) (rK bm) VS VM p pk h k HP HP2) HL' (HI2 _ _ h k (proj1 Hb) (proj2 Hb) Hh Hk) HO). }
  unfold is_table in TM'. rewrite TM'. cbn [bind]. rewrite AM. cbn [bind]. rewrite DM. cbn [bind]. split; [reflexivity|]. cbn. auto.
Qed.

(** ** C108: streams *)
(** The ray parameter used for a trace of [rf]: its own, or the mean over the stream
    [rfA] if the traces are stacked first. *)
Definition ray_used (stack : bool) (km1 : R) (rfA : stream RN) (tr : trace RN) : R :=
  if stack then km1 * (sumR (map tr_slow rfA) / INR (length rfA)) else km1 * tr_slow tr.
Lemma avgslow_mean (rf : stream RN) : @avgslow RN rf = sumR (map tr_slow rf) / INR (length rf).
Proof. unfold avgslow, npmean. simpl. rewrite sumR_Rsum, map_length, <- INR_IZR_INZ. reflexivity. Qed.
Lemma padded_slow m rf rf' : Forall2 (padded m) rf rf' -> map tr_slow rf' = map tr_slow rf.
Proof. intro F. induction F as [|x y l l' (_ & _ & E & _) F IH]; [reflexivity|]. cbn [map]. rewrite E, IH. reflexivity. Qed.
Lemma padded_avg m rf rf' : Forall2 (padded m) rf rf' -> @avgslow RN rf' = @avgslow RN rf.
Proof. intro F. unfold avgslow. rewrite (padded_slow m rf rf' F). reflexivity. Qed.
Lemma ray_rp stack km1 (rfA : stream RN) tr : @hk_rp RN km1 stack (@avgslow RN rfA) tr = ray_used stack km1 rfA tr.
Proof. unfold hk_rp, ray_used. rewrite avgslow_mean. destruct stack; reflexivity. Qed.
Lemma Forall2_in {A B} (P Q : A -> B -> Prop) l l' : Forall2 P l l' -> (forall x y, In x l -> P x y -> Q x y) -> Forall2 Q l l'.
Proof. intros F H. induction F as [|x y l l' Hxy F IH]; constructor; [apply H; [left; reflexivity|exact Hxy]|apply IH; intros; apply H; [right|]; assumption]. Qed.

Theorem C108_hk km1 stackO draw (rf rf' : stream RN) m (pre : R) H K Vp w1 w2 w3 layer (stack : bool) r tr0 st SR st' SR' :
  @hk RN km1 stackO draw rf pre H K (Some Vp) w1 w2 w3 layer (Some stack) = Ok r ->
  Forall2 (padded m) rf rf' -> nth_error rf 0 = Some tr0 ->
  stackO rf = Ok (st :: SR) -> stackO rf' = Ok (st' :: SR') -> (stack = true -> padded m st st') ->
  let delta := tr_delta tr0 in let l := length (tr_data tr0) in
  0 < delta -> (1 <= l)%nat ->
  (forall tr h k, In tr rf -> In h H -> In k K -> let p := ray_used stack km1 rf tr in
     precritical Vp p /\ covered delta l pre (t_Ps Vp p h k) /\ covered delta l pre (t_PpPs Vp p h k) /\ covered delta l pre (t_PsPs Vp p h k)) ->
  exists r', @hk RN km1 stackO draw rf' (pre + INR m * delta) H K (Some Vp) w1 w2 w3 layer (Some stack) = Ok r' /\
    hr_stk r' = hr_stk r /\ hr_best r' = hr_best r.
Proof.
  intros E F E0 ES ES' Hst delta l Hd Hl HI. apply hk_inv in E as (SR0 & st0 & tr1 & u & ES0 & E1 & E2 & T & Ar & D & _).
  rewrite ES in ES0. inversion ES0; subst SR0. cbn [nth_error] in E1. inversion E1; subst st0. rewrite E0 in E2. inversion E2; subst tr1. clear E1 E2 ES0.
  destruct rf as [|t0 rf]; [discriminate|]. cbn [nth_error] in E0. inversion E0; subst t0. inversion F as [|? tr0' ? rf1 P0 F1]; subst.
  destruct P0 as ((A0 & B0 & HA0 & Ed0) & Edel & _ & _).
  assert (Hlen : length (tr_data tr0') = (m + (l + length B0))%nat) by (rewrite Ed0; etransitivity; [apply app_length|]; rewrite HA0; f_equal; apply app_length).
  destruct (taxis_pad delta pre m l (length B0) Hd) as (TA & TB & Eax & HTA & HO).
  eexists. split.
  - eapply hk_intro with (tr0 := tr0'); [exact ES'|reflexivity| |exact Ar|exact D].
    refine (table_mono_in _ _ _ _ _ _ T). intros k h v Hk Hh. cbn [dflt]. apply sumM_mono.
    rewrite Edel, Hlen. fold delta l. rewrite Eax. rewrite (padded_avg m _ _ F).
    refine (Forall2_in _ _ _ _ F _). intros tr tr' Htr (Hpad & Hdl & Hsl & Hsk) y.
    unfold hk_c. assert (Erp : @hk_rp RN km1 stack (@avgslow RN (tr0 :: rf)) tr' = @hk_rp RN km1 stack (@avgslow RN (tr0 :: rf)) tr) by (unfold hk_rp; rewrite Hsl; reflexivity).
    assert (Erk : @hk_rpk RN stack tr' = @hk_rpk RN stack tr) by (unfold hk_rpk; rewrite Hsk; reflexivity). rewrite Erp, Erk, ray_rp.
    assert (Hdat : exists A B : list R, length A = length TA /\ @hk_data RN stack st' tr' = A ++ @hk_data RN stack st tr ++ B).
    { rewrite HTA. unfold hk_data. destruct stack; [apply (Hst eq_refl)|exact Hpad]. }
    destruct Hdat as (A & B & HA & ->). destruct (HI tr h k Htr Hh Hk) as (HP & C1 & C2 & C3).
    apply (contrib_pad _ _ _ A _ B TA _ TB _ _ _ _ y (hk_times_R Vp _ _ h k HP) HA); [|exact HO].
    split; [|split]; apply covered_inside; assumption.
  - cbn. auto.
Qed.

Theorem C108_hkSeq km1 stackO draw (rfS rfM rfS' rfM' : stream RN) m (pre : R) HS KS VS a b c HM KM VM d e f (stack : bool) r tr0 stS SS stS' SS' stM SM stM' SM' :
  @hkSeq RN km1 stackO draw rfS rfM pre HS KS (Some VS) a b c HM KM (Some VM) d e f (Some stack) = Ok r ->
  Forall2 (padded m) rfS rfS' -> Forall2 (padded m) rfM rfM' -> nth_error rfS 0 = Some tr0 ->
  stackO rfS = Ok (stS :: SS) -> stackO rfS' = Ok (stS' :: SS') -> stackO rfM = Ok (stM :: SM) -> stackO rfM' = Ok (stM' :: SM') ->
  (stack = true -> padded m stS stS' /\ padded m stM stM') ->
  let delta := tr_delta tr0 in let l := length (tr_data tr0) in
  0 < delta -> (1 <= l)%nat ->
  (forall tr h k, In tr rfS -> In h HS -> In k KS -> let p := ray_used stack km1 rfM tr in
     precritical VS p /\ covered delta l pre (t_Ps VS p h k) /\ covered delta l pre (t_PpPs VS p h k) /\ covered delta l pre (t_PsPs VS p h k)) ->
  (forall tr h1 k1 h k, In tr rfM -> In h1 HS -> In k1 KS -> In h HM -> In k KM -> let p := ray_used stack km1 rfM tr in
     precritical VS p /\ precritical VM p /\ covered delta l pre (t2_Ps VS h1 k1 VM p h k) /\
     covered delta l pre (t2_PpPs VS h1 k1 VM p h k) /\ covered delta l pre (t2_PsPs VS h1 k1 VM p h k)) ->
  exists r', @hkSeq RN km1 stackO draw rfS' rfM' (pre + INR m * delta) HS KS (Some VS) a b c HM KM (Some VM) d e f (Some stack) = Ok r' /\
    sr_stkSed r' = sr_stkSed r /\ sr_bestSed r' = sr_bestSed r /\ sr_stkMoho r' = sr_stkMoho r /\ sr_bestMoho r' = sr_bestMoho r.
Proof.
  intros E FS FM E0 ES ES' EM EM' Hst delta l Hd Hl HI HI2.
  apply hkSeq_inv in E as (SS0 & stS0 & SM0 & stM0 & tr1 & u & u2 & bm & rowsM & Q1 & Q2 & Q3 & Q4 & Q5 & T & Ar & D & Bm & TM & AM & DM & EMo & _).
  rewrite ES in Q1. inversion Q1; subst SS0. inversion Q2; subst stS0. rewrite EM in Q3. inversion Q3; subst SM0. inversion Q4; subst stM0. rewrite E0 in Q5. inversion Q5; subst tr1.
  clear Q1 Q2 Q3 Q4 Q5.
  assert (Hb : In (rH bm) HS /\ In (rK bm) KS).
  { destruct (table_row _ _ _ _ _ _ T Bm) as (i & j & _ & _ & X & Y & _). split; eapply nth_error_In; eassumption. }
  destruct rfS as [|t0 rfS]; [discriminate|]. cbn [nth_error] in E0. inversion E0; subst t0. inversion FS as [|? tr0' ? rf1 P0 F1]; subst.
  destruct P0 as ((A0 & B0 & HA0 & Ed0) & Edel & _ & _).
  assert (Hlen : length (tr_data tr0') = (m + (l + length B0))%nat) by (rewrite Ed0; etransitivity; [apply app_length|]; rewrite HA0; f_equal; apply app_length).
  destruct (taxis_pad delta pre m l (length B0) Hd) as (TA & TB & Eax & HTA & HO).
  assert (Erp : forall tr tr', padded m tr tr' -> @hk_rp RN km1 stack (@avgslow RN rfM) tr' = @hk_rp RN km1 stack (@avgslow RN rfM) tr) by (intros tr tr' (_ & _ & Hsl & _); unfold hk_rp; rewrite Hsl; reflexivity).
  assert (Erk : forall tr tr', padded m tr tr' -> @hk_rpk RN stack tr' = @hk_rpk RN stack tr) by (intros tr tr' (_ & _ & _ & Hsk); unfold hk_rpk; rewrite Hsk; reflexivity).
  eexists. rewrite hkSeq_eq. cbn zeta. cbn [dflt]. rewrite ES', EM'. cbn [bind getitem nth_error]. rewrite Edel, Hlen. fold delta l. rewrite Eax, (padded_avg m _ _ FM).
  match goal with |- context [mapM (mkrow_of ?f) (list_prod KS HS)] => assert (T' : is_table f KS HS (sr_stkSed r)) end.
  { refine (table_mono_in _ _ _ _ _ _ T). intros k h z Hk Hh. cbn [dflt]. apply lastv_mono. refine (Forall2_in _ _ _ _ FS _). intros tr tr' Htr Hp y.
    unfold seqSed_c. rewrite (Erp tr tr' Hp), (Erk tr tr' Hp), ray_rp, hkSeqSed_times_eq.
    assert (Hdat : exists A B : list R, length A = length TA /\ @hk_data RN stack stS' tr' = A ++ @hk_data RN stack stS tr ++ B).
    { rewrite HTA. unfold hk_data. destruct stack; [apply (proj1 (Hst eq_refl))|apply Hp]. }
    destruct Hdat as (A & B & HA & ->). destruct (HI tr h k Htr Hh Hk) as (HP & C1 & C2 & C3).
    apply (contrib_pad _ _ _ A _ B TA _ TB _ _ _ _ y (hk_times_R VS _ _ h k HP) HA); [|exact HO].
    split; [|split]; apply covered_inside; assumption. }
  unfold is_table in T'. rewrite T'. cbn [bind]. rewrite Ar. cbn [bind]. rewrite D. cbn [bind]. rewrite (proj2 (getitem_Ok _ _ _) Bm). cbn [bind].
  match goal with |- context [mapM (mkrow_of ?f) (list_prod KM HM)] => assert (TM' : is_table f KM HM rowsM) end.
  { refine (table_mono_in _ _ _ _ _ _ TM). intros k h z Hk Hh. cbn [dflt]. apply lastv_mono. refine (Forall2_in _ _ _ _ FM _). intros tr tr' Htr Hp y.
    unfold seqMoho_c. rewrite (Erp tr tr' Hp), (Erk tr tr' Hp), ray_rp.
    assert (Hdat : exists A B : list R, length A = length TA /\ @hk_data RN stack stM' tr' = A ++ @hk_data RN stack stM tr ++ B).
    { rewrite HTA. unfold hk_data. destruct stack; [apply (proj2 (Hst eq_refl))|apply Hp]. }
    destruct Hdat as (A & B & HA & ->). destruct (HI2 tr _ _ h k Htr (proj1 Hb) (proj2 Hb) Hh Hk) as (HP & HP2 & C1 & C2 & C3).
    apply (contribO_pad _ _ _ A _ B TA _ TB _ _ _ _ y (hkSeqMoho_times_R (rH bm) (rK bm) VS VM _ _ h k HP HP2) HA); [|exact HO].
    split; [|split]; apply covered_inside; assumption. }
  unfold is_table in TM'. rewrite TM'. cbn [bind]. rewrite AM. cbn [bind]. rewrite DM. cbn [bind]. split; [reflexivity|]. cbn. auto.
Qed.
