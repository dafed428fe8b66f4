(** * P_Hk3: property theorems C14 (errors) and C15-C22. *)

From Coq Require Import Reals Lra Psatz Permutation Floats.SpecFloat.
From Verif Require Import Base Num NumPy Spec HkModel HkProofs HkReal HkFacts HkFacts2 HkFacts3 HkFacts4 P_Hk DrawSpec P_Hk2.

Lemma mapM_Err_inv {A B} (f : A -> res B) l e : mapM f l = Err e -> exists x, In x l /\ f x = Err e.
Proof.
  induction l as [|x l IH]; simpl; [discriminate|].
  destruct (f x) as [y|e'] eqn:E; simpl.
  - destruct (mapM f l) as [ys|e'']; simpl; [discriminate|]. intro H. inversion H; subst.
    destruct IH as [z [Hz Ez]]; [reflexivity|]. exists z. auto.
  - intro H. inversion H; subst. exists x. auto.
Qed.

Lemma sumM_Err_inv {N : Num} {A} (c : A -> res N) l e : sumM c l = Err e -> exists x, In x l /\ c x = Err e.
Proof.
  unfold sumM. generalize (@nofZ N 0). induction l as [|x l IH]; intros s; simpl; [discriminate|].
  destruct (c x) as [y|e'] eqn:E; simpl.
  - intro H. destruct (IH _ H) as [z [Hz Ez]]. exists z. auto.
  - intro H. inversion H; subst. exists x. auto.
Qed.

Lemma IndexError_iff_aux km1 stackO draw (rf : stream RN) pre (H K : list RN) Vp w1 w2 w3 layer st SR tr0 :
  stackO rf = Ok (st :: SR) -> draws draw K H -> H <> [] -> K <> [] ->
  nth_error rf 0 = Some tr0 -> 1 <= length (tr_data tr0) ->
  (forall tr, In tr rf -> precritical Vp (km1 * tr_slow tr)) -> (forall k, In k K -> (1 <= k)%R) ->
  let axis := @taxis RN (tr_delta tr0) (length (tr_data tr0)) pre in
  let call := @hk RN km1 stackO draw rf pre H K (Some Vp) w1 w2 w3 layer (Some false) in
  let beyond := exists tr k h t i, In tr rf /\ In k K /\ In h H /\
      (t = t_Ps Vp (km1 * tr_slow tr) h k \/ t = t_PpPs Vp (km1 * tr_slow tr) h k \/
       t = t_PsPs Vp (km1 * tr_slow tr) h k) /\
      nearest_first axis t i /\ length (tr_data tr) <= i in
  (call = Err IndexError <-> beyond) /\ ((exists r, call = Ok r) <-> ~ beyond).
Proof.
  intros HO HD HH HK H0 Hl HP _ axis call beyond.
  assert (Hax : axis <> []) by (apply (taxis_nonempty (N := RN)); exact Hl).
  (* a read either succeeds or raises IndexError because its index is beyond *)
  assert (Hread : forall tr t, (exists a, @getamp RN (tr_data tr) axis (TR t) = Ok a) \/
     (@getamp RN (tr_data tr) axis (TR t) = Err IndexError /\
      exists i, nearest_first axis t i /\ length (tr_data tr) <= i)).
  { intros tr t. destruct (getamp_nearest RN_laws (tr_data tr) axis t Hax (fun _ _ => eq_refl)) as (i&Hi&Hn&E).
    rewrite E. unfold getitem. destruct (nth_error (tr_data tr) i) as [a|] eqn:En; [left; eauto|right].
    split; [reflexivity|]. exists i. split; [exact Hn|]. apply nth_error_None. exact En. }
  set (W1 := dflt w1 (@nlit RN 6 10)). set (W2 := dflt w2 (@nlit RN 3 10)). set (W3 := dflt w3 (@nlit RN 1 10)).
  set (f := fun k h => @sumM RN _ (@hk_c RN km1 false st (@avgslow RN rf) axis Vp W1 W2 W3 k h) rf).
  assert (Ec : forall k h tr, In tr rf -> @hk_c RN km1 false st (@avgslow RN rf) axis Vp W1 W2 W3 k h tr =
     @contrib RN W1 W2 W3 (tr_data tr) axis (Ok (TR (t_Ps Vp (km1 * tr_slow tr) h k),
        TR (t_PpPs Vp (km1 * tr_slow tr) h k), TR (t_PsPs Vp (km1 * tr_slow tr) h k)))).
  { intros k h tr Htr. unfold hk_c, hk_data, hk_rp, hk_rpk.
    change (@nmul RN km1 (tr_slow tr)) with (km1 * tr_slow tr)%R.
    rewrite hk_times_R by (apply HP; exact Htr). reflexivity. }
  assert (Ecall : (exists r, call = Ok r /\ exists rows, mapM (mkrow_of f) (list_prod K H) = Ok rows) \/
                  (exists e, call = Err e /\ mapM (mkrow_of f) (list_prod K H) = Err e)).
  { unfold call. rewrite hk_eq. rewrite HO. cbn [bind getitem nth_error].
    unfold getitem. rewrite H0. cbn [bind]. cbn [dflt]. fold axis. fold W1 W2 W3.
    change (fun k h : RN => @sumM RN _ (@hk_c RN km1 false st (@avgslow RN rf) axis Vp W1 W2 W3 k h) rf) with f.
    destruct (mapM (mkrow_of f) (list_prod K H)) as [rows|e] eqn:Er; cbn [bind].
    - left. assert (T : is_table f K H rows) by exact Er.
      pose proof (table_nonempty _ _ _ _ T HK HH) as Hne.
      destruct (argmax_Ok_iff (map rS rows)) as [ib [Ea _]].
      { destruct rows; [congruence|discriminate]. }
      rewrite Ea. cbn [bind]. destruct (HD rows (grid_table_of _ _ _ _ T) (fun _ _ => eq_refl)) as [u ->]. cbn [bind]. eauto.
    - right. eauto. }
  assert (Hbad : beyond -> forall rows, mapM (mkrow_of f) (list_prod K H) <> Ok rows).
  { intros (tr&k&h&t&i&Htr&Hk&Hh&Ht&Hn&Hi) rows Er.
    apply In_nth_error in Hk. destruct Hk as [n1 Hk]. apply In_nth_error in Hh. destruct Hh as [n2 Hh].
    destruct (table_node f K H rows n1 n2 k h Er Hk Hh) as [v [_ Ef]].
    unfold f in Ef. apply sumM_R in Ef. destruct Ef as [vs [Fv _]].
    apply In_nth_error in Htr. destruct Htr as [m Htr].
    destruct (Forall2_nth _ _ _ m tr Fv Htr) as [y [_ Ey]].
    rewrite Ec in Ey by (eapply nth_error_In; eassumption).
    apply contrib_inv in Ey. destruct Ey as (a1&a2&a3&E1&E2&E3&_). simpl in E1, E2, E3.
    assert (G : forall a, @getamp RN (tr_data tr) axis (TR t) <> Ok a).
    { intros a E. apply getamp_R in E. destruct E as [i' [Hn' Ea]].
      assert (i' = i) by (eapply (nearest_first_unique RN_laws); eassumption). subst i'.
      apply nth_error_None in Hi. congruence. }
    destruct Ht as [->|[->| ->]]; eapply G; eassumption. }
  assert (Hgood : forall e, mapM (mkrow_of f) (list_prod K H) = Err e -> e = IndexError /\ beyond).
  { intros e Er. apply mapM_Err_inv in Er. destruct Er as [[k h] [Hin Ef]].
    apply in_prod_iff in Hin. destruct Hin as [Hk Hh].
    unfold mkrow_of in Ef. cbn [fst snd] in Ef.
    destruct (f k h) as [v|e'] eqn:Efk; cbn [bind] in Ef; [discriminate|]. inversion Ef; subst e'; clear Ef.
    unfold f in Efk. apply sumM_Err_inv in Efk. destruct Efk as [tr [Htr Et]].
    rewrite Ec in Et by exact Htr. unfold contrib in Et. cbn [bind] in Et.
    destruct (Hread tr (t_Ps Vp (km1 * tr_slow tr) h k)) as [[a1 E1]|[E1 [i [Hn Hi]]]].
    2:{ rewrite E1 in Et. cbn [bind] in Et. inversion Et; split; [reflexivity|].
        exists tr, k, h, (t_Ps Vp (km1 * tr_slow tr) h k), i. auto 10. }
    destruct (Hread tr (t_PpPs Vp (km1 * tr_slow tr) h k)) as [[a2 E2]|[E2 [i [Hn Hi]]]].
    2:{ rewrite E1, E2 in Et. cbn [bind] in Et. inversion Et; split; [reflexivity|].
        exists tr, k, h, (t_PpPs Vp (km1 * tr_slow tr) h k), i. auto 10. }
    destruct (Hread tr (t_PsPs Vp (km1 * tr_slow tr) h k)) as [[a3 E3]|[E3 [i [Hn Hi]]]].
    2:{ rewrite E1, E2, E3 in Et. cbn [bind] in Et. inversion Et; split; [reflexivity|].
        exists tr, k, h, (t_PsPs Vp (km1 * tr_slow tr) h k), i. auto 10. }
    rewrite E1, E2, E3 in Et. cbn [bind] in Et. discriminate. }
  destruct Ecall as [[r [Er [rows Erows]]]|[e [Er Erows]]]; rewrite Er.
  - split; split.
    + discriminate.
    + intro B. exfalso. exact (Hbad B rows Erows).
    + intros _ B. exact (Hbad B rows Erows).
    + intros _. eauto.
  - destruct (Hgood e Erows) as [-> B]. split; split; auto.
    + intros [r' C]. discriminate.
    + intro C. contradiction.
Qed.

(** The call raises IndexError exactly when some node of the grid needs, for some
    trace, a sample index (on the first trace's axis) beyond the end of that
    trace; otherwise it returns. *)
Theorem C14_IndexError_iff km1 stackO draw (rf : stream RN) pre (H K : list RN) Vp w1 w2 w3 layer st SR tr0 :
  stackO rf = Ok (st :: SR) -> draws draw K H -> H <> [] -> K <> [] ->
  nth_error rf 0 = Some tr0 -> 1 <= length (tr_data tr0) ->
  (forall tr, In tr rf -> precritical Vp (km1 * tr_slow tr)) -> (forall k, In k K -> (1 <= k)%R) ->
  let axis := @uniform_axis RN (tr_delta tr0) (length (tr_data tr0)) pre in
  let call := @hk RN km1 stackO draw rf pre H K (Some Vp) w1 w2 w3 layer (Some false) in
  let beyond := exists tr k h t i, In tr rf /\ In k K /\ In h H /\
      (t = t_Ps Vp (km1 * tr_slow tr) h k \/ t = t_PpPs Vp (km1 * tr_slow tr) h k \/
       t = t_PsPs Vp (km1 * tr_slow tr) h k) /\
      nearest_first axis t i /\ length (tr_data tr) <= i in
  (call = Err IndexError <-> beyond) /\ ((exists r, call = Ok r) <-> ~ beyond).
Proof. exact (IndexError_iff_aux km1 stackO draw rf pre H K Vp w1 w2 w3 layer st SR tr0). Qed.

(** ** C15: the Moho stage uses the sediment result *)

Lemma clip_row_R (r : row RN) : clip_row r = @mkRow RN (rH r) (rK r) (Rmax 0 (rS r)).
Proof.
  unfold clip_row. simpl. destruct r as [h k s]. simpl. unfold Rleb.
  destruct (Rle_dec s 0); f_equal; unfold Rmax; destruct (Rle_dec 0 s); lra || reflexivity.
Qed.

(** stack=False: the value of a Moho node is read from the (last, see C16) Moho
    trace at the two-layer times of the sediment best model just found; negative
    values are replaced by 0 (see C17). *)
Theorem C15_hkSeq_moho_value km1 stackO draw (rfS rfM : stream RN) trl pre
    HS KS (VS a b c : R) HM KM (VM d e f : R) r i j k h :
  @hkSeq RN km1 stackO draw rfS (rfM ++ [trl]) pre HS KS (Some VS) (Some a) (Some b) (Some c)
     HM KM (Some VM) (Some d) (Some e) (Some f) (Some false) = Ok r ->
  let p := (km1 * tr_slow trl)%R in
  precritical VS p -> precritical VM p ->
  (forall k1, In k1 KS -> (1 <= k1)%R) -> (1 <= k)%R ->
  nth_error KM i = Some k -> nth_error HM j = Some h ->
  exists H1 K1 s1 a1 a2 a3,
    nth_error (sr_stkSed r) (sr_bestSed r) = Some (mkRow H1 K1 s1) /\
    amp_near (tr_data trl) (sr_time r) (t2_Ps VS H1 K1 VM p h k) a1 /\
    amp_near (tr_data trl) (sr_time r) (t2_PpPs VS H1 K1 VM p h k) a2 /\
    amp_near (tr_data trl) (sr_time r) (t2_PsPs VS H1 K1 VM p h k) a3 /\
    nth_error (sr_stkMoho r) (i * length HM + j)
      = Some (@mkRow RN h k (Rmax 0 (wsum d e f a1 a2 a3))).
Proof.
  intros E p HP1 HP2 _ _ Hk Hh. apply hkSeq_inv in E. cbn zeta in E.
  destruct E as (SS&stS0&SM&stM0&tr0&u&u'&bm&rowsM&_&_&_&_&_&T&_&_&Ebm&T'&_&_&Em&Er).
  destruct (table_node _ _ _ _ i j k h T' Hk Hh) as [v [Ev Ef]].
  apply lastv_last in Ef. destruct Ef as [y [Ey ->]].
  unfold seqMoho_c, hk_data, hk_rp, hk_rpk in Ey. cbn [dflt] in Ey.
  change (@nmul RN km1 (tr_slow trl)) with p in Ey.
  rewrite hkSeqMoho_times_R in Ey by assumption. rewrite contribO_Some in Ey.
  apply contrib_inv in Ey. destruct Ey as (a1&a2&a3&E1&E2&E3&->). simpl in E1, E2, E3.
  apply getamp_R in E1, E2, E3.
  exists (rH bm), (rK bm), (rS bm), a1, a2, a3.
  split; [rewrite Ebm; destruct bm; reflexivity|].
  rewrite Er. cbn [sr_time]. repeat (split; [assumption|]).
  cbn [sr_stkMoho]. rewrite Em. rewrite nth_error_map, Ev. simpl option_map. rewrite clip_row_R.
  f_equal. simpl. f_equal. f_equal. unfold wsum. rewrite Rplus_0_r. reflexivity.
Qed.

(** stack=True: the stacked Moho trace, at the mean slowness of the Moho stream. *)
Theorem C15_hkSeq_moho_value_stacked km1 stackO draw (rfS rfM : stream RN) pre
    HS KS (VS a b c : R) HM KM (VM d e f : R) r i j k h :
  @hkSeq RN km1 stackO draw rfS rfM pre HS KS (Some VS) (Some a) (Some b) (Some c)
     HM KM (Some VM) (Some d) (Some e) (Some f) (Some true) = Ok r ->
  let p := (km1 * (sumR (map tr_slow rfM) / INR (length rfM)))%R in
  precritical VS p -> precritical VM p ->
  (forall k1, In k1 KS -> (1 <= k1)%R) -> (1 <= k)%R ->
  nth_error KM i = Some k -> nth_error HM j = Some h ->
  exists st SM H1 K1 s1 a1 a2 a3,
    stackO rfM = Ok (st :: SM) /\
    nth_error (sr_stkSed r) (sr_bestSed r) = Some (mkRow H1 K1 s1) /\
    amp_near (tr_data st) (sr_time r) (t2_Ps VS H1 K1 VM p h k) a1 /\
    amp_near (tr_data st) (sr_time r) (t2_PpPs VS H1 K1 VM p h k) a2 /\
    amp_near (tr_data st) (sr_time r) (t2_PsPs VS H1 K1 VM p h k) a3 /\
    nth_error (sr_stkMoho r) (i * length HM + j)
      = Some (@mkRow RN h k (Rmax 0 (wsum d e f a1 a2 a3))).
Proof.
  intros E p HP1 HP2 _ _ Hk Hh. apply hkSeq_inv in E. cbn zeta in E.
  destruct E as (SS&stS0&SM&stM0&tr0&u&u'&bm&rowsM&_&_&ESM&E0&_&T&_&_&Ebm&T'&_&_&Em&Er).
  destruct SM as [|st SM]; [discriminate|]. simpl in E0. inversion E0; subst stM0.
  destruct (table_node _ _ _ _ i j k h T' Hk Hh) as [v [Ev Ef]].
  destruct (exists_last (l := rfM)) as [l0 [z0 El]].
  { intro C. rewrite C in Ef. discriminate. }
  rewrite El in Ef at 2. apply lastv_last in Ef. destruct Ef as [y [Ey ->]].
  unfold seqMoho_c, hk_data, hk_rp, hk_rpk in Ey. cbn [dflt] in Ey.
  assert (Eavg : @nmul RN km1 (@avgslow RN rfM) = p).
  { unfold avgslow, npmean. simpl. rewrite sumR_Rsum, map_length, <- INR_IZR_INZ. reflexivity. }
  rewrite Eavg in Ey. clear Eavg.
  rewrite hkSeqMoho_times_R in Ey by assumption. rewrite contribO_Some in Ey.
  apply contrib_inv in Ey. destruct Ey as (a1&a2&a3&E1&E2&E3&->). simpl in E1, E2, E3.
  apply getamp_R in E1, E2, E3.
  exists st, SM, (rH bm), (rK bm), (rS bm), a1, a2, a3. split; [exact ESM|].
  split; [rewrite Ebm; destruct bm; reflexivity|].
  rewrite Er. cbn [sr_time]. repeat (split; [assumption|]).
  cbn [sr_stkMoho]. rewrite Em. rewrite nth_error_map, Ev. simpl option_map. rewrite clip_row_R.
  f_equal. simpl. f_equal. f_equal. unfold wsum. rewrite Rplus_0_r. reflexivity.
Qed.

Theorem C15_hkSeqSynth_moho_value draw (dS dM time : list R) (p : R) pk
    HS KS (VS a b c : R) HM KM (VM d e f : R) r i j k h :
  @hkSeqSynth RN draw dS dM time p pk HS KS (Some VS) (Some a) (Some b) (Some c)
     HM KM (Some VM) (Some d) (Some e) (Some f) = Ok r ->
  precritical VS p -> precritical VM p ->
  (forall k1, In k1 KS -> (1 <= k1)%R) -> (1 <= k)%R ->
  nth_error KM i = Some k -> nth_error HM j = Some h ->
  exists H1 K1 s1 a1 a2 a3,
    nth_error (ss_stkSed r) (ss_bestSed r) = Some (mkRow H1 K1 s1) /\
    amp_near dM time (t2_Ps VS H1 K1 VM p h k) a1 /\
    amp_near dM time (t2_PpPs VS H1 K1 VM p h k) a2 /\
    amp_near dM time (t2_PsPs VS H1 K1 VM p h k) a3 /\
    nth_error (ss_stkMoho r) (i * length HM + j)
      = Some (@mkRow RN h k (Rmax 0 (wsum d e f a1 a2 a3))).
Proof.
  intros E HP1 HP2 _ _ Hk Hh. apply hkSeqSynth_inv in E.
  destruct E as (u&u'&bm&rowsM&T&_&_&Ebm&T'&_&_&Em&Er).
  destruct (table_node _ _ _ _ i j k h T' Hk Hh) as [v [Ev Ef]].
  apply one_inv in Ef. destruct Ef as [y [Ey ->]].
  rewrite hkSeqSynthMoho_times_eq in Ey. cbn [dflt] in Ey.
  rewrite hkSeqMoho_times_R in Ey by assumption. rewrite contribO_Some in Ey.
  apply contrib_inv in Ey. destruct Ey as (a1&a2&a3&E1&E2&E3&->). simpl in E1, E2, E3.
  apply getamp_R in E1, E2, E3.
  exists (rH bm), (rK bm), (rS bm), a1, a2, a3.
  split; [rewrite Ebm; destruct bm; reflexivity|].
  repeat (split; [assumption|]).
  rewrite Em. rewrite nth_error_map, Ev. simpl option_map. rewrite clip_row_R.
  f_equal. simpl. f_equal. f_equal. unfold wsum. rewrite Rplus_0_r. reflexivity.
Qed.

(** The sediment stage never looks at the Moho stream, except that with
    stack=True it uses the Moho stream's mean slowness. *)
Theorem C15_sediment_independent (N : Num) km1 stackO draw (rfS rfM rfM' : stream N) pre
    HS KS VS a b c HM KM VM d e f HM' KM' VM' d' e' f' stack r r' :
  hkSeq km1 stackO draw rfS rfM pre HS KS VS a b c HM KM VM d e f stack = Ok r ->
  hkSeq km1 stackO draw rfS rfM' pre HS KS VS a b c HM' KM' VM' d' e' f' stack = Ok r' ->
  (stack = Some true -> avgslow rfM = avgslow rfM') ->
  sr_stkSed r' = sr_stkSed r /\ sr_bestSed r' = sr_bestSed r.
Proof.
  intros E E' HA. apply hkSeq_inv in E, E'. cbn zeta in E, E'.
  destruct E as (SS&stS0&SM&stM0&tr0&u&u'&bm&rowsM&ES&E0&_&_&Et&T&A&_).
  destruct E' as (SS'&stS0'&SM'&stM0'&tr0'&v&v'&bm'&rowsM'&ES'&E0'&_&_&Et'&T'&A'&_).
  rewrite ES in ES'. inversion ES'; subst SS'. rewrite E0 in E0'. inversion E0'; subst stS0'.
  rewrite Et in Et'. inversion Et'; subst tr0'.
  assert (Es : sr_stkSed r' = sr_stkSed r).
  { eapply is_table_fun; [exact T'|]. refine (is_table_ext draw _ _ _ _ _ _ T).
    intros k h _ _. cbn beta. f_equal. unfold seqSed_c, hk_rp.
    destruct stack as [[|]|]; [|reflexivity|reflexivity]. rewrite HA by reflexivity. reflexivity. }
  split; [exact Es|]. rewrite Es in A'. congruence.
Qed.
