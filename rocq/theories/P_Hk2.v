(** * P_Hk2: property theorems C08-C10, C13, C14 about [hk] and relatives. *)

From Coq Require Import Reals Lra Psatz Permutation Floats.SpecFloat.
From Verif Require Import Base Num NumPy Spec HkModel HkProofs HkReal HkFacts HkFacts2 HkFacts3 HkFacts4 P_Hk DrawSpec.

(** ** C08: trace order and amplitude unit (exact arithmetic) *)

(** All traces of the stream share sampling interval and number of samples. *)
Definition same_sampling {N : Num} (rf : stream N) : Prop :=
  forall tr tr', In tr rf -> In tr' rf -> tr_delta tr = tr_delta tr' /\
    length (tr_data tr) = length (tr_data tr').

(** The library's stack() does not depend on the trace order. *)
Definition stack_order_free {N : Num} (stackO : stream N -> res (list (trace N))) rf rf' : Prop :=
  forall st SR, stackO rf = Ok (st :: SR) ->
    exists st' SR', stackO rf' = Ok (st' :: SR') /\ tr_data st' = tr_data st.

Theorem C08_hk_order_free km1 stackO draw (rf rf' : stream RN) pre H K Vp w1 w2 w3 layer stack r :
  Permutation rf rf' -> same_sampling rf -> stack_order_free stackO rf rf' ->
  @hk RN km1 stackO draw rf pre H K Vp w1 w2 w3 layer stack = Ok r ->
  exists r', @hk RN km1 stackO draw rf' pre H K Vp w1 w2 w3 layer stack = Ok r' /\
    hr_stk r' = hr_stk r /\ hr_best r' = hr_best r.
Proof.
  intros HP HS HO E. apply hk_inv in E. destruct E as (SR&st0&tr0&u&ES&E0&Etr&T&A&D&Er).
  destruct SR as [|st SR]; [discriminate|]. simpl in E0. inversion E0; subst st; clear E0.
  destruct (HO st0 SR ES) as (st'&SR'&ES'&Ed).
  destruct rf' as [|tr' rf'].
  { apply Permutation_sym, Permutation_nil in HP. subst. discriminate. }
  assert (Hin : In tr' rf) by (eapply Permutation_in; [apply Permutation_sym; eassumption|left; reflexivity]).
  destruct (HS tr' tr0 Hin (nth_error_In _ _ Etr)) as [Hd Hl].
  eexists. split.
  { eapply (hk_intro (N := RN)) with (tr0 := tr'); [exact ES'|reflexivity| |exact A|exact D].
    eapply table_ok_mono; [|exact T].
    intros k h v Ev. cbn beta in *.
    change (list (F RN)) with (list R).
    rewrite <- (avgslow_perm _ _ HP). rewrite Hd.
    replace (@length (F RN) (tr_data tr')) with (@length (F RN) (tr_data tr0)) by (symmetry; exact Hl).
    eapply sumM_perm; [exact HP|]. erewrite <- Ev. f_equal.
    unfold hk_c, hk_data. rewrite Ed. reflexivity. }
  cbn [hr_stk hr_best]. auto.
Qed.

Definition scale_stream (c : R) (rf : stream RN) : stream RN := map (scale_trace c) rf.

Lemma grid_table_scale (c : R) (K H : list R) (tb : list (row RN)) :
  @grid_table RN K H tb -> @grid_table RN K H (map (scale_row c) tb).
Proof.
  intros [L G]. split; [rewrite map_length; exact L|]. intros i j k h Ek Eh. destruct (G i j k h Ek Eh) as [s Es].
  eexists. rewrite nth_error_map, Es. reflexivity.
Qed.
Theorem C08_hk_unit_free km1 stackO draw (rf : stream RN) pre H K Vp w1 w2 w3 layer stack r (c : R) :
  (0 < c)%R ->
  (forall st SR, stackO rf = Ok (st :: SR) ->
     exists st' SR', stackO (scale_stream c rf) = Ok (st' :: SR') /\ tr_data st' = map (Rmult c) (tr_data st)) ->
  draws draw K H ->
  @hk RN km1 stackO draw rf pre H K Vp w1 w2 w3 layer stack = Ok r ->
  exists r', @hk RN km1 stackO draw (scale_stream c rf) pre H K Vp w1 w2 w3 layer stack = Ok r' /\
    hr_best r' = hr_best r /\
    Forall2 (fun a b => rH b = rH a /\ rK b = rK a /\ (rS b = c * rS a)%R) (hr_stk r) (hr_stk r').
Proof.
  intros Hc HO HD E. apply hk_inv in E. destruct E as (SR&st0&tr0&u&ES&E0&Etr&T&A&D&Er).
  destruct SR as [|st SR]; [discriminate|]. simpl in E0. inversion E0; subst st; clear E0.
  destruct (HO st0 SR ES) as (st'&SR'&ES'&Ed).
  destruct (HD (map (scale_row c) (hr_stk r))) as [u' D'];
    [exact (grid_table_scale c K H _ (grid_table_of _ _ _ _ T))|intros; apply isfinite_R|].
  assert (Etr' : nth_error (scale_stream c rf) 0 = Some (scale_trace c tr0)).
  { destruct rf; [discriminate|]. simpl in *. inversion Etr. reflexivity. }
  eexists. split.
  { eapply (hk_intro (N := RN)) with (tr0 := scale_trace c tr0) (rows := map (scale_row c) (hr_stk r));
      [exact ES'|exact Etr'| | |exact D'].
    2:{ rewrite map_rS_scale. apply argmax_scale; eassumption. }
    eapply table_scale; [|exact T].
    intros k h v Ev. cbn beta in *.
    assert (Eavg : @avgslow RN (scale_stream c rf) = @avgslow RN rf).
    { unfold avgslow, scale_stream. rewrite map_map. reflexivity. }
    rewrite Eavg. simpl tr_delta.
    replace (length (tr_data (scale_trace c tr0))) with (length (tr_data tr0))
      by (simpl; symmetry; apply (map_length (Rmult c))).
    eapply sumM_scale; [|exact Ev]. unfold scale_stream.
    generalize (@avgslow RN rf) as avg. intro avg.
    clear -Ed. induction rf as [|tr rf IH]; simpl; constructor; [|exact IH].
    intros v Hv. unfold hk_c, hk_data, hk_rp, hk_rpk in *. destruct (dflt stack false).
    - rewrite Ed. apply contrib_scale. exact Hv.
    - apply contrib_scale. exact Hv. }
  cbn [hr_stk hr_best]. split; [reflexivity|].
  clear. induction (hr_stk r) as [|a l IH]; simpl; constructor; auto.
Qed.

(** ** C09: stacking before or after *)

Theorem C09_stack_agrees km1 stackO draw (rf : stream RN) pre H K Vp w1 w2 w3 layer r (p : R) st SR :
  @hk RN km1 stackO draw rf pre H K Vp w1 w2 w3 layer (Some false) = Ok r ->
  same_sampling rf -> (forall tr, In tr rf -> tr_slow tr = p) ->
  precritical (dflt Vp 6.5)%R (km1 * p) -> (forall k, In k K -> (1 <= k)%R) ->
  stackO rf = Ok (st :: SR) -> is_mean rf (tr_data st) ->
  (forall tr, In tr rf -> length (tr_data st) = length (tr_data tr)) ->
  1 <= length (tr_data st) ->
  exists r', @hk RN km1 stackO draw rf pre H K Vp w1 w2 w3 layer (Some true) = Ok r' /\
    hr_stk r' = hr_stk r /\ hr_best r' = hr_best r.
Proof.
  intros E HS Hp HPC _ HO Hm Hl H1. apply hk_inv in E.
  destruct E as (SR0&st0&tr0&u&ES&E0&Etr&T&A&D&Er).
  rewrite HO in ES. inversion ES; subst SR0. simpl in E0. inversion E0; subst st0. clear E0 ES.
  eexists. split.
  { eapply (hk_intro (N := RN)); [exact HO|exact Etr| |exact A|exact D].
    eapply table_ok_mono; [|exact T].
    intros k h v Ev. cbn beta in *. simpl dflt in *.
    set (ax := taxis (tr_delta tr0) (length (tr_data tr0)) pre) in *.
    assert (Hin0 : In tr0 rf) by (eapply nth_error_In; eassumption).
    assert (HPC' : precritical (dflt Vp (@nlit RN 65 10)) (km1 * p)).
    { destruct Vp; simpl in *; [exact HPC|]. replace (65 / 10)%R with 6.5%R by lra. exact HPC. }
    set (V := dflt Vp (@nlit RN 65 10)) in *.
    set (W1 := dflt w1 (@nlit RN 6 10)) in *. set (W2 := dflt w2 (@nlit RN 3 10)) in *.
    set (W3 := dflt w3 (@nlit RN 1 10)) in *.
    assert (Hne : rf <> []) by (intro C; subst; contradiction).
    pose (ts := (@TR RN (t_Ps V (km1 * p) h k), @TR RN (t_PpPs V (km1 * p) h k), @TR RN (t_PsPs V (km1 * p) h k))).
    assert (Ev' : @sumM RN _ (fun tr => @contrib RN W1 W2 W3 (tr_data tr) ax (Ok ts)) rf = Ok v).
    { etransitivity; [|exact Ev]. unfold sumM. apply forM_ext. intros tr s Htr.
      unfold hk_c, hk_data, hk_rp, hk_rpk. rewrite (Hp tr Htr).
      change (@nmul RN km1 p) with (km1 * p)%R. rewrite hk_times_R by exact HPC'. reflexivity. }
    assert (Ln : forall tr, In tr rf -> length (tr_data tr) = length (tr_data st)) by (intros; symmetry; auto).
    apply (stack_commutes rf (tr_data st) ax ts W1 W2 W3 (length (tr_data st)) v) in Ev'; auto.
    - etransitivity; [|exact Ev']. unfold sumM. apply forM_ext. intros tr s Htr.
      unfold hk_c, hk_data, hk_rp, hk_rpk. rewrite (avgslow_const rf p Hne Hp).
      change (@nmul RN km1 p) with (km1 * p)%R. rewrite hk_times_R by exact HPC'. reflexivity.
    - apply (taxis_nonempty (N := RN)). rewrite <- (Hl tr0 Hin0). exact H1.
    - unfold ax. rewrite (taxis_length (N := RN)). apply Nat.eq_le_incl. apply (Ln tr0 Hin0). }
  cbn [hr_stk hr_best]. auto.
Qed.

(** ** C10: None is the documented default *)

Theorem C10_hk_defaults (N : Num) km1 stackO draw (rf : stream N) pre H K Vp w1 w2 w3 layer stack :
  hk km1 stackO draw rf pre H K Vp w1 w2 w3 layer stack =
  hk km1 stackO draw rf pre H K
     (Some (match Vp with Some v => v | None => nlit 65 10 end))
     (Some (match w1 with Some v => v | None => nlit 6 10 end))
     (Some (match w2 with Some v => v | None => nlit 3 10 end))
     (Some (match w3 with Some v => v | None => nlit 1 10 end))
     (Some (match layer with Some v => v | None => "Moho"%string end))
     (Some (match stack with Some v => v | None => false end)).
Proof. destruct Vp, w1, w2, w3, layer, stack; reflexivity. Qed.

Theorem C10_hkSynth_defaults (N : Num) draw (data time : list N) p pk H K Vp w1 w2 w3 layer :
  hkSynth draw data time p pk H K Vp w1 w2 w3 layer =
  hkSynth draw data time p pk H K
     (Some (match Vp with Some v => v | None => nlit 65 10 end))
     (Some (match w1 with Some v => v | None => nlit 6 10 end))
     (Some (match w2 with Some v => v | None => nlit 3 10 end))
     (Some (match w3 with Some v => v | None => nlit 1 10 end))
     (Some (match layer with Some v => v | None => "Moho"%string end)).
Proof. destruct Vp, w1, w2, w3, layer; reflexivity. Qed.

Theorem C10_hkSeq_sed_defaults (N : Num) km1 stackO draw (rfS rfM : stream N) pre HS KS VS a b c HM KM VM d e f stack :
  hkSeq km1 stackO draw rfS rfM pre HS KS VS a b c HM KM VM d e f stack =
  hkSeq km1 stackO draw rfS rfM pre HS KS
     (Some (match VS with Some v => v | None => nlit 30 10 end))
     (Some (match a with Some v => v | None => nlit 6 10 end))
     (Some (match b with Some v => v | None => nlit 3 10 end))
     (Some (match c with Some v => v | None => nlit 1 10 end))
     HM KM VM d e f (Some (match stack with Some v => v | None => false end)).
Proof. destruct VS, a, b, c, stack; reflexivity. Qed.

Theorem C10_hkYu_velocity_defaults (N : Num) draw (flt time : list N) tlag tk p pk H K VM VS vs a b c :
  hkYu draw flt time tlag tk p pk H K VM VS vs a b c =
  hkYu draw flt time tlag tk p pk H K
     (Some (match VM with Some v => v | None => nlit 65 10 end))
     (Some (match VS with Some v => v | None => nlit 25 10 end)) vs a b c.
Proof. destruct VM, VS; reflexivity. Qed.

(** hkYu never returns with a None weight (although its documentation gives
    defaults 0.6, 0.3, 0.1). *)
Theorem C10_hkYu_None_weight_raises (N : Num) draw (flt time : list N) tlag tk p pk H K VM VS vs a b c r :
  a = None \/ b = None \/ c = None ->
  hkYu draw flt time tlag tk p pk H K VM VS vs a b c <> Ok r.
Proof.
  intros HN E. apply hkYu_inv in E. destruct E as (?&?&?&?&_&_&_&_&_&T&A&_).
  destruct (yr_stk r) as [|r0 rows] eqn:Er; [discriminate|].
  destruct (table_row _ _ _ _ 0 r0 T eq_refl) as (i&j&_&_&_&_&Ef).
  apply one_inv in Ef. destruct Ef as (y&Ey&_). apply contribO_inv in Ey.
  destruct Ey as (y1&y2&y3&ts&->&->&->&_). destruct HN as [|[|]]; discriminate.
Qed.

(** Without the missing defaults, hkSeq and hkSeqSynth require the Moho
    velocity and weights. *)
Theorem C10_hkSeq_moho_None_raises (N : Num) km1 stackO draw (rfS rfM : stream N) pre HS KS VS a b c HM KM VM d e f stack r :
  VM = None \/ d = None \/ e = None \/ f = None ->
  hkSeq km1 stackO draw rfS rfM pre HS KS VS a b c HM KM VM d e f stack <> Ok r.
Proof.
  intros HN E. apply hkSeq_inv in E. cbn zeta in E.
  destruct E as (?&?&?&?&?&?&?&bm&rowsM&_&_&_&_&_&_&_&_&_&T&A&_).
  destruct rowsM as [|r0 rows]; [discriminate|].
  destruct (table_row _ _ _ _ 0 r0 T eq_refl) as (i&j&_&_&_&_&Ef).
  destruct (exists_last (l := rfM)) as [l0 [z0 El]].
  { intro C. rewrite C in Ef. discriminate. }
  rewrite El in Ef. apply lastv_last in Ef. destruct Ef as [y [Ey _]].
  unfold seqMoho_c in Ey. apply contribO_inv in Ey.
  destruct Ey as (y1&y2&y3&ts&->&->&->&Ets&_).
  destruct HN as [->|[|[|]]]; try discriminate.
  unfold hkSeqMoho_times in Ets. binv Ets. discriminate.
Qed.

(** The property "None selects the documented default" fails for hkYu's weights:
    with the defaults written out the call returns, with None it raises. *)
Definition z64 (z : Z) : B64 := sf_ofZ z.
Theorem C10_hkYu_weights_refuted :
  exists (flt time : list B64) tlag p H K vs r,
    @hkYu B64 pyplot flt time tlag NpF p NpF H K None None (Some vs)
        (Some (nlit 6 10)) (Some (nlit 3 10)) (Some (nlit 1 10)) = Ok r /\
    @hkYu B64 pyplot flt time tlag NpF p NpF H K None None (Some vs) None None None = Err TypeError.
Proof.
  exists (map z64 [1;2;3;4]%Z), (map z64 [0;1;2;3]%Z), (z64 1), (nlit 6 100), [z64 30; z64 40], [nlit 17 10; nlit 18 10], (z64 1).
  match goal with |- exists r, ?x = Ok r /\ ?y = _ =>
    assert (E1 : chk x (fun _ => true) = true) by (vm_compute; reflexivity);
    assert (E2 : raises y is_TypeError = true) by (vm_compute; reflexivity) end.
  apply chk_true in E1. destruct E1 as [r [E1 _]]. exists r. split; [exact E1|].
  apply raises_true in E2. destruct E2 as [e [E2 He]]. rewrite E2. clear E1 E2. destruct e; try discriminate He. reflexivity.
Qed.

(** ** C13: post-critical ray parameters *)

(** If the slowness is a numpy float, the P-leg root is NaN, the Ps and PpPs times
    are NaN and (C01) both read the very first sample of the trace. *)
Theorem C13_numpy_postcritical_reads_first_sample (Vp rp H K : B64) (data axis : list B64) d0 :
  neqb Vp (nofZ 0) = false ->
  nltb (nsub (nsq (ndiv (nofZ 1) Vp)) (nsq rp)) (nofZ 0) = true ->
  axis <> [] -> nth_error data 0 = Some d0 ->
  exists t1 t2 t3, @hk_times B64 Vp rp NpF H K = Ok (t1, t2, t3) /\
    getamp data axis t1 = Ok d0 /\ getamp data axis t2 = Ok d0.
Proof.
  intros HV Hp Ha Hd. unfold hk_times, pyinv. rewrite HV. cbn [bind].
  eexists _, _, _. split; [reflexivity|].
  cbn [proot].
  assert (En : @nroot B64 (nsub (nsq (ndiv (nofZ 1) Vp)) (nsq rp)) = S754_nan) by (apply sf_sqrt_neg; exact Hp).
  rewrite En. cbn [rsubt raddt rmult].
  assert (Es : forall x, @nsub B64 x S754_nan = S754_nan) by exact sf_sub_nan_r.
  assert (Ea : forall x, @nadd B64 x S754_nan = S754_nan) by exact sf_add_nan_r.
  assert (Em : forall x, @nmul B64 x S754_nan = S754_nan) by exact sf_mul_nan_r.
  rewrite Es, Ea, Em.
  rewrite (C01_getamp_nan_b64 data axis Ha), Hd. auto.
Qed.

(** If it is a Python float, the times are complex and both Ps and PpPs are read
    at the sample nearest to the real part H*qs. *)
Theorem C13_python_postcritical_reads_H_qs (Vp p H K : R) (data axis : list R) :
  (0 < Vp)%R -> ((1 / Vp) ^ 2 < p ^ 2)%R -> (p ^ 2 <= (K / Vp) ^ 2)%R ->
  exists t1 t2 t3, @hk_times RN Vp p PyF H K = Ok (t1, t2, t3) /\
    @getamp RN data axis t1 = @getamp RN data axis (TR (H * qs Vp K p)%R) /\
    @getamp RN data axis t2 = @getamp RN data axis (TR (H * qs Vp K p)%R).
Proof.
  intros HV Hp _. destruct (hk_times_post Vp p H K HV Hp) as [im E]. rewrite E.
  do 3 eexists. split; [reflexivity|]. split; exact (getamp_complex data axis _ _).
Qed.

Definition tr64 (data : list Z) (delta slow : B64) (k : fkind) : trace B64 :=
  mkTrace (N := B64) (map z64 data) delta slow k (z64 0) (z64 0) (z64 0) "STA"%string "RFR"%string None.
Definition stack1 {N : Num} (s : stream N) : res (list (trace N)) := Ok s.

(** The property fails: a post-critical trace is accepted and contributes
    ordinary finite amplitudes to the returned stack and best model. *)
Theorem C13_postcritical_refuted :
  exists km1 (rf : stream B64) tr Vp H K r row,
    In tr rf /\ nltb (ndiv (nofZ 1) Vp) (nmul km1 (tr_slow tr)) = true /\
    @hk B64 km1 stack1 pyplot rf (z64 0) H K (Some Vp) None None None None None = Ok r /\
    nth_error (hr_stk r) (hr_best r) = Some row /\
    nisnan (rS row) = false /\ nltb (nofZ 0) (rS row) = true.
Proof.
  exists (z64 1), [tr64 [100;1;1;1]%Z (z64 1) (nlit 2 10) NpF].
  exists (tr64 [100;1;1;1]%Z (z64 1) (nlit 2 10) NpF), (nlit 65 10), [z64 30; z64 40], [nlit 17 10; nlit 18 10].
  match goal with |- exists r row, _ /\ _ /\ ?x = Ok r /\ _ =>
    assert (E : chk x (fun r => match nth_error (hr_stk r) (hr_best r) with
       Some row => negb (nisnan (rS row)) && nltb (nofZ 0) (rS row) | None => false end) = true)
      by (vm_compute; reflexivity) end.
  apply chk_true in E. destruct E as [r [E Hr]].
  destruct (nth_error (hr_stk r) (hr_best r)) as [row|] eqn:Erow; [|discriminate Hr].
  apply andb_prop in Hr. destruct Hr as [H1 H2].
  exists r, row. split; [left; reflexivity|]. split; [vm_compute; reflexivity|].
  split; [exact E|]. split; [exact Erow|]. split; [destruct (nisnan (rS row)); [discriminate H1|reflexivity]|exact H2].
Qed.

(** ** C14: traces of different lengths *)

Definition cut_trace {N : Num} (n : nat) (tr : trace N) : trace N :=
  mkTrace (firstn n (tr_data tr)) (tr_delta tr) (tr_slow tr) (tr_slowk tr) (tr_b tr)
    (tr_baz tr) (tr_dist tr) (tr_sta tr) (tr_chan tr) (tr_hdr tr).

(** Cutting every trace to the length of the first changes nothing: the tail of a
    longer trace is never read. *)
Theorem C14_tail_never_read (N : Num) km1 stackO draw (rf : stream N) pre H K Vp w1 w2 w3 layer r tr0 st SR :
  hk km1 stackO draw rf pre H K Vp w1 w2 w3 layer (Some false) = Ok r ->
  nth_error rf 0 = Some tr0 ->
  stackO (map (cut_trace (length (tr_data tr0))) rf) = Ok (st :: SR) ->
  exists r', hk km1 stackO draw (map (cut_trace (length (tr_data tr0))) rf) pre H K Vp w1 w2 w3 layer (Some false) = Ok r' /\
    hr_stk r' = hr_stk r /\ hr_best r' = hr_best r.
Proof.
  intros E H0 HO. apply hk_inv in E. destruct E as (SR0&st0&tr0'&u&ES&E0&Etr&T&A&D&Er).
  rewrite H0 in Etr. inversion Etr; subst tr0'; clear Etr.
  set (n := length (tr_data tr0)) in *.
  eexists. split.
  { eapply hk_intro with (tr0 := cut_trace n tr0); [exact HO| | |exact A|exact D].
    { rewrite nth_error_map, H0. reflexivity. }
    refine (is_table_ext draw _ _ _ _ _ _ T).
    intros k h _ _. cbn beta.
    assert (Hn : length (tr_data (cut_trace n tr0)) = n).
    { simpl. rewrite firstn_length. unfold n. lia. }
    rewrite Hn. change (tr_delta (cut_trace n tr0)) with (tr_delta tr0).
    assert (Ha : avgslow (map (cut_trace n) rf) = avgslow rf).
    { unfold avgslow. rewrite map_map. reflexivity. }
    rewrite Ha. unfold sumM. rewrite forM_map. apply forM_ext. intros tr s _.
    unfold hk_c, hk_data, hk_rp, hk_rpk.
    cbn [dflt cut_trace tr_slow tr_slowk tr_data].
    destruct (hk_times _ _ _ h k) as [[[t1 t2] t3]|e]; [|reflexivity].
    unfold contrib. cbn [bind]. rewrite !getamp_trunc by (rewrite taxis_length; lia). reflexivity. }
  cbn [hr_stk hr_best]. auto.
Qed.
