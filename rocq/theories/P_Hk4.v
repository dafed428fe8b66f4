(** * P_Hk4: property theorems C16-C22. *)

From Coq Require Import Reals Lra Psatz Permutation Floats.SpecFloat.
From Verif Require Import Base Num NumPy Spec HkModel HkProofs HkReal HkFacts HkFacts2 HkFacts3 HkFacts4 P_Hk DrawSpec P_Hk2 P_Hk3.

(** ** C16: hkSeq does not sum over the traces *)

Lemma lastv_to_one {N : Num} {A} (c : A -> res N) l x v : lastv c (l ++ [x]) = Ok v -> one (c x) = Ok v.
Proof. intro E. apply lastv_last in E. destruct E as [y [Ey ->]]. unfold one. rewrite Ey. reflexivity. Qed.

(** With stack=False the whole result is the one of the synthetic program run on
    the LAST trace of each stream: all other traces are ignored. *)
Theorem C16_hkSeq_last_trace_only (N : Num) km1 stackO draw (rfS rfM : stream N) trS trM pre
    HS KS VS a b c HM KM VM d e f r :
  hkSeq km1 stackO draw (rfS ++ [trS]) (rfM ++ [trM]) pre HS KS VS a b c HM KM VM d e f (Some false) = Ok r ->
  tr_slow trS = tr_slow trM -> tr_slowk trS = tr_slowk trM ->
  exists r', hkSeqSynth draw (tr_data trS) (tr_data trM) (sr_time r) (nmul km1 (tr_slow trM)) (tr_slowk trM)
      HS KS VS a b c HM KM VM d e f = Ok r' /\
    ss_stkSed r' = sr_stkSed r /\ ss_bestSed r' = sr_bestSed r /\
    ss_stkMoho r' = sr_stkMoho r /\ ss_bestMoho r' = sr_bestMoho r.
Proof.
  intros E Hs Hsk. apply hkSeq_inv in E. cbn zeta in E.
  destruct E as (SS&stS0&SM&stM0&tr0&u&u'&bm&rowsM&_&_&_&_&_&T&A&D&Ebm&T'&A'&D'&Em&Er).
  assert (Et : sr_time r = taxis (tr_delta tr0) (length (tr_data tr0)) pre) by (rewrite Er; reflexivity).
  rewrite <- Et in T, T'.
  eapply table_ok_mono in T.
  2:{ intros k h v Ev. apply lastv_to_one in Ev.
      unfold seqSed_c, hk_data, hk_rp, hk_rpk in Ev. cbn [dflt] in Ev. rewrite Hs, Hsk in Ev.
      rewrite hkSeqSed_times_eq, <- hkSeqSynthSed_times_eq in Ev. exact Ev. }
  eapply table_ok_mono in T'.
  2:{ intros k h v Ev. apply lastv_to_one in Ev.
      unfold seqMoho_c, hk_data, hk_rp, hk_rpk in Ev. cbn [dflt] in Ev.
      rewrite <- hkSeqSynthMoho_times_eq in Ev. exact Ev. }
  eexists. split.
  { rewrite hkSeqSynth_eq. cbn zeta. unfold is_table in T, T'. rewrite T. cbn [bind].
    rewrite A. cbn [bind]. rewrite D. cbn [bind]. unfold getitem. rewrite Ebm. cbn [bind].
    rewrite T'. cbn [bind]. rewrite A'. cbn [bind]. rewrite D'. cbn [bind]. reflexivity. }
  cbn [ss_stkSed ss_bestSed ss_stkMoho ss_bestMoho]. auto.
Qed.

(** Sediment stage alone, no assumption on the slownesses. *)
Theorem C16_hkSeq_sed_last_trace_only (N : Num) km1 stackO draw (rfS rfM : stream N) trS pre
    HS KS VS a b c HM KM VM d e f r :
  hkSeq km1 stackO draw (rfS ++ [trS]) rfM pre HS KS (Some VS) (Some a) (Some b) (Some c) HM KM VM d e f (Some false) = Ok r ->
  exists r', hkSynth draw (tr_data trS) (sr_time r) (nmul km1 (tr_slow trS)) (tr_slowk trS)
      HS KS (Some VS) (Some a) (Some b) (Some c) None = Ok r' /\
    hs_stk r' = sr_stkSed r /\ hs_best r' = sr_bestSed r.
Proof.
  intros E. apply hkSeq_inv in E. cbn zeta in E.
  destruct E as (SS&stS0&SM&stM0&tr0&u&u'&bm&rowsM&_&_&_&_&_&T&A&D&Ebm&T'&A'&D'&Em&Er).
  assert (Et : sr_time r = taxis (tr_delta tr0) (length (tr_data tr0)) pre) by (rewrite Er; reflexivity).
  rewrite <- Et in T.
  eexists. split.
  { eapply hkSynth_intro; [|exact A|exact D]. eapply table_ok_mono; [|exact T].
    intros k h v Ev. apply lastv_to_one in Ev. exact Ev. }
  cbn [hs_stk hs_best]. auto.
Qed.

(** The claimed property is false: on a two-trace stream the sediment value is
    not the sum over the traces, which [hk] does compute on the same input. *)
Definition trd64 (data : list Z) := tr64 data (z64 1) (nlit 6 100) NpF.
Theorem C16_sum_refuted :
  exists km1 (rfS rfM : stream B64) H K r r' row row',
    @hkSeq B64 km1 stack1 pyplot rfS rfM (z64 0) H K (Some (z64 3)) None None None
       H K (Some (z64 6)) (Some (nlit 6 10)) (Some (nlit 3 10)) (Some (nlit 1 10)) (Some false) = Ok r /\
    @hk B64 km1 stack1 pyplot rfS (z64 0) H K (Some (z64 3)) None None None None (Some false) = Ok r' /\
    nth_error (sr_stkSed r) 0 = Some row /\ nth_error (hr_stk r') 0 = Some row' /\
    nltb (rS row) (rS row') = true.
Proof.
  exists (z64 1), [trd64 [1;1;1]%Z; trd64 [1;1;1]%Z], [trd64 [1;1;1]%Z], [z64 3; z64 4], [z64 2; nlit 19 10].
  match goal with |- exists r r' row row', ?x = Ok r /\ ?y = Ok r' /\ _ =>
    assert (E : chk x (fun r => chk y (fun r' =>
       match nth_error (sr_stkSed r) 0, nth_error (hr_stk r') 0 with
       | Some row, Some row' => nltb (rS row) (rS row') | _, _ => false end)) = true)
      by (vm_compute; reflexivity) end.
  apply chk_true in E. destruct E as [r [E1 E]]. apply chk_true in E. destruct E as [r' [E2 E]].
  exists r, r'.
  destruct (nth_error (sr_stkSed r) 0) as [row|]; [|discriminate E].
  destruct (nth_error (hr_stk r') 0) as [row'|]; [|discriminate E].
  exists row, row'. auto.
Qed.

(** ** C17: the returned Moho table is clipped *)

Definition clipped {N : Num} (raw ret : list (row N)) : Prop :=
  Forall2 (fun a b => rH b = rH a /\ rK b = rK a /\
    rS b = if nleb (rS a) (nofZ 0) then nofZ 0 else rS a) raw ret.

Lemma clipped_map {N : Num} (raw : list (row N)) : clipped raw (map clip_row raw).
Proof.
  unfold clipped. induction raw as [|a l IH]; simpl; constructor; auto.
  unfold clip_row. destruct (nleb (rS a) (nofZ 0)); auto.
Qed.

(** What the code does: the best node is chosen on the raw node values (which are
    those of the synthetic program, see C15/C16), the returned values are clipped. *)
Theorem C17_hkSeq_clips (N : Num) (L : OrdLaws N) km1 stackO draw (rfS rfM : stream N) pre HS KS VS a b c HM KM VM d e f stack r :
  hkSeq km1 stackO draw rfS rfM pre HS KS VS a b c HM KM VM d e f stack = Ok r ->
  exists raw, clipped raw (sr_stkMoho r) /\ grid_table KM HM raw /\
    best_first (map rS raw) (sr_bestMoho r).
Proof.
  intro E. apply hkSeq_inv in E. cbn zeta in E.
  destruct E as (?&?&?&?&?&?&?&?&rowsM&_&_&_&_&_&_&_&_&_&T'&A'&_&Em&_).
  exists rowsM. rewrite Em. split; [apply clipped_map|].
  split; [eapply grid_table_of; eassumption|apply (best_first_of L); assumption].
Qed.

Theorem C17_hkSeqSynth_clips (N : Num) (L : OrdLaws N) draw (dS dM time : list N) p pk HS KS VS a b c HM KM VM d e f r :
  hkSeqSynth draw dS dM time p pk HS KS VS a b c HM KM VM d e f = Ok r ->
  exists raw, clipped raw (ss_stkMoho r) /\ grid_table KM HM raw /\
    best_first (map rS raw) (ss_bestMoho r).
Proof.
  intro E. apply hkSeqSynth_inv in E.
  destruct E as (?&?&?&rowsM&_&_&_&_&T'&A'&_&Em&_).
  exists rowsM. rewrite Em. split; [apply clipped_map|].
  split; [eapply grid_table_of; eassumption|apply (best_first_of L); assumption].
Qed.

(** If some node value is positive, clipping does not change which node is best. *)
Theorem C17_best_preserved_if_positive (raw ret : list (row RN)) k :
  clipped raw ret -> best_first (map rS raw) k ->
  (exists x, In x raw /\ (0 < rS x)%R) -> best_first (map rS ret) k.
Proof.
  intros HC [v [Hv [[Hn _]|[_ [Ha Hs]]]]] [x [Hx Hpos]]; [discriminate|].
  assert (Hvpos : (0 < v)%R).
  { apply In_nth_error in Hx. destruct Hx as [n Hx].
    specialize (Ha n (rS x) (map_nth_error rS n raw Hx)). apply Rleb_true in Ha. lra. }
  assert (G : forall i, nth_error (map rS ret) i =
     option_map (fun s => if Rleb s 0 then 0%R else s) (nth_error (map rS raw) i)).
  { clear -HC. induction HC as [|p q raw0 ret0 [_ [_ Hp]] HC0 IH]; intros [|i]; simpl; auto.
    rewrite Hp. reflexivity. }
  exists v. split.
  - rewrite G, Hv. simpl. replace (Rleb v 0) with false; [reflexivity|].
    symmetry. apply Rleb_false. exact Hvpos.
  - right. split; [reflexivity|]. split.
    + intros i y Hy. rewrite G in Hy. destruct (nth_error (map rS raw) i) as [s|] eqn:Es; [|discriminate].
      simpl in Hy. inversion Hy; subst y. specialize (Ha i s Es). apply Rleb_true in Ha. apply Rleb_true.
      destruct (Rleb s 0); lra.
    + intros i y Hi Hy. rewrite G in Hy. destruct (nth_error (map rS raw) i) as [s|] eqn:Es; [|discriminate].
      simpl in Hy. inversion Hy; subst y. specialize (Hs i s Hi Es). apply Rltb_true in Hs. apply Rltb_true.
      destruct (Rleb s 0); lra.
Qed.

(** The property as stated is false: with an all-negative Moho stack every
    returned value is 0, and the reported best node is not even the first maximum
    of the returned table. *)
Theorem C17_values_refuted :
  exists (dS dM time : list B64) p HS KS HM KM r,
    @hkSeqSynth B64 pyplot dS dM time p NpF HS KS (Some (z64 3)) None None None
       HM KM (Some (z64 6)) (Some (z64 1)) (Some (z64 0)) (Some (z64 0)) = Ok r /\
    2 <= length (ss_stkMoho r) /\
    (forall x, In x (ss_stkMoho r) -> neqb (rS x) (nofZ 0) = true) /\
    ~ best_first (map rS (ss_stkMoho r)) (ss_bestMoho r).
Proof.
  exists (map z64 [-5;-5;-5;-5;-5;-4;-3;-2;-1]%Z), (map z64 [-5;-5;-5;-5;-5;-4;-3;-2;-1]%Z),
         (map z64 [0;1;2;3;4;5;6;7;8]%Z), (nlit 6 100), [z64 1; z64 2], [z64 2; nlit 19 10], [z64 1; z64 30], [z64 2; nlit 19 10].
  match goal with |- exists r, ?x = Ok r /\ _ =>
    assert (E : chk x (fun r => (2 <=? length (ss_stkMoho r)) &&
        forallb (fun y => neqb (rS y) (nofZ 0)) (ss_stkMoho r) && (1 <=? ss_bestMoho r) && (ss_bestMoho r <? length (ss_stkMoho r))) = true)
      by (vm_compute; reflexivity) end.
  apply chk_true in E. destruct E as [r [E1 E]]. exists r. split; [exact E1|]. clear E1.
  apply andb_prop in E. destruct E as [E E4]. apply andb_prop in E. destruct E as [E E3]. apply andb_prop in E. destruct E as [E E2].
  apply Nat.leb_le in E, E3. apply Nat.ltb_lt in E4. rewrite forallb_forall in E2.
  split; [exact E|]. split; [exact E2|].
  intros [v [Hv HB]]. rewrite nth_error_map in Hv.
  destruct (nth_error (ss_stkMoho r) (ss_bestMoho r)) as [r1|] eqn:E1; [|discriminate Hv]. cbn in Hv. inversion Hv; subst v. clear Hv.
  destruct (nth_error (ss_stkMoho r) 0) as [r0|] eqn:E0; [|apply nth_error_None in E0; lia].
  pose proof (E2 r0 (nth_error_In _ _ E0)) as Z0. pose proof (E2 r1 (nth_error_In _ _ E1)) as Z1.
  assert (Z : forall y : spec_float, SFeqb y (sf_ofZ 0) = true -> exists s, y = S754_zero s).
  { intros [s|[|]| |[|] m e] Hy; try discriminate Hy; eauto. }
  apply Z in Z0, Z1. destruct Z0 as [s0 Z0], Z1 as [s1 Z1].
  destruct HB as [[Hn _]|[_ [_ Hs]]].
  - rewrite Z1 in Hn. discriminate Hn.
  - specialize (Hs 0 (rS r0) ltac:(lia)). rewrite nth_error_map, E0 in Hs. specialize (Hs eq_refl). rewrite Z0, Z1 in Hs. discriminate Hs.
Qed.

(** ** C18: the time axis of the Moho stage *)

(** hkSeq uses one axis, built from the first sediment trace, for both stages ... *)
Theorem C18_hkSeq_axis (N : Num) km1 stackO draw (rfS rfM : stream N) pre HS KS VS a b c HM KM VM d e f stack r tr0 :
  hkSeq km1 stackO draw rfS rfM pre HS KS VS a b c HM KM VM d e f stack = Ok r ->
  nth_error rfS 0 = Some tr0 ->
  sr_time r = uniform_axis (tr_delta tr0) (length (tr_data tr0)) pre.
Proof.
  intros E H0. apply hkSeq_inv in E. cbn zeta in E.
  destruct E as (?&?&?&?&tr0'&?&?&?&rowsM&_&_&_&_&Et&_&_&_&_&_&_&_&_&Er).
  rewrite H0 in Et. inversion Et; subst. rewrite Er. reflexivity.
Qed.

(** ... which is the Moho traces' own axis only when the samplings agree. *)
Theorem C18_own_axis_if_equal_sampling (N : Num) km1 stackO draw (rfS rfM : stream N) pre HS KS VS a b c HM KM VM d e f stack r tr0 trM :
  hkSeq km1 stackO draw rfS rfM pre HS KS VS a b c HM KM VM d e f stack = Ok r ->
  nth_error rfS 0 = Some tr0 -> In trM rfM ->
  tr_delta trM = tr_delta tr0 -> length (tr_data trM) = length (tr_data tr0) ->
  sr_time r = uniform_axis (tr_delta trM) (length (tr_data trM)) pre.
Proof. intros E H0 _ Hd Hl. rewrite Hd, Hl. eapply C18_hkSeq_axis; eassumption. Qed.

(** structural equality of two binary64 numbers *)
Definition sf_same (x y : spec_float) : bool :=
  match x, y with
  | S754_zero s, S754_zero s' => Bool.eqb s s'
  | S754_infinity s, S754_infinity s' => Bool.eqb s s'
  | S754_nan, S754_nan => true
  | S754_finite s m e, S754_finite s' m' e' => Bool.eqb s s' && Pos.eqb m m' && Z.eqb e e'
  | _, _ => false
  end.
Lemma sf_same_eq x y : sf_same x y = true -> x = y.
Proof.
  destruct x as [s|s| |s m e], y as [s'|s'| |s' m' e']; cbn; try discriminate; intro E; try reflexivity.
  - apply Bool.eqb_prop in E. congruence.
  - apply Bool.eqb_prop in E. congruence.
  - apply andb_prop in E. destruct E as [E E3]. apply andb_prop in E. destruct E as [E1 E2].
    apply Bool.eqb_prop in E1. apply Pos.eqb_eq in E2. apply Z.eqb_eq in E3. congruence.
Qed.
(** The property is false in general: a Moho trace sampled twice as densely is
    read at the wrong samples. *)
Theorem C18_own_axis_refuted :
  exists km1 (rfS : stream B64) trM H K r own v vown,
    @hkSeq B64 km1 stack1 pyplot rfS [trM] (z64 0) H K (Some (z64 3)) None None None
       H K (Some (z64 6)) (Some (z64 1)) (Some (z64 0)) (Some (z64 0)) (Some false) = Ok r /\
    (* the same Moho stage run on the Moho trace's own axis *)
    @hkSeq B64 km1 stack1 pyplot [trM] [trM] (z64 0) H K (Some (z64 3)) None None None
       H K (Some (z64 6)) (Some (z64 1)) (Some (z64 0)) (Some (z64 0)) (Some false) = Ok own /\
    nth_error (sr_stkSed own) (sr_bestSed own) <> None /\
    (forall x y, nth_error (sr_stkSed r) (sr_bestSed r) = Some x ->
       nth_error (sr_stkSed own) (sr_bestSed own) = Some y -> rH x = rH y /\ rK x = rK y) /\
    nth_error (sr_stkMoho r) 0 = Some v /\ nth_error (sr_stkMoho own) 0 = Some vown /\
    neqb (rS v) (rS vown) = false.
Proof.
  exists (z64 1), [trd64 [1;1;1;1;1]%Z], (tr64 [0;1;2;3;4;5;6;7;8]%Z (nlit 1 2) (nlit 6 100) NpF), [z64 4; z64 3], [z64 2; nlit 19 10].
  match goal with |- exists r own v vown, ?x = Ok r /\ ?y = Ok own /\ _ =>
    assert (E : chk x (fun r => chk y (fun own =>
       match nth_error (sr_stkMoho r) 0, nth_error (sr_stkMoho own) 0,
             nth_error (sr_stkSed r) (sr_bestSed r), nth_error (sr_stkSed own) (sr_bestSed own) with
       | Some v, Some v', Some b1, Some b2 =>
           negb (neqb (rS v) (rS v')) && sf_same (rH b1) (rH b2) && sf_same (rK b1) (rK b2)
       | _, _, _, _ => false end)) = true)
      by (vm_compute; reflexivity) end.
  apply chk_true in E. destruct E as [r [E1 E]]. apply chk_true in E. destruct E as [r' [E2 E]].
  exists r, r'.
  destruct (nth_error (sr_stkMoho r) 0) as [v|]; [|discriminate E].
  destruct (nth_error (sr_stkMoho r') 0) as [v'|]; [|discriminate E].
  destruct (nth_error (sr_stkSed r) (sr_bestSed r)) as [bm|]; [|discriminate E].
  destruct (nth_error (sr_stkSed r') (sr_bestSed r')) as [bm'|]; [|discriminate E].
  apply andb_prop in E. destruct E as [E E4]. apply andb_prop in E. destruct E as [E E3]. apply sf_same_eq in E3, E4.
  exists v, v'. split; [exact E1|]. split; [exact E2|]. split; [discriminate|]. split.
  - intros a b Ha Hb. inversion Ha; subst a. inversion Hb; subst b. auto.
  - split; [reflexivity|]. split; [reflexivity|]. destruct (neqb (rS v) (rS v')); [discriminate E|reflexivity].
Qed.

(** ** C19: synthetic and stream versions agree *)

Definition outc {A B} (f : A -> B) (x : res A) : res B := a <- x ;; Ok (f a).

Theorem C19_hk_hkSynth (N : Num) km1 stackO draw (tr : trace N) st SR pre H K Vp w1 w2 w3 layer :
  stackO [tr] = Ok (st :: SR) ->
  outc (fun r => (hr_stk r, hr_best r, hr_time r, hr_layer r))
    (hk km1 stackO draw [tr] pre H K Vp w1 w2 w3 layer (Some false)) =
  outc (fun r => (hs_stk r, hs_best r, hs_time r, hs_layer r))
    (hkSynth draw (tr_data tr) (uniform_axis (tr_delta tr) (length (tr_data tr)) pre)
       (nmul km1 (tr_slow tr)) (tr_slowk tr) H K Vp w1 w2 w3 layer).
Proof.
  intro HO. rewrite hk_eq, hkSynth_eq. rewrite HO. cbn [bind getitem nth_error]. cbn zeta.
  set (t := taxis _ _ _).
  rewrite (mapM_mkrow_ext _ (fun k h => one (contrib (dflt w1 (nlit 6 10)) (dflt w2 (nlit 3 10))
       (dflt w3 (nlit 1 10)) (tr_data tr) t (hkSynth_times (dflt Vp (nlit 65 10)) (nmul km1 (tr_slow tr)) (tr_slowk tr) h k)))).
  2:{ intros k h. rewrite sumM_single. reflexivity. }
  unfold outc.
  destruct (mapM _ (list_prod K H)) as [rows|e]; [|reflexivity]. cbn [bind].
  destruct (argmax (map rS rows)); [|reflexivity]. cbn [bind].
  destruct (draw rows); reflexivity.
Qed.

Theorem C19_hkSeq_hkSeqSynth (N : Num) km1 stackO draw (trS trM : trace N) sS SRS sM SRM pre HS KS VS a b c HM KM VM d e f :
  stackO [trS] = Ok (sS :: SRS) -> stackO [trM] = Ok (sM :: SRM) ->
  tr_slow trS = tr_slow trM -> tr_slowk trS = tr_slowk trM ->
  outc (fun r => (sr_stkSed r, sr_bestSed r, sr_stkMoho r, sr_bestMoho r, sr_time r))
    (hkSeq km1 stackO draw [trS] [trM] pre HS KS VS a b c HM KM VM d e f (Some false)) =
  outc (fun r => (ss_stkSed r, ss_bestSed r, ss_stkMoho r, ss_bestMoho r, ss_time r))
    (hkSeqSynth draw (tr_data trS) (tr_data trM) (uniform_axis (tr_delta trS) (length (tr_data trS)) pre)
       (nmul km1 (tr_slow trM)) (tr_slowk trM) HS KS VS a b c HM KM VM d e f).
Proof.
  intros HO1 HO2 Hs Hk. rewrite hkSeq_eq, hkSeqSynth_eq. rewrite HO1, HO2. cbn [bind getitem nth_error]. cbn zeta.
  set (t := taxis _ _ _).
  rewrite (mapM_mkrow_ext _ (fun k h => one (contrib (dflt a (nlit 6 10)) (dflt b (nlit 3 10))
       (dflt c (nlit 1 10)) (tr_data trS) t (hkSeqSynthSed_times (dflt VS (nlit 30 10)) (nmul km1 (tr_slow trM)) (tr_slowk trM) h k)))).
  2:{ intros k h. rewrite lastv_single. rewrite <- Hs, <- Hk. reflexivity. }
  unfold outc.
  destruct (mapM _ (list_prod KS HS)) as [rows|er]; [|reflexivity]. cbn [bind].
  destruct (argmax (map rS rows)) as [ib|]; [|reflexivity]. cbn [bind].
  destruct (draw rows); [|reflexivity]. cbn [bind].
  unfold getitem. destruct (nth_error rows ib) as [bm|]; [|reflexivity]. cbn [bind].
  rewrite (mapM_mkrow_ext _ (fun k h => one (contribO d e f (tr_data trM) t
       (hkSeqSynthMoho_times (rH bm) (rK bm) (dflt VS (nlit 30 10)) VM (nmul km1 (tr_slow trM)) (tr_slowk trM) h k)))).
  2:{ intros k h. rewrite lastv_single. reflexivity. }
  destruct (mapM _ (list_prod KM HM)) as [rowsM|er]; [|reflexivity]. cbn [bind].
  destruct (argmax (map rS rowsM)) as [ibM|]; [|reflexivity]. cbn [bind].
  destruct (draw (map clip_row rowsM)); reflexivity.
Qed.

(** ** C20: two-layer and one-layer times *)

Theorem C20_zero_sediment (K1 V1 V2 p : R) pk (H K : R) :
  precritical V1 p -> precritical V2 p -> (1 <= K1)%R -> (1 <= K)%R ->
  @hkSeqMoho_times RN 0%R K1 V1 (Some V2) p pk H K = @hk_times RN V2 p pk H K.
Proof.
  intros H1 H2 _ _. rewrite hkSeqMoho_times_R, hk_times_R by assumption. apply ok3;
    unfold t2_Ps, t2_PpPs, t2_PsPs, t_Ps, t_PpPs, t_PsPs; ring.
Qed.

Theorem C20_same_layers (H1 V p : R) pk (H K : R) :
  precritical V p -> (1 <= K)%R ->
  @hkSeqMoho_times RN H1 K V (Some V) p pk H K = @hk_times RN V p pk (H1 + H)%R K.
Proof.
  intros HP _. rewrite hkSeqMoho_times_R, hk_times_R by assumption. apply ok3;
    unfold t2_Ps, t2_PpPs, t2_PsPs, t_Ps, t_PpPs, t_PsPs; ring.
Qed.

(** ** C21, C22: hkYu *)

Theorem C21_hkYu_sediment draw (flt time : list R) (tlag : R) tk p pk H K VM (VS vs : R) a b c r :
  @hkYu RN draw flt time tlag tk p pk H K VM (Some VS) (Some vs) a b c = Ok r ->
  (0 < vs)%R -> (vs <= VS)%R -> (0 <= tlag)%R ->
  (yr_SedThick r = tlag * vs / 2)%R /\
  (yr_Pdelay r = yr_SedThick r / vs - yr_SedThick r / VS)%R /\
  (0 <= yr_Pdelay r <= tlag / 2)%R.
Proof.
  intros E Hv Hle Ht. apply hkYu_inv in E. destruct E as (vs'&x&y&u&Ev&Eh&Ea&Eb&Ep&_).
  inversion Ev; subst vs'. simpl in Eh.
  assert (Hk : forall t z, (0 < z)%R -> @kdiv RN tk t z = Ok (t / z)%R).
  { intros t z Hz. unfold kdiv. simpl. unfold Reqb. destruct (Req_EM_T z 0); [lra|]. destruct tk; reflexivity. }
  rewrite Hk in Ea by exact Hv. cbn [dflt] in Eb. rewrite Hk in Eb by lra.
  inversion Ea; subst x. inversion Eb; subst y. split; [exact Eh|]. split; [exact Ep|].
  rewrite Ep. cbn [nsub RN]. rewrite Eh.
  replace (tlag * vs / 2 / vs)%R with (tlag / 2)%R by (field; lra).
  assert (D : (0 <= tlag * vs / 2 / VS)%R).
  { apply Rmult_le_pos; [nra|]. left. apply Rinv_0_lt_compat. lra. }
  assert (U : (tlag * vs / 2 / VS <= tlag / 2)%R).
  { apply (Rmult_le_reg_r VS); [lra|]. replace (tlag * vs / 2 / VS * VS)%R with (tlag * vs / 2)%R by (field; lra). nra. }
  change (F RN) with R in *. lra.
Qed.

Lemma hkYu_times_eq {N : Num} (V p : N) k tl pd (H K : N) :
  hkYu_times V p k tl pd H K =
  (ts <- hk_times V p k H K ;;
   let '(a, b, c) := ts in Ok (taddr a pd, tsubr (taddr b tl) pd, taddr c tl)).
Proof. unfold hkYu_times, hk_times. destruct (pyinv V); reflexivity. Qed.

(** The delays used by hkYu are the two-layer delays with vertical sediment legs
    (Vp/Vs of the sediment = VS/vs, thickness tlag*vs/2). *)
Theorem C22_hkYu_times_two_layer (VM VS vs p tlag : R) pk (H K : R) :
  precritical VM p -> (1 <= K)%R -> (0 < vs)%R -> (0 < VS)%R -> (0 <= tlag)%R ->
  let hs := (tlag * vs / 2)%R in
  let Pdelay := (hs / vs - hs / VS)%R in
  @hkYu_times RN VM p pk tlag Pdelay H K =
    Ok (TR (t_Ps VS 0 hs (VS / vs) + t_Ps VM p H K)%R,
        TR (t_PpPs VS 0 hs (VS / vs) + t_PpPs VM p H K)%R,
        TR (t_PsPs VS 0 hs (VS / vs) + t_PsPs VM p H K)%R).
Proof.
  intros HP _ Hv HS Ht hs Pd.
  rewrite hkYu_times_eq, hk_times_R by exact HP. cbn [bind taddr taddt tsubr].
  assert (Q1 : (qs VS (VS / vs) 0 = / vs)%R).
  { unfold qs. replace ((VS / vs / VS) ^ 2 - 0 ^ 2)%R with (Rsqr (/ vs)) by (unfold Rsqr; field; lra).
    apply sqrt_Rsqr. left. apply Rinv_0_lt_compat; lra. }
  assert (Q2 : (qp VS 0 = / VS)%R).
  { unfold qp. replace ((1 / VS) ^ 2 - 0 ^ 2)%R with (Rsqr (/ VS)) by (unfold Rsqr; field; lra).
    apply sqrt_Rsqr. left. apply Rinv_0_lt_compat; lra. }
  assert (D1 : t_Ps VS 0 hs (VS / vs) = Pd) by (unfold t_Ps; rewrite Q1, Q2; unfold Pd; field; lra).
  assert (D2 : t_PpPs VS 0 hs (VS / vs) = (tlag - Pd)%R)
    by (unfold t_PpPs; rewrite Q1, Q2; unfold Pd, hs; field; lra).
  assert (D3 : t_PsPs VS 0 hs (VS / vs) = tlag) by (unfold t_PsPs; rewrite Q1; unfold hs; field; lra).
  rewrite D1, D2, D3. apply ok3; cbn [nadd nsub RN].
  - ring.
  - ring.
  - ring.
Qed.

(** Without a detected reverberation hkYu is hkSynth. *)
Theorem C22_hkYu_no_lag (draw : list (row RN) -> res unit) (flt time : list R) tk p pk H K VM VS (vs : R) (a b c : R) :
  (0 < vs)%R -> (0 < dflt VS 2.5)%R ->
  outc (fun r => (yr_stk r, yr_best r))
    (@hkYu RN draw flt time 0%R tk p pk H K VM VS (Some vs) (Some a) (Some b) (Some c)) =
  outc (fun r => (hs_stk r, hs_best r))
    (@hkSynth RN draw flt time p pk H K VM (Some a) (Some b) (Some c) None).
Proof.
  intros Hv HV. rewrite hkYu_eq, hkSynth_eq. cbn zeta. cbn [need bind].
  assert (HV' : (0 < dflt VS (@nlit RN 25 10))%R).
  { destruct VS; simpl in *; [exact HV|]. lra. }
  assert (Hk : forall t z, (0 < z)%R -> @kdiv RN tk t z = Ok (t / z)%R).
  { intros t z Hz. unfold kdiv. simpl. unfold Reqb. destruct (Req_EM_T z 0); [lra|]. destruct tk; reflexivity. }
  rewrite Hk by exact Hv. cbn [bind]. rewrite Hk by exact HV'. cbn [bind].
  match goal with |- context [@nsub RN ?x ?y] => set (Pd := @nsub RN x y) end.
  assert (EP : Pd = 0%R).
  { unfold Pd. cbn [nsub nmul ndiv nofZ RN]. unfold Rdiv.
    assert (G0 : forall y : R, (0 * vs * / 2 * / vs - 0 * vs * / 2 * / y = 0)%R) by (intro y; ring).
    apply G0. }
  rewrite (mapM_mkrow_ext _ (fun k h => one (@contrib RN a b c flt time
      (@hkSynth_times RN (dflt VM (nlit 65 10)) p pk h k)))).
  2:{ intros k h. rewrite contribO_Some. f_equal. f_equal. rewrite hkSynth_times_eq. rewrite EP.
      unfold hkYu_times, hk_times. destruct (@pyinv RN (dflt VM (nlit 65 10))) as [iv|e]; [|reflexivity].
      cbn [bind]. f_equal.
      assert (G : forall t : tval RN, taddr t (0%R : RN) = t).
      { intros [x|x y]; unfold taddr; cbn; f_equal; apply Rplus_0_r. }
      assert (G' : forall t : tval RN, tsubr t (0%R : RN) = t).
      { intros [x|x y]; unfold tsubr; cbn; f_equal; apply Rminus_0_r. }
      rewrite !G, G'. reflexivity. }
  unfold outc.
  cbn [dflt]. destruct (mapM _ (list_prod K H)) as [rows|er]; [|reflexivity]. cbn [bind].
  destruct (argmax (map rS rows)) as [ib|]; [|reflexivity]. cbn [bind].
  destruct (draw rows); reflexivity.
Qed.
