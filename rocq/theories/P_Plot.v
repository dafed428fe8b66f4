(** * P_Plot: property theorems about the plot functions (C11, C12, C56). *)

From Coq Require Import Reals Lra Ascii.
From Verif Require Import Base Num NumPy Spec HkModel HkProofs HkReal PlotModel PlotProofs PlotProofs2 PlotProofs3.

(** ** Vocabulary *)

(** What clipping does to one row of a table. *)
Definition clipped {N : Num} (r r' : row N) : Prop :=
  rH r' = rH r /\ rK r' = rK r /\
  rS r' = (if nleb (rS r) (nofZ 0) then nofZ 0 else rS r).

Lemma clipped_clip {N : Num} (l : list (row N)) : Forall2 clipped l (map clip_row l).
Proof.
  induction l as [|r l IH]; constructor; auto.
  unfold clipped, clip_row. destruct (nleb (rS r) (nofZ 0)); auto.
Qed.

Lemma clipped_det {N : Num} (l a : list (row N)) : Forall2 clipped l a -> a = map clip_row l.
Proof.
  induction 1 as [|r r' l a [A [B C]] F IH]; [reflexivity|]. simpl. rewrite <- IH. f_equal.
  unfold clip_row. destruct r as [h k v], r' as [h' k' v']; simpl in *.
  destruct (nleb v (nofZ 0)); congruence.
Qed.

(** The parts of an H-k result that plotting must never touch. *)
Definition same_rest {N : Num} (d d' : hkres N) : Prop :=
  hr_RFStack d' = hr_RFStack d /\ hr_time d' = hr_time d /\ hr_best d' = hr_best d /\
  hr_staname d' = hr_staname d /\ hr_Vp d' = hr_Vp d /\ hr_layer d' = hr_layer d /\
  hr_stack d' = hr_stack d /\ hr_comp d' = hr_comp d /\ hr_AvgSlow d' = hr_AvgSlow d /\
  hr_H d' = hr_H d /\ hr_K d' = hr_K d.

(** ** C11: for every behaviour of pyplot (including raising at any call), every
    argument and every outcome, the result dictionary only changes as said. *)

Theorem C11_plothk_result (N : Num) pyplot (km1 : N) path g rmneg fmt s s' out :
  plothk pyplot km1 path g rmneg fmt s = (s', out) ->
  let d := ps_d s in let d' := ps_d s' in
  same_rest d d' /\
  Forall2 hdr_only (hr_RF d) (hr_RF d') /\
  (hr_stack d = true -> hr_RF d' = hr_RF d) /\
  (hr_stk d' = hr_stk d \/ rmneg <> Some false /\ Forall2 clipped (hr_stk d) (hr_stk d')) /\
  (out = Ok tt -> rmneg <> Some false -> Forall2 clipped (hr_stk d) (hr_stk d')).
Proof.
  intros E d d'. destruct (plothk_any pyplot km1 path g rmneg fmt s) as [P _].
  rewrite E in P. cbn [fst snd] in P. fold d d' in P.
  destruct P as (RF'&stk'&Ed&F&Hs&Hk).
  split. { rewrite Ed. repeat split. }
  split. { rewrite Ed. exact F. }
  split. { rewrite Ed. exact Hs. }
  assert (Es : hr_stk d' = stk') by (rewrite Ed; reflexivity). rewrite Es.
  split.
  - destruct Hk as [[_ ->]| ->]; [left; reflexivity|].
    destruct rmneg as [[|]|]; cbn [dflt]; [right|left; reflexivity|right];
      (split; [discriminate|apply clipped_clip]).
  - intros Ho Hr. destruct Hk as [[C _]| ->].
    + subst out. discriminate C.
    + destruct rmneg as [[|]|]; cbn [dflt]; try apply clipped_clip. congruence.
Qed.

(** Consequently the best (H,K) and every positive value are unchanged. *)
Theorem C11_best_unchanged (N : Num) pyplot (km1 : N) path g rmneg fmt s s' out i r :
  plothk pyplot km1 path g rmneg fmt s = (s', out) ->
  nth_error (hr_stk (ps_d s)) i = Some r ->
  hr_best (ps_d s') = hr_best (ps_d s) /\ length (hr_stk (ps_d s')) = length (hr_stk (ps_d s)) /\
  exists r', nth_error (hr_stk (ps_d s')) i = Some r' /\ rH r' = rH r /\ rK r' = rK r /\
    (nleb (rS r) (nofZ 0) = false -> rS r' = rS r).
Proof.
  intros E Hr. apply C11_plothk_result in E. cbv zeta in E.
  destruct E as (R&_&_&Hs&_). split; [apply R|].
  destruct Hs as [Hs|[_ Hs]].
  - rewrite Hs. split; [reflexivity|]. exists r. auto.
  - split; [symmetry; eapply Forall2_len; exact Hs|].
    destruct (Forall2_nth _ _ _ _ _ Hs Hr) as [r' [Hr' [A [B C]]]].
    exists r'. repeat (split; [assumption|]). intro Hp. rewrite C, Hp. reflexivity.
Qed.

(** Plotting again changes nothing more, even if the second call uses other
    arguments or fails half-way. *)
Theorem C11_plothk_idempotent (N : Num) pyplot pyplot2 (km1 : N) path path2 g g2 rmneg fmt fmt2 s s1 s2 out2 ev :
  plothk pyplot km1 path g rmneg fmt s = (s1, Ok tt) ->
  plothk pyplot2 km1 path2 g2 rmneg fmt2 (mkPst ev (ps_d s1)) = (s2, out2) ->
  ps_d s2 = ps_d s1.
Proof.
  intros E1 E2.
  destruct (plothk_split pyplot km1 path g rmneg fmt s) as [(d'&e&E'&P)|(d'&bm&ts&P&Eb&Ets&E')].
  { rewrite E1 in E'. discriminate E'. }
  rewrite E1 in E'. symmetry in E'. apply tail_ok in E'. destruct E' as [sx [v [Ex Es1]]].
  destruct (quiet_panels pyplot (dflt g g_default) (layer_window (hr_layer (ps_d s))) d' ts
              (mkPst (ps_ev s) d')) as [Q _].
  rewrite Ex in Q. cbn [fst ps_d] in Q.
  assert (Ed1 : ps_d s1 = d') by (rewrite Es1; exact Q). clear Ex Es1 Q v.
  rewrite Ed1 in *. clear E1 s1 Ed1.
  destruct P as (RF'&stk'&Ed&F&Hst&Hk). destruct Hk as [[C _]|Hk]; [discriminate C|].
  set (d := ps_d s) in *.
  (* best row of d' has the same H and K *)
  assert (Hbm : forall bm', nth_error (hr_stk d') (hr_best d') = Some bm' ->
            rH bm' = rH bm /\ rK bm' = rK bm).
  { intros bm' Hb. rewrite Ed in Hb. cbn [hr_stk hr_setStk hr_setRF hr_best] in Hb.
    rewrite Hk in Hb. destruct (dflt rmneg true).
    - rewrite nth_error_map, Eb in Hb. simpl in Hb. injection Hb as <-. apply clip_row_HK.
    - rewrite Eb in Hb. injection Hb as <-. auto. }
  assert (Hclip : forall d2, plothk_data d' d2 (dflt rmneg true) true \/ plothk_data d' d2 (dflt rmneg true) false ->
            hr_RF d2 = hr_RF d' -> d2 = d').
  { intros d2 HP HRF.
    assert (HP' : plothk_data d' d2 (dflt rmneg true) false).
    { destruct HP as [HP|HP]; [|exact HP]. destruct HP as (a&b&A&B&C&D). exists a, b.
      repeat (split; [assumption|]). destruct D as [[D _]|D]; [discriminate D|right; exact D]. }
    destruct HP' as (a&b&A&_&_&D).
    assert (Ea : a = hr_RF d') by (rewrite <- HRF, A; reflexivity).
    assert (Eb' : b = hr_stk d').
    { destruct D as [[_ D]|D]; [exact D|]. rewrite D.
      replace (hr_stk d') with stk' by (rewrite Ed; reflexivity). rewrite Hk.
      destruct (dflt rmneg true); [apply map_clip_idem|reflexivity]. }
    rewrite A, Ea, Eb'. apply hr_id. }
  destruct (hr_stack d) eqn:Estk.
  - destruct (plothk_any pyplot2 km1 path2 g2 rmneg fmt2 (mkPst ev d')) as [P2 _].
    rewrite E2 in P2. cbn [fst snd ps_d] in P2.
    apply Hclip.
    + destruct out2; [left|right]; exact P2.
    + destruct P2 as (a&b&A&_&C&_). rewrite A. cbn [hr_RF hr_setStk hr_setRF]. apply C.
      rewrite Ed. exact Estk.
  - destruct Ets as [_ HT].
    (* headers of d' are the times of the best model *)
    assert (HH : forall tr', In tr' (hr_RF d') -> forall ts,
       hk_times (hr_Vp d') (nmul km1 (tr_slow tr')) (tr_slowk tr') (rH bm) (rK bm) = Ok ts -> set_hdr tr' ts = tr').
    { assert (Ev : hr_Vp d' = hr_Vp d) by (rewrite Ed; reflexivity). rewrite Ev.
      intros tr' Hin. apply In_nth_error in Hin. destruct Hin as [n Hn].
      destruct (Forall2_nth_r _ _ _ _ _ HT Hn) as [tr [_ [tsa [Et ->]]]].
      intros ts' Ht'. cbn [set_hdr tr_slow tr_slowk] in Ht'. rewrite Et in Ht'. injection Ht' as <-. reflexivity. }
    assert (HW : forall km tf l' , (forall tr', In tr' (hr_RF d') -> forall ts, tf (nmul km (tr_slow tr')) (tr_slowk tr') = Ok ts -> set_hdr tr' ts = tr') ->
       Forall2 (fun tr tr' => exists ts, tf (nmul km (tr_slow tr)) (tr_slowk tr) = Ok ts /\ tr' = set_hdr tr ts) (hr_RF d') l' ->
       l' = hr_RF d').
    { clear. intros km tf l' H F. revert H. induction F as [|tr tr' l l' [ts [Et ->]] F IH]; intro H; [reflexivity|].
      f_equal; [apply H; [left; reflexivity|exact Et]|]. apply IH. intros; eapply H; [right; eassumption|assumption]. }
    (* second run *)
    assert (Estk' : hr_stack d' = false) by (rewrite Ed; exact Estk).
    destruct (plothk_split pyplot2 km1 path2 g2 rmneg fmt2 (mkPst ev d')) as [(d2&e2&E'&P2)|(d2&bm2&ts2&P2&Eb2&Ets2&E')].
    + (* failed before drawing *)
      cbn [ps_d ps_ev] in *. rewrite E2 in E'. injection E' as -> ->. cbn [ps_d].
      apply Hclip; [right; exact P2|].
      assert (G : forall s0 : pst N (hkres N), ps_d s0 = d' ->
         forall s3 e3, plothk pyplot2 km1 path2 g2 rmneg fmt2 s0 = (s3, Err e3) ->
           ps_ev s3 = ps_ev s0 -> hr_RF (ps_d s3) = hr_RF d').
      { clear E2. intros s0 Hs0 s3 e3 E3 _.
        unfold plothk in E3. rewrite (pbind_step _ _ s0 s0 d') in E3 by (unfold pget; rewrite Hs0; reflexivity).
        destruct (getitem (hr_stk d') (hr_best d')) as [b|x] eqn:Eg.
        2:{ rewrite (pbind_err _ _ s0 s0 x) in E3 by reflexivity. injection E3 as <- _. rewrite Hs0. reflexivity. }
        rewrite (pbind_step _ _ s0 s0 b) in E3 by reflexivity. cbv beta zeta in E3.
        rewrite Estk' in E3. apply getitem_Ok in Eg. destruct (Hbm b Eg) as [Hb1 Hb2]. rewrite Hb1, Hb2 in E3.
        assert (WH : forall s4 r4, write_headers hr_RF hr_setRF km1 (fun rp k => hk_times (hr_Vp d') rp k (rH bm) (rK bm)) s0 = (s4, r4) ->
                 s4 = mkPst (ps_ev s0) d').
        { intros s4 r4 E4. unfold write_headers in E4.
          rewrite (pbind_step _ _ s0 s0 d') in E4 by (unfold pget; rewrite Hs0; reflexivity).
          assert (L : forall l s5 s6 r6, ps_d s5 = d' ->
             forP l (header_step hr_RF hr_setRF km1 (fun rp k => hk_times (hr_Vp d') rp k (rH bm) (rK bm))) tt s5 = (s6, r6) ->
             s6 = mkPst (ps_ev s5) d').
          { induction l as [|i l IH]; intros s5 s6 r6 H5 E5; simpl in E5.
            - unfold pret in E5. injection E5 as <- _. destruct s5; simpl in *; congruence.
            - unfold pbind at 1 in E5. unfold header_step at 1 in E5.
              unfold pbind, pget, plift, pput in E5. rewrite H5 in E5.
              destruct (getitem (hr_RF d') i) as [tr|x] eqn:Eg5; [|injection E5 as <- _; destruct s5; simpl in *; congruence].
              destruct (hk_times (hr_Vp d') (nmul km1 (tr_slow tr)) (tr_slowk tr) (rH bm) (rK bm)) as [ts5|x] eqn:Et5;
                [|injection E5 as <- _; destruct s5; simpl in *; congruence].
              apply getitem_Ok in Eg5.
              rewrite (HH tr) in E5 by (try exact Et5; eapply nth_error_In; exact Eg5).
              assert (Eu : upd (hr_RF d') i tr = hr_RF d').
              { apply list_ext. intro j. destruct (Nat.eq_dec i j) as [<-|Hj].
                - rewrite nth_error_upd_eq; [symmetry; exact Eg5|]. apply nth_error_Some. congruence.
                - apply nth_error_upd_neq. exact Hj. }
              rewrite Eu in E5.
              assert (Ei : hr_setRF d' (hr_RF d') = d') by (destruct d'; reflexivity). rewrite Ei in E5.
              apply IH in E5; [exact E5|reflexivity]. }
          eapply L; [exact Hs0|exact E4]. }
        destruct (write_headers hr_RF hr_setRF km1 (fun rp k => hk_times (hr_Vp d') rp k (rH bm) (rK bm)) s0) as [s4 [u4|x4]] eqn:E4.
        - pose proof (WH _ _ eq_refl) as Hs4.
          rewrite (pbind_step _ _ s0 s4 None) in E3 by (rewrite (pbind_step _ _ s0 s4 u4); [reflexivity|exact E4]).
          cbv beta in E3. subst s4.
          match type of E3 with pbind _ _ ?st = _ => idtac end.
          rewrite (pbind_step _ _ _ (if dflt rmneg true then mkPst (ps_ev s0) (hr_setStk d' (map clip_row (hr_stk d'))) else mkPst (ps_ev s0) d') tt) in E3
            by apply (clip_in_place_eq hr_stk hr_setStk (dflt rmneg true) (mkPst (ps_ev s0) d')).
          destruct (dflt rmneg true).
          + rewrite (pbind_step _ _ _ (mkPst (ps_ev s0) (hr_setStk d' (map clip_row (hr_stk d')))) (hr_setStk d' (map clip_row (hr_stk d')))) in E3 by reflexivity.
            set (d5 := hr_setStk d' (map clip_row (hr_stk d'))) in *.
            rewrite <- pbind_assoc in E3.
            match type of E3 with pbind ?m (fun _ => pbind (emit _ (ESave ?f)) _) ?st = _ =>
              destruct (tail_any pyplot2 m f st) as [Eq _] end.
            { apply quiet_bind; [apply quiet_panel1|intros _]. destruct (hr_stack d5).
              - apply quiet_bind; [apply quiet_lift|intro tt'].
                apply quiet_bind; [apply quiet_panel_one|intros _].
                apply quiet_bind; [apply quiet_lift|intros [[a0 b0] sp]]. apply quiet_spans3.
              - apply quiet_bind; [apply quiet_panel_stream|intros _]. apply quiet_panel_stream. }
            rewrite E3 in Eq. cbn [fst ps_d] in Eq. rewrite Eq. reflexivity.
          + rewrite (pbind_step _ _ _ (mkPst (ps_ev s0) d') d') in E3 by reflexivity.
            rewrite <- pbind_assoc in E3.
            match type of E3 with pbind ?m (fun _ => pbind (emit _ (ESave ?f)) _) ?st = _ =>
              destruct (tail_any pyplot2 m f st) as [Eq _] end.
            { apply quiet_bind; [apply quiet_panel1|intros _]. destruct (hr_stack d').
              - apply quiet_bind; [apply quiet_lift|intro tt'].
                apply quiet_bind; [apply quiet_panel_one|intros _].
                apply quiet_bind; [apply quiet_lift|intros [[a0 b0] sp]]. apply quiet_spans3.
              - apply quiet_bind; [apply quiet_panel_stream|intros _]. apply quiet_panel_stream. }
            rewrite E3 in Eq. cbn [fst ps_d] in Eq. rewrite Eq. reflexivity.
        - pose proof (WH _ _ eq_refl) as Hs4.
          rewrite (pbind_err _ _ s0 s4 x4) in E3 by (apply pbind_err; exact E4).
          injection E3 as <- _. rewrite Hs4. reflexivity. }
      apply (G (mkPst ev d') eq_refl _ _ E2 eq_refl).
    + cbn [ps_d ps_ev] in *. rewrite Estk' in Ets2. destruct Ets2 as [_ HT2].
      destruct (Hbm bm2 Eb2) as [Hb1 Hb2]. unfold times_written in HT2. rewrite Hb1, Hb2 in HT2.
      assert (ERF : hr_RF d2 = hr_RF d').
      { eapply (HW km1 (fun rp k => hk_times (hr_Vp d') rp k (rH bm) (rK bm))); [exact HH|exact HT2]. }
      assert (Ed2 : d2 = d') by (apply Hclip; [left; exact P2|exact ERF]).
      rewrite E2 in E'. 
      match type of E' with _ = pbind ?m (fun _ => pbind (emit _ (ESave ?f)) _) ?st =>
        destruct (tail_any pyplot2 m f st (quiet_panels _ _ _ _ _)) as [Eq _] end.
      rewrite <- E' in Eq. cbn [fst ps_d] in Eq. congruence.
Qed.
