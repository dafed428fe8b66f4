(** * P_Plot2: what plothk draws and saves (C12); file names (C56). *)

From Coq Require Import Reals Lra Ascii Floats.SpecFloat.
From Verif Require Import Base Num NumPy Spec HkModel HkProofs HkReal PlotModel PlotProofs PlotProofs2 PlotProofs3 P_Plot.

(** The three marks of a trace with ray parameter [p]: at the best model's Ps, PpPs
    and PsPs+PpSs times, from [c+g] to [c-g]. *)
Definition arrivals (Vp H K p c g : R) : list (tval RN * R * R) :=
  [(@TR RN (t_Ps Vp p H K), c + g, c - g); (@TR RN (t_PpPs Vp p H K), c + g, c - g);
   (@TR RN (t_PsPs Vp p H K), c + g, c - g)]%R.

(** Documented default gains. *)
Definition gains (g : option (list R)) : list R := match g with Some l => l | None => [75; 10; 15; 25 / 10]%R end.

Local Open Scope string_scope.
Definition figure_file (path sta chan layer : string) (fmt : option string) : string :=
  path ++ "/" ++ sta ++ "_" ++ chan ++ "_" ++ layer ++ "." ++ match fmt with Some f => f | None => "pdf" end.
Local Close Scope string_scope.

Lemma gains_eq (g : option (list R)) : dflt g (@g_default RN) = gains g.
Proof. destruct g; reflexivity. Qed.
Lemma figure_file_eq path sta chan layer fmt :
  fname4 path sta chan layer (dflt fmt "pdf"%string) = figure_file path sta chan layer fmt.
Proof. destruct fmt; reflexivity. Qed.

Lemma obs_arrivals (km1 : R) H K (d d' : hkres RN) pan g0 g1 centre :
  (forall tr ts, centre (set_hdr tr ts) = centre tr) ->
  (forall tr, In tr (hr_RF d) -> precritical (hr_Vp d) (km1 * tr_slow tr)%R) ->
  times_written (N := RN) km1 H K d d' ->
  flat_map (obs_trace (N := RN) pan g0 g1 centre) (hr_RF d')
  = flat_map (fun tr => arrivals (hr_Vp d) H K (km1 * tr_slow tr)%R (centre tr) g1) (hr_RF d).
Proof.
  intros Hc HP F. unfold times_written in F. revert HP.
  induction F as [|tr tr' l l' [ts [Et ->]] F IH]; intro HP; [reflexivity|].
  cbn [flat_map]. apply f_equal2; [|apply IH; intros; apply HP; right; assumption].
  change (@nmul RN km1 (tr_slow tr)) with (km1 * tr_slow tr)%R in Et.
  rewrite hk_times_R in Et by (apply HP; left; reflexivity). injection Et as <-.
  unfold obs_trace. cbn [set_hdr tr_hdr]. fold (set_hdr tr (@TR RN (t_Ps (hr_Vp d) (km1 * tr_slow tr) H K), @TR RN (t_PpPs (hr_Vp d) (km1 * tr_slow tr) H K), @TR RN (t_PsPs (hr_Vp d) (km1 * tr_slow tr) H K))). rewrite Hc. reflexivity.
Qed.

(** *** C12, one curve per trace *)
Theorem C12_plothk_traces pyplot (km1 : R) path g rmneg fmt (s s' : pst RN (hkres RN)) u bm :
  @plothk RN pyplot km1 path g rmneg fmt s = (s', Ok u) ->
  let d := ps_d s in
  hr_stack d = false ->
  nth_error (hr_stk d) (hr_best d) = Some bm -> (1 <= rK bm)%R ->
  (forall tr, In tr (hr_RF d) -> precritical (hr_Vp d) (km1 * tr_slow tr)%R) ->
  exists es g0 g1 g2 g3,
    ps_ev s' = ps_ev s ++ es /\
    nth_error (gains g) 0 = Some g0 /\ nth_error (gains g) 1 = Some g1 /\
    nth_error (gains g) 2 = Some g2 /\ nth_error (gains g) 3 = Some g3 /\
    saves es = [figure_file path (hr_staname d) (hr_comp d) (hr_layer d) fmt] /\
    contours es = [hr_stk (ps_d s')] /\
    bests es = [(rH bm, rK bm)] /\
    marks 2 es = flat_map (fun tr => arrivals (hr_Vp d) (rH bm) (rK bm) (km1 * tr_slow tr)%R (tr_baz tr) g1) (hr_RF d) /\
    marks 3 es = flat_map (fun tr => arrivals (hr_Vp d) (rH bm) (rK bm) (km1 * tr_slow tr)%R (tr_dist tr) g3) (hr_RF d).
Proof.
  intros E d Hst Hbm _ HP. destruct (plothk_ok_traces pyplot km1 path g rmneg fmt s s' u E Hst)
    as (es&bm'&g0&g1&g2&g3&A1&A2&A3&A4&A5&A6&A7&A8&A9&A10&A11&A12&_).
  fold d in A2, A7, A10. rewrite Hbm in A2. injection A2 as <-.
  rewrite gains_eq in A3, A4, A5, A6. rewrite figure_file_eq in A7.
  exists es, g0, g1, g2, g3. repeat (split; [assumption|]). split.
  - etransitivity; [exact A11|]. apply obs_arrivals; [reflexivity|exact HP|exact A10].
  - etransitivity; [exact A12|]. apply obs_arrivals; [reflexivity|exact HP|exact A10].
Qed.

(** *** C12, stacked trace: average slowness, height 180 *)
Theorem C12_plothk_stacked pyplot (km1 : R) path g rmneg fmt (s s' : pst RN (hkres RN)) u bm :
  @plothk RN pyplot km1 path g rmneg fmt s = (s', Ok u) ->
  let d := ps_d s in
  hr_stack d = true ->
  nth_error (hr_stk d) (hr_best d) = Some bm -> (1 <= rK bm)%R ->
  precritical (hr_Vp d) (km1 * hr_AvgSlow d)%R ->
  exists es g0 g1,
    ps_ev s' = ps_ev s ++ es /\
    nth_error (gains g) 0 = Some g0 /\ nth_error (gains g) 1 = Some g1 /\
    saves es = [figure_file path (hr_staname d) (hr_comp d) (hr_layer d) fmt] /\
    contours es = [hr_stk (ps_d s')] /\
    bests es = [(rH bm, rK bm)] /\
    marks 2 es = arrivals (hr_Vp d) (rH bm) (rK bm) (km1 * hr_AvgSlow d)%R 180%R g1 /\
    marks 3 es = [].
Proof.
  intros E d Hst Hbm _ HP. destruct (plothk_ok_stacked pyplot km1 path g rmneg fmt s s' u E Hst)
    as (es&bm'&ts&g0&g1&A1&A2&A3&A4&A5&A6&A7&A8&A9&A10&_).
  fold d in A2, A3, A6. rewrite Hbm in A2. injection A2 as <-.
  rewrite gains_eq in A4, A5. rewrite figure_file_eq in A6.
  change (@nmul RN km1 (hr_AvgSlow d)) with (km1 * hr_AvgSlow d)%R in A3.
  rewrite hk_times_R in A3 by exact HP. injection A3 as <-.
  exists es, g0, g1. repeat split; assumption.
Qed.

(** *** C12: an unknown layer raises and writes nothing; in general a call writes at
    most the one figure. *)
Theorem C12_unknown_layer (N : Num) pyplot (km1 : N) path g rmneg fmt (s s' : pst N (hkres N)) out :
  plothk pyplot km1 path g rmneg fmt s = (s', out) ->
  hr_layer (ps_d s) <> "Moho"%string -> hr_layer (ps_d s) <> "Sed"%string ->
  (exists e, out = Err e) /\ saves (ps_ev s') = saves (ps_ev s).
Proof.
  intros E HM HS.
  assert (HW : @layer_window N (hr_layer (ps_d s)) = None).
  { unfold layer_window. apply String.eqb_neq in HM, HS. rewrite HM, HS. reflexivity. }
  destruct (plothk_any pyplot km1 path g rmneg fmt s) as [_ P]. rewrite E in P. cbn [fst] in P.
  split.
  - destruct out as [u|e]; [|eauto]. exfalso. destruct (hr_stack (ps_d s)) eqn:Est.
    + destruct (plothk_split pyplot km1 path g rmneg fmt s) as [(d'&e&E'&P')|(d'&bm&ts&P'&Eb&Ets&E')].
      { rewrite E' in E. discriminate E. }
      rewrite E in E'. symmetry in E'. apply tail_ok in E'. destruct E' as [s1 [v [E1 _]]]. unfold panels in E1.
      assert (Hd : hr_stack d' = true) by (destruct P' as (a&b&Ed&_); rewrite Ed; exact Est).
      rewrite Hd in E1.
      apply pbind_ok in E1. destruct E1 as [s2 [v2 [_ E1]]].
      apply pbind_ok in E1. destruct E1 as [s3 [v3 [_ E1]]].
      apply pbind_ok in E1. destruct E1 as [s4 [v4 [E1 _]]].
      apply panel_one_ok in E1. destruct E1 as (g0&g1&lo&hi&sp&_&_&Hw&_). congruence.
    + destruct (plothk_split pyplot km1 path g rmneg fmt s) as [(d'&e&E'&P')|(d'&bm&ts&P'&Eb&Ets&E')].
      { rewrite E' in E. discriminate E. }
      rewrite E in E'. symmetry in E'. apply tail_ok in E'. destruct E' as [s1 [v [E1 _]]]. unfold panels in E1.
      assert (Hd : hr_stack d' = false) by (destruct P' as (a&b&Ed&_); rewrite Ed; exact Est).
      rewrite Hd in E1.
      apply pbind_ok in E1. destruct E1 as [s2 [v2 [_ E1]]].
      apply pbind_ok in E1. destruct E1 as [s4 [v4 [E1 _]]].
      apply panel_stream_ok in E1. destruct E1 as (g0&g1&lo&hi&sp&r1&r2&r3&_&_&Hw&_). congruence.
  - destruct P as [P|[_ P]]; [exact P|congruence].
Qed.

Theorem C12_at_most_one_file (N : Num) pyplot (km1 : N) path g rmneg fmt (s s' : pst N (hkres N)) out :
  plothk pyplot km1 path g rmneg fmt s = (s', out) ->
  let d := ps_d s in
  saves (ps_ev s') = saves (ps_ev s) \/
  saves (ps_ev s') = saves (ps_ev s) ++ [figure_file path (hr_staname d) (hr_comp d) (hr_layer d) fmt].
Proof.
  intros E d. destruct (plothk_any pyplot km1 path g rmneg fmt s) as [_ P]. rewrite E in P. cbn [fst] in P.
  rewrite figure_file_eq in P. destruct P as [P|[P _]]; [left|right]; exact P.
Qed.

(** A layer 'Moho' run whose pyplot never raises really succeeds (non-vacuity). *)
Definition ex_res : hkres B64 :=
  let z := sf_ofZ in
  mkHkRes (N := B64)
    [mkTrace (N := B64) [z 1; z 2; z 3]%Z (z 1%Z) (z 6%Z) PyF (z (-1)%Z) (z 90%Z) (z 60%Z) "STA" "HHR" None]
    [z 1; z 2; z 3]%Z [z (-1); z 0; z 1]%Z 1 "STA" (sf_lit 65 10)
    [mkRow (N := B64) (z 30%Z) (sf_lit 17 10) (z (-1)%Z); mkRow (N := B64) (z 31%Z) (sf_lit 17 10) (z 2%Z)]
    "Moho" false "HHR" (z 6%Z) [z 30; z 31]%Z [sf_lit 17 10].
Example C12_example :
  let out := @plothk B64 (fun _ _ => None) (sf_lit 9 1000) "out" None None None (mkPst [] ex_res) in
  match out with
  | (s', Ok _) => String.eqb (hd ""%string (saves (ps_ev s'))) "out/STA_HHR_Moho.pdf"
                  && (length (marks 2 (ps_ev s')) =? 3) && (length (marks 3 (ps_ev s')) =? 3)
                  && SFeqb (rS (nth 0 (hr_stk (ps_d s')) zrow)) (sf_ofZ 0)
  | _ => false
  end = true.
Proof. vm_compute. reflexivity. Qed.

(** ** C56 *)

Local Open Scope string_scope.

Fixpoint has_char (c : ascii) (s : string) : bool :=
  match s with EmptyString => false | String a s' => Ascii.eqb a c || has_char c s' end.

Lemma split_first c (a a' b b' : string) :
  has_char c a = false -> has_char c a' = false ->
  a ++ String c b = a' ++ String c b' -> a = a' /\ b = b'.
Proof.
  revert a'. induction a as [|x a IH]; intros [|y a'] Ha Ha' E; simpl in *.
  - injection E as ->. auto.
  - injection E as E1 E2. subst y. apply orb_false_iff in Ha'. destruct Ha' as [C _].
    rewrite Ascii.eqb_refl in C. discriminate.
  - injection E as E1 E2. subst x. apply orb_false_iff in Ha. destruct Ha as [C _].
    rewrite Ascii.eqb_refl in C. discriminate.
  - injection E as E1 E2. apply orb_false_iff in Ha, Ha'. destruct Ha as [_ Ha], Ha' as [_ Ha'].
    destruct (IH a' Ha Ha' E2) as [-> ->]. subst. auto.
Qed.

Lemma app_inv_l (p a b : string) : p ++ a = p ++ b -> a = b.
Proof. induction p as [|c p IH]; simpl; intro E; [exact E|]. injection E as E. auto. Qed.

(** In one directory, with codes free of '_' (as SEED station and channel codes
    are), the figures of [plothk]/[plotSeqhk] are named apart. *)
Theorem C56_hk_names_distinct path sta chan layer sta' chan' layer' fmt :
  has_char "_" sta = false -> has_char "_" sta' = false ->
  has_char "_" chan = false -> has_char "_" chan' = false ->
  has_char "." layer = false -> has_char "." layer' = false ->
  figure_file path sta chan layer fmt = figure_file path sta' chan' layer' fmt ->
  sta = sta' /\ chan = chan' /\ layer = layer'.
Proof.
  intros H1 H2 H3 H4 H5 H6 E. unfold figure_file in E. apply app_inv_l in E.
  injection E as E. apply split_first in E; [|assumption..]. destruct E as [-> E].
  apply split_first in E; [|assumption..]. destruct E as [-> E].
  apply split_first in E; [|assumption..]. destruct E as [-> _]. auto.
Qed.

(** The names do not identify the analysis in general: an underscore in a code is
    enough for two different stations to share a file. *)
Theorem C56_underscore_collision_refuted :
  exists path sta chan sta' chan' layer fmt, sta <> sta' /\
    figure_file path sta chan layer fmt = figure_file path sta' chan' layer fmt.
Proof. exists "d", "A_B", "C", "A", "B_C", "Moho", None. split; [discriminate|reflexivity]. Qed.

(** [plothkYu], [plothkSynth], [plothkSeqSynth] and [plotfiltrf] never mention the station: any two
    successful calls into the same directory and format write the same file(s), so
    the second overwrites the first. *)
Lemma saves_quiet {N : Num} {D A} (m : @PM N D A) (s s' : pst N D) a :
  quiet m -> m s = (s', Ok a) -> saves (ps_ev s') = saves (ps_ev s).
Proof. intros Q E. destruct (Q s) as [_ H]. rewrite E in H. exact H. Qed.

Lemma saves_clip {N : Num} {D} getT setT rm (s s' : pst N D) u :
  clip_in_place getT setT rm s = (s', Ok u) -> saves (ps_ev s') = saves (ps_ev s).
Proof. rewrite clip_in_place_eq. intro E. injection E as <- _. destruct rm; reflexivity. Qed.

Theorem C56_plothkYu_fixed_name (N : Num) pyplot k path g rmneg fmt (s s' : pst N (yures N)) u :
  plothkYu pyplot k path g rmneg fmt s = (s', Ok u) ->
  saves (ps_ev s') = (saves (ps_ev s) ++
    [(path ++ "/FilteredRF_HKYu_SubSediment." ++ match fmt with Some f => f | None => "pdf" end)%string])%list.
Proof.
  unfold plothkYu. intro E.
  apply pbind_ok in E. destruct E as [s1 [d [E1 E]]]. apply pget_ok in E1. destruct E1 as [-> ->].
  apply pbind_ok in E. destruct E as [s2 [bm [E2 E]]]. apply plift_ok in E2. destruct E2 as [-> _].
  apply pbind_ok in E. destruct E as [s3 [ts [E3 E]]]. apply plift_ok in E3. destruct E3 as [-> _].
  apply pbind_ok in E. destruct E as [s4 [u4 [E4 E]]]. apply saves_clip in E4.
  apply pbind_ok in E. destruct E as [s5 [d5 [E5 E]]]. apply pget_ok in E5. destruct E5 as [-> ->].
  apply pbind_ok in E. destruct E as [s6 [u6 [E6 E]]]. apply (saves_quiet _ _ _ _ (quiet_panel1 _ _ _ _ _)) in E6.
  apply pbind_ok in E. destruct E as [s7 [u7 [E7 E]]]. apply (saves_quiet _ _ _ _ (quiet_panel_one _ _ _ _ _ _ _)) in E7.
  apply pbind_ok in E. destruct E as [s8 [u8 [E8 E]]]. apply emit_ok in E8, E. subst s8 s'. cbn [ps_ev].
  rewrite !saves_app, E7, E6, E4. cbn [saves flat_map app]. rewrite app_nil_r. destruct fmt; reflexivity.
Qed.

Theorem C56_plotfiltrf_fixed_names (N : Num) pyplot path fmt (s s' : pst N (fltres N)) u :
  plotfiltrf pyplot path fmt s = (s', Ok u) ->
  saves (ps_ev s') = (saves (ps_ev s) ++
    [(path ++ "/Autocorrelation." ++ fmt)%string; (path ++ "/Resonance_Filter." ++ fmt)%string;
     (path ++ "/RF_FilteredRF." ++ fmt)%string])%list
  /\ ps_d s' = ps_d s.
Proof.
  unfold plotfiltrf. intro E.
  apply pbind_ok in E. destruct E as [s1 [d [E1 E]]]. apply pget_ok in E1. destruct E1 as [-> ->].
  do 9 (apply pbind_ok in E; let s1 := fresh "t" in let u1 := fresh "v" in let E1 := fresh "E1" in
        destruct E as [s1 [u1 [E1 E]]]; apply emit_ok in E1).
  apply emit_ok in E. subst. cbn [ps_ev ps_d]. split; [|reflexivity].
  rewrite !saves_app. cbn [saves flat_map app]. rewrite !app_nil_r, <- !app_assoc. reflexivity.
Qed.

(** Hence two different analyses overwrite each other's figure. *)
Definition ex_yu (v : Z) : yures B64 :=
  let z := sf_ofZ in
  mkYuRes (N := B64) [z v; z 2; z 3]%Z [z 0; z 1; z 2]%Z (z 1%Z) (z 0%Z) (sf_lit 6 100) 0 (sf_lit 65 10) (sf_lit 25 10)
    [mkRow (N := B64) (z v) (sf_lit 17 10) (z 1%Z)] [z v] [sf_lit 17 10] (z 1%Z).
Theorem C56_refuted :
  exists (r r' : yures B64),
    rH (nth 0 (yr_stk r) zrow) <> rH (nth 0 (yr_stk r') zrow) /\
    match @plothkYu B64 (fun _ _ => None) PyF "out" None None None (mkPst [] r),
          @plothkYu B64 (fun _ _ => None) PyF "out" None None None (mkPst [] r') with
    | (s1, Ok _), (s2, Ok _) => saves (ps_ev s1) = saves (ps_ev s2) /\ saves (ps_ev s1) <> []
    | _, _ => False
    end.
Proof.
  exists (ex_yu 30), (ex_yu 40). split; [vm_compute; discriminate|].
  vm_compute. split; [reflexivity|discriminate].
Qed.
