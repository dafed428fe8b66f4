(** * P_Hk5: the H-k programs complete on well-formed input (C77). *)

From Coq Require Import Reals Lra Psatz.
From Verif Require Import Base Num NumPy Spec HkModel HkProofs HkReal HkFacts HkFacts2 HkFacts4 P_Hk DrawSpec P_Hk2 P_Hk3.

Section Complete.
Context {N : Num}.

Lemma mapM_all_Ok {A B} (f : A -> res B) l :
  (forall x, In x l -> exists y, f x = Ok y) -> exists ys, mapM f l = Ok ys.
Proof.
  induction l as [|x l IH]; intro H; simpl; [eauto|].
  destruct (H x) as [y E]; [now left|]. rewrite E. simpl.
  destruct IH as [ys E']; [intros; apply H; now right|]. rewrite E'. simpl. eauto.
Qed.

Lemma getamp_reads (data axis : list N) t :
  axis <> [] -> length axis <= length data -> exists a, getamp data axis t = Ok a.
Proof.
  intros Ha Hl. unfold getamp.
  destruct (argmin_Ok_iff (map (fun ti => tdist ti t) axis)) as [i [Ei Hi]].
  { destruct axis; [congruence|discriminate]. }
  rewrite map_length in Hi. rewrite Ei. cbn [bind].
  unfold getitem. destruct (nth_error data i) as [a|] eqn:En; [eauto|].
  apply nth_error_None in En. lia.
Qed.

Lemma contrib_reads (w1 w2 w3 : N) data axis ts :
  axis <> [] -> length axis <= length data -> (exists x, ts = Ok x) ->
  exists v, contrib w1 w2 w3 data axis ts = Ok v.
Proof.
  intros Ha Hl [[[t1 t2] t3] ->]. unfold contrib. cbn [bind].
  destruct (getamp_reads data axis t1 Ha Hl) as [a1 E1].
  destruct (getamp_reads data axis t2 Ha Hl) as [a2 E2].
  destruct (getamp_reads data axis t3 Ha Hl) as [a3 E3].
  rewrite E1. cbn [bind]. rewrite E2. cbn [bind]. rewrite E3. cbn [bind]. eauto.
Qed.

Lemma hk_times_Ok (Vp p : N) k h K : neqb Vp (nofZ 0) = false -> exists ts, hk_times Vp p k h K = Ok ts.
Proof. intro H. unfold hk_times, pyinv. rewrite H. cbn [bind]. eauto. Qed.

Lemma hkSeqMoho_times_Ok (H1 K1 V1 V2 p : N) k h K :
  neqb V1 (nofZ 0) = false -> neqb V2 (nofZ 0) = false ->
  exists ts, hkSeqMoho_times H1 K1 V1 (Some V2) p k h K = Ok ts.
Proof. intros A B. unfold hkSeqMoho_times, pyinv, need. rewrite A. cbn [bind]. rewrite B. cbn [bind]. eauto. Qed.

Lemma hkYu_times_Ok (V p tlag Pd : N) k h K :
  neqb V (nofZ 0) = false -> exists ts, hkYu_times V p k tlag Pd h K = Ok ts.
Proof. intros A. unfold hkYu_times, pyinv. rewrite A. cbn [bind]. eauto. Qed.

Lemma sumM_all_Ok {A} (c : A -> res N) l : (forall x, In x l -> exists v, c x = Ok v) -> exists v, sumM c l = Ok v.
Proof.
  unfold sumM. generalize (@nofZ N 0). induction l as [|x l IH]; intros s H; simpl; [eauto|].
  destruct (H x) as [v E]; [now left|]. rewrite E. simpl. apply IH. intros; apply H; now right.
Qed.

Lemma lastv_all_Ok {A} (c : A -> res N) l : l <> [] -> (forall x, In x l -> exists v, c x = Ok v) ->
  exists v, lastv c l = Ok v.
Proof.
  intros Hn H. unfold lastv.
  assert (G : forall q, exists o, forM l (fun tr _ => v <- c tr ;; Ok (Some (nadd v (nofZ 0)))) q = Ok o).
  { clear Hn. induction l as [|x l IH]; intro q; simpl; [eauto|].
    destruct (H x) as [v E]; [now left|]. rewrite E. simpl. apply IH. intros; apply H; now right. }
  destruct (G None) as [o E]. unfold lastM. rewrite E. cbn [bind].
  destruct l as [|x l]; [congruence|]. apply lastM_some in E. destruct E as [v ->]. eauto.
Qed.

Lemma grid_all_Ok (f : N -> N -> res N) K H : K <> [] -> H <> [] ->
  (forall k h, In k K -> In h H -> exists v, f k h = Ok v) ->
  exists rows ib, mapM (mkrow_of f) (list_prod K H) = Ok rows /\ argmax (map rS rows) = Ok ib /\
     nth_error rows ib <> None.
Proof.
  intros HK HH Hf.
  destruct (mapM_all_Ok (mkrow_of f) (list_prod K H)) as [rows E].
  { intros [k h] Hin. apply in_prod_iff in Hin. destruct (Hf k h) as [v Ev]; try tauto.
    unfold mkrow_of. cbn [fst snd]. rewrite Ev. cbn [bind]. eauto. }
  pose proof (table_nonempty f K H rows E HK HH) as Hne.
  destruct (argmax_Ok_iff (map rS rows)) as [ib [Ea Hl]]; [destruct rows; [congruence|discriminate]|].
  exists rows, ib. split; [exact E|]. split; [exact Ea|].
  rewrite map_length in Hl. apply nth_error_Some. exact Hl.
Qed.
End Complete.

(** A program that raises nothing but what its drawing raises returns if the drawing accepts
    every finite table over its grid (exact arithmetic: every table is finite). *)
Lemma drawn_R {A} draw (K H : list R) (call : res A) (stk : A -> list (row RN)) :
  draws draw K H ->
  (exists tb, @grid_table RN K H tb /\ match draw tb with Ok _ => exists r, call = Ok r /\ stk r = tb | Err e => call = Err e end) ->
  exists r, call = Ok r.
Proof.
  intros D (tb & G & M). destruct (D tb G (fun _ _ => eq_refl)) as [u E]. rewrite E in M. destruct M as (r & M & _). eauto.
Qed.
Lemma drawn2_R {A} draw (KS HS KM HM : list R) (call : res A) (sS sM : A -> list (row RN)) :
  draws draw KS HS -> draws draw KM HM ->
  (exists tbS, @grid_table RN KS HS tbS /\ match draw tbS with
    | Err e => call = Err e
    | Ok _ => exists tbM, @grid_table RN KM HM tbM /\ match draw tbM with
        | Err e => call = Err e
        | Ok _ => exists r, call = Ok r /\ sS r = tbS /\ sM r = tbM end end) ->
  exists r, call = Ok r.
Proof.
  intros D D' (tb & G & M). destruct (D tb G (fun _ _ => eq_refl)) as [u E]. rewrite E in M. destruct M as (tb' & G' & M).
  destruct (D' tb' G' (fun _ _ => eq_refl)) as [u' E']. rewrite E' in M. destruct M as (r & M & _). eauto.
Qed.

(** ** C77 *)

(** [hk], any arithmetic (so also binary64 with NaN samples): non-empty grids, a
    non-empty stream whose traces are at least as long as the first one, a
    non-zero velocity.  The call computes a table over the whole grid and raises nothing but
    what pyplot raises when it draws that table. *)
Theorem C77_hk_completes (N : Num) km1 stackO draw (rf : stream N) pre H K Vp w1 w2 w3 layer stack st SR tr0 :
  stackO rf = Ok (st :: SR) ->
  H <> [] -> K <> [] -> nth_error rf 0 = Some tr0 -> 1 <= length (tr_data tr0) ->
  (stack <> Some true -> forall tr, In tr rf -> length (tr_data tr0) <= length (tr_data tr)) ->
  (stack = Some true -> length (tr_data tr0) <= length (tr_data st)) ->
  neqb (dflt Vp (nlit 65 10)) (nofZ 0) = false ->
  exists tb, grid_table K H tb /\ match draw tb with
    | Ok _ => exists r, hk km1 stackO draw rf pre H K Vp w1 w2 w3 layer stack = Ok r /\ hr_stk r = tb
    | Err e => hk km1 stackO draw rf pre H K Vp w1 w2 w3 layer stack = Err e end.
Proof.
  intros HS HH HK H0 Hl HF HT HV. rewrite hk_eq. rewrite HS. cbn [bind getitem nth_error].
  unfold getitem. rewrite H0. cbn [bind]. cbn zeta.
  set (axis := taxis _ _ _).
  assert (Ha : axis <> []) by (apply taxis_nonempty; exact Hl).
  assert (La : length axis = length (tr_data tr0)) by apply taxis_length.
  match goal with |- context [mapM (mkrow_of ?f)] => destruct (grid_all_Ok f K H HK HH) as (rows & ib & E1 & E2 & _) end.
  { intros k h _ _. apply sumM_all_Ok. intros tr Htr. unfold hk_c. apply contrib_reads; [exact Ha| |apply hk_times_Ok; exact HV].
    rewrite La. unfold hk_data. destruct stack as [[|]|]; cbn [dflt].
    - apply HT. reflexivity.
    - apply HF; [congruence|exact Htr].
    - apply HF; [congruence|exact Htr]. }
  exists rows. split; [exact (grid_table_of _ _ _ _ E1)|]. rewrite E1. cbn [bind]. rewrite E2. cbn [bind]. destruct (draw rows); cbn [bind]; [|reflexivity]. eexists. split; reflexivity.
Qed.

Theorem C77_hkSynth_completes (N : Num) draw (data time : list N) p pk H K Vp w1 w2 w3 layer :
  H <> [] -> K <> [] ->
  time <> [] -> length time <= length data ->
  neqb (dflt Vp (nlit 65 10)) (nofZ 0) = false ->
  exists tb, grid_table K H tb /\ match draw tb with
    | Ok _ => exists r, hkSynth draw data time p pk H K Vp w1 w2 w3 layer = Ok r /\ hs_stk r = tb
    | Err e => hkSynth draw data time p pk H K Vp w1 w2 w3 layer = Err e end.
Proof.
  intros HH HK Ha Hl HV. rewrite hkSynth_eq. cbn zeta.
  match goal with |- context [mapM (mkrow_of ?f)] => destruct (grid_all_Ok f K H HK HH) as (rows & ib & E1 & E2 & _) end.
  { intros k h _ _. rewrite hkSynth_times_eq.
    destruct (contrib_reads (dflt w1 (nlit 6 10)) (dflt w2 (nlit 3 10)) (dflt w3 (nlit 1 10)) data time
        (hk_times (dflt Vp (nlit 65 10)) p pk h k) Ha Hl (hk_times_Ok _ _ _ _ _ HV)) as [v E].
    unfold one. rewrite E. cbn [bind]. eauto. }
  exists rows. split; [exact (grid_table_of _ _ _ _ E1)|]. rewrite E1. cbn [bind]. rewrite E2. cbn [bind]. destruct (draw rows); cbn [bind]; [|reflexivity]. eexists. split; reflexivity.
Qed.

(** [hkSeq] needs the Moho velocity and weights (their documented defaults are
    never set, C10), and every read trace at least as long as the first sediment
    trace (C18). *)
Theorem C77_hkSeq_completes (N : Num) km1 stackO draw (rfS rfM : stream N) pre
    HS KS VS a b c HM KM VM d e f stack st1 SS st2 SM tr0 :
  stackO rfS = Ok (st1 :: SS) -> stackO rfM = Ok (st2 :: SM) ->
  HS <> [] -> KS <> [] -> HM <> [] -> KM <> [] -> rfM <> [] ->
  nth_error rfS 0 = Some tr0 -> 1 <= length (tr_data tr0) ->
  (stack <> Some true -> forall tr, In tr rfS \/ In tr rfM -> length (tr_data tr0) <= length (tr_data tr)) ->
  (stack = Some true -> length (tr_data tr0) <= length (tr_data st1) /\ length (tr_data tr0) <= length (tr_data st2)) ->
  neqb (dflt VS (nlit 30 10)) (nofZ 0) = false -> neqb VM (nofZ 0) = false ->
  let call := hkSeq km1 stackO draw rfS rfM pre HS KS VS a b c HM KM (Some VM) (Some d) (Some e) (Some f) stack in
  exists tbS, grid_table KS HS tbS /\ match draw tbS with
    | Err e => call = Err e
    | Ok _ => exists tbM, grid_table KM HM tbM /\ match draw tbM with
        | Err e => call = Err e
        | Ok _ => exists r, call = Ok r /\ sr_stkSed r = tbS /\ sr_stkMoho r = tbM end end.
Proof.
  intros H1 H2 HHS HKS HHM HKM HrM H0 Hl HF HT HV HVM call. unfold call. rewrite hkSeq_eq. cbn zeta. rewrite H1. cbn [bind getitem nth_error].
  rewrite H2. cbn [bind getitem nth_error]. rewrite (proj2 (getitem_Ok _ _ _) H0). cbn [bind].
  set (axis := taxis _ _ _).
  assert (Ha : axis <> []) by (apply taxis_nonempty; exact Hl).
  assert (La : length axis = length (tr_data tr0)) by apply taxis_length.
  match goal with |- context [mapM (mkrow_of ?f)] => destruct (grid_all_Ok f KS HS HKS HHS) as (rows & ib & E1 & E2 & E3) end.
  { intros k h _ _. apply lastv_all_Ok; [destruct rfS; discriminate|]. intros tr Htr. unfold seqSed_c.
    rewrite hkSeqSed_times_eq. apply contrib_reads; [exact Ha| |apply hk_times_Ok; exact HV].
    rewrite La. unfold hk_data. destruct stack as [[|]|]; cbn [dflt].
    - apply HT. reflexivity.
    - apply HF; [congruence|left; exact Htr].
    - apply HF; [congruence|left; exact Htr]. }
  exists rows. split; [exact (grid_table_of _ _ _ _ E1)|]. rewrite E1. cbn [bind]. rewrite E2. cbn [bind]. destruct (draw rows); cbn [bind]; [|reflexivity].
  unfold getitem. destruct (nth_error rows ib) as [bm|]; [|congruence]. cbn [bind].
  match goal with |- context [mapM (mkrow_of ?f)] => destruct (grid_all_Ok f KM HM HKM HHM) as (rows' & ib' & E1' & E2' & E3') end.
  { intros k h _ _. apply lastv_all_Ok; [exact HrM|]. intros tr Htr. unfold seqMoho_c.
    rewrite contribO_Some. apply contrib_reads; [exact Ha| |apply hkSeqMoho_times_Ok; [exact HV|exact HVM]].
    rewrite La. unfold hk_data. destruct stack as [[|]|]; cbn [dflt].
    - apply HT. reflexivity.
    - apply HF; [congruence|right; exact Htr].
    - apply HF; [congruence|right; exact Htr]. }
  exists (map clip_row rows'). split; [exact (grid_table_clip _ _ _ (grid_table_of _ _ _ _ E1'))|]. rewrite E1'. cbn [bind]. rewrite E2'. cbn [bind]. destruct (draw (map clip_row rows')); cbn [bind]; [|reflexivity]. eexists. repeat split.
Qed.

Theorem C77_hkSeqSynth_completes (N : Num) draw (dS dM time : list N) p pk HS KS VS a b c HM KM VM d e f :
  HS <> [] -> KS <> [] -> HM <> [] -> KM <> [] ->
  time <> [] -> length time <= length dS -> length time <= length dM ->
  neqb (dflt VS (nlit 30 10)) (nofZ 0) = false -> neqb VM (nofZ 0) = false ->
  let call := hkSeqSynth draw dS dM time p pk HS KS VS a b c HM KM (Some VM) (Some d) (Some e) (Some f) in
  exists tbS, grid_table KS HS tbS /\ match draw tbS with
    | Err e => call = Err e
    | Ok _ => exists tbM, grid_table KM HM tbM /\ match draw tbM with
        | Err e => call = Err e
        | Ok _ => exists r, call = Ok r /\ ss_stkSed r = tbS /\ ss_stkMoho r = tbM end end.
Proof.
  intros HHS HKS HHM HKM Ha HlS HlM HV HVM call. unfold call. rewrite hkSeqSynth_eq. cbn zeta.
  match goal with |- context [mapM (mkrow_of ?f)] => destruct (grid_all_Ok f KS HS HKS HHS) as (rows & ib & E1 & E2 & E3) end.
  { intros k h _ _. rewrite hkSeqSynthSed_times_eq.
    destruct (contrib_reads (dflt a (nlit 6 10)) (dflt b (nlit 3 10)) (dflt c (nlit 1 10)) dS time
        (hk_times (dflt VS (nlit 30 10)) p pk h k) Ha HlS (hk_times_Ok _ _ _ _ _ HV)) as [v E].
    unfold one. rewrite E. cbn [bind]. eauto. }
  exists rows. split; [exact (grid_table_of _ _ _ _ E1)|]. rewrite E1. cbn [bind]. rewrite E2. cbn [bind]. destruct (draw rows); cbn [bind]; [|reflexivity].
  unfold getitem. destruct (nth_error rows ib) as [bm|]; [|congruence]. cbn [bind].
  match goal with |- context [mapM (mkrow_of ?f)] => destruct (grid_all_Ok f KM HM HKM HHM) as (rows' & ib' & E1' & E2' & E3') end.
  { intros k h _ _. rewrite hkSeqSynthMoho_times_eq, contribO_Some.
    destruct (contrib_reads d e f dM time
        (hkSeqMoho_times (rH bm) (rK bm) (dflt VS (nlit 30 10)) (Some VM) p pk h k) Ha HlM (hkSeqMoho_times_Ok _ _ _ _ _ _ _ _ HV HVM)) as [v E].
    unfold one. rewrite E. cbn [bind]. eauto. }
  exists (map clip_row rows'). split; [exact (grid_table_clip _ _ _ (grid_table_of _ _ _ _ E1'))|]. rewrite E1'. cbn [bind]. rewrite E2'. cbn [bind]. destruct (draw (map clip_row rows')); cbn [bind]; [|reflexivity]. eexists. repeat split.
Qed.

(** [hkYu] needs VsSed and the three weights (C10); a numpy [tlag] divides by a
    zero velocity without raising. *)
Theorem C77_hkYu_completes (N : Num) draw (flt time : list N) tlag tk p pk H K VM VS vs a b c :
  H <> [] -> K <> [] ->
  time <> [] -> length time <= length flt ->
  neqb (dflt VM (nlit 65 10)) (nofZ 0) = false ->
  (tk = PyF -> neqb vs (nofZ 0) = false /\ neqb (dflt VS (nlit 25 10)) (nofZ 0) = false) ->
  exists tb, grid_table K H tb /\ match draw tb with
    | Ok _ => exists r, hkYu draw flt time tlag tk p pk H K VM VS (Some vs) (Some a) (Some b) (Some c) = Ok r /\ yr_stk r = tb
    | Err e => hkYu draw flt time tlag tk p pk H K VM VS (Some vs) (Some a) (Some b) (Some c) = Err e end.
Proof.
  intros HH HK Ha Hl HV HT. rewrite hkYu_eq. cbn zeta. cbn [need bind].
  assert (G : forall x y : N, (tk = PyF -> neqb y (nofZ 0) = false) -> exists q, kdiv tk x y = Ok q).
  { intros x y Hy. unfold kdiv. destruct tk; [rewrite Hy by reflexivity|]; eauto. }
  match goal with |- context [kdiv tk ?x vs] => destruct (G x vs) as [q1 Q1]; [tauto|]; rewrite Q1; cbn [bind] end.
  match goal with |- context [kdiv tk ?x ?y] => destruct (G x y) as [q2 Q2]; [tauto|]; rewrite Q2; cbn [bind] end.
  match goal with |- context [mapM (mkrow_of ?f)] => destruct (grid_all_Ok f K H HK HH) as (rows & ib & E1 & E2 & _) end.
  { intros k h _ _. rewrite contribO_Some.
    destruct (contrib_reads a b c flt time
        (hkYu_times (dflt VM (nlit 65 10)) p pk tlag (nsub q1 q2) h k) Ha Hl (hkYu_times_Ok _ _ _ _ _ _ _ HV)) as [v E].
    unfold one. rewrite E. cbn [bind]. eauto. }
  exists rows. split; [exact (grid_table_of _ _ _ _ E1)|]. rewrite E1. cbn [bind]. rewrite E2. cbn [bind]. destruct (draw rows); cbn [bind]; [|reflexivity]. eexists. split; reflexivity.
Qed.
