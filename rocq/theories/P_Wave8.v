(** * P_Wave8: waveform fitting on another grid, with other weights, in another amplitude
      unit (C114, C115, C116). *)

From Coq Require Import Reals Lra Permutation.
From Verif Require Import Base Num NumPy Spec HkModel HkFacts2 PlotModel PoolModel PoolProofs P_Pool WaveModel WaveProofs P_Wave P_Wave2 P_Wave3 P_Wave4 P_Wave5 P_Wave6.

Lemma F2_l {X Y} (P : X -> Y -> Prop) l1 l2 : Forall2 P l1 l2 -> forall a, In a l1 -> exists b, In b l2 /\ P a b.
Proof.
  intro F. induction F as [|a b l1 l2 Hab F IH]; intros a' []; [subst; exists b; split; [left; reflexivity|exact Hab]|].
  destruct (IH a' H) as (b' & ? & ?). exists b'. split; [right|]; assumption.
Qed.
Lemma F2_r {X Y} (P : X -> Y -> Prop) l1 l2 : Forall2 P l1 l2 -> forall b, In b l2 -> exists a, In a l1 /\ P a b.
Proof.
  intro F. induction F as [|a b l1 l2 Hab F IH]; intros b' []; [subst; exists a; split; [left; reflexivity|exact Hab]|].
  destruct (IH b' H) as (a' & ? & ?). exists a'. split; [right|]; assumption.
Qed.

(** ** Two runs on the same records *)
(** Both tables are filled by one and the same evaluation of grid points. *)
Lemma same_nodes {N : Num} stackR synO pgO rf po HS VpS VpC rp ga Ks Hs a b c Ks' Hs' a' b' c' (wf wf' : @wfit N) :
  WaveformFitting stackR synO pgO rf po HS VpS VpC rp Ks Hs ga a b c = Ok wf ->
  WaveformFitting stackR synO pgO rf po HS VpS VpC rp Ks' Hs' ga a' b' c' = Ok wf' ->
  exists ev T T', (forall h k s, ev h k = Ok s -> so_H s = h /\ so_K s = k) /\
    mapM (fun kh => ev (snd kh) (fst kh)) (list_prod Ks Hs) = Ok T /\ rank a b c T = Ok (wf_sols wf) /\ best_rows (wf_sols wf) = Ok (wf_printed wf) /\
    mapM (fun kh => ev (snd kh) (fst kh)) (list_prod Ks' Hs') = Ok T' /\ rank a' b' c' T' = Ok (wf_sols wf') /\ best_rows (wf_sols wf') = Ok (wf_printed wf').
Proof.
  intros H H'. destruct (wf_inv _ _ _ _ _ _ _ _ _ _ _ _ _ _ _ _ H) as (P & T & HP & _ & _ & HT & HR & HB & _).
  destruct (wf_inv _ _ _ _ _ _ _ _ _ _ _ _ _ _ _ _ H') as (P' & T' & HP' & _ & _ & HT' & HR' & HB' & _).
  exists (eval_node synO pgO P), T, T'. split; [intros h k s E; apply eval_node_HK in E; exact E|].
  split; [exact HT|]. split; [exact HR|]. split; [exact HB|]. split; [|split; assumption]. rewrite <- HT'.
  destruct (WaveformPara_inv _ _ _ _ _ _ _ _ _ _ _ HP) as (tr0 & rf1 & st0 & SR & t0 & ts & s & e & E1 & E2 & E3 & E4 & E5).
  destruct (WaveformPara_inv _ _ _ _ _ _ _ _ _ _ _ HP') as (tr0' & rf1' & st0' & SR' & t0' & ts' & s' & e' & E1' & E2' & E3' & E4' & E5').
  subst rf. injection E1' as <- <-. rewrite E2 in E2'. injection E2' as <- <-. rewrite E3 in E3'. injection E3' as <- <-. rewrite E4 in E4'. injection E4' as <- <-.
  injection E5 as ->. injection E5' as ->. reflexivity.
Qed.
Lemma strips {N : Num} (a b c : N) T W r : rank a b c T = Ok W -> In r W -> In (strip r) T.
Proof. intros H Hr. rewrite <- (strip_rank _ _ _ _ _ H). apply in_map. exact Hr. Qed.
Lemma table_in {N : Num} (ev : N -> N -> res (@sol N)) Ks Hs T s :
  (forall h k s, ev h k = Ok s -> so_H s = h /\ so_K s = k) ->
  mapM (fun kh => ev (snd kh) (fst kh)) (list_prod Ks Hs) = Ok T -> In s T <-> (In (so_K s) Ks /\ In (so_H s) Hs /\ ev (so_H s) (so_K s) = Ok s).
Proof.
  intros Hev HT. apply mapM_Ok in HT. split.
  - intro Is. destruct (F2_r _ _ _ HT s Is) as ([k h] & I & E). cbn [fst snd] in E. destruct (Hev _ _ _ E) as [-> ->].
    apply in_prod_iff in I as [I1 I2]. auto.
  - intros (I1 & I2 & E). destruct (F2_l _ _ _ HT (so_K s, so_H s)) as (s' & I & E'); [apply in_prod; assumption|].
    cbn [fst snd] in E'. congruence.
Qed.

(** ** C114 *)
(** C114: the three criteria of a model depend neither on the rest of the grid nor on the
    weights (any arithmetic). *)
Theorem C114_same_criteria {N : Num} stackR synO pgO rf po HS VpS VpC rp ga Ks Hs a b c Ks' Hs' a' b' c' (wf wf' : @wfit N) r r' :
  WaveformFitting stackR synO pgO rf po HS VpS VpC rp Ks Hs ga a b c = Ok wf ->
  WaveformFitting stackR synO pgO rf po HS VpS VpC rp Ks' Hs' ga a' b' c' = Ok wf' ->
  In r (wf_sols wf) -> In r' (wf_sols wf') -> sr_H r = sr_H r' -> sr_K r = sr_K r' ->
  sr_corr r = sr_corr r' /\ sr_rmse r = sr_rmse r' /\ sr_pg r = sr_pg r'.
Proof.
  intros H H' Hr Hr' EH EK. destruct (same_nodes _ _ _ _ _ _ _ _ _ _ _ _ _ _ _ _ _ _ _ _ _ _ H H') as (ev & T & T' & Hev & HT & HR & _ & HT' & HR' & _).
  apply (strips _ _ _ _ _ _ HR) in Hr. apply (strips _ _ _ _ _ _ HR') in Hr'.
  apply (table_in _ _ _ _ _ Hev HT) in Hr as (_ & _ & E). apply (table_in _ _ _ _ _ Hev HT') in Hr' as (_ & _ & E').
  unfold strip in E, E'. cbn [so_H so_K] in E, E'. rewrite EH, EK in E. rewrite E in E'. inversion E'. auto.
Qed.
(** C114: a larger grid never worsens the best correlation, RMSE or PG; a smaller one
    raises no new error. *)
Theorem C114_refinement stackR synO pgO rf po HS VpS VpC rp ga Ks Hs Ks' Hs' (a b c a' b' c' : R) (wf' : @wfit RN) :
  incl Ks Ks' -> incl Hs Hs' -> Ks <> [] -> Hs <> [] ->
  WaveformFitting stackR synO pgO rf po HS VpS VpC rp Ks' Hs' ga a' b' c' = Ok wf' ->
  exists wf, WaveformFitting stackR synO pgO rf po HS VpS VpC rp Ks Hs ga a b c = Ok wf /\
    (sr_corr (b_corr (wf_printed wf)) <= sr_corr (b_corr (wf_printed wf')))%R /\
    (sr_rmse (b_rmse (wf_printed wf')) <= sr_rmse (b_rmse (wf_printed wf)))%R /\
    (sr_pg (b_pg (wf_printed wf)) <= sr_pg (b_pg (wf_printed wf')))%R.
Proof.
  intros IK IH NK NH H'. destruct (wf_inv _ _ _ _ _ _ _ _ _ _ _ _ _ _ _ _ H') as (P & T' & HP & _ & _ & HT' & HR' & HB' & _).
  assert (Ex : exists wf, WaveformFitting stackR synO pgO rf po HS VpS VpC rp Ks Hs ga a b c = Ok wf).
  { destruct (WaveformPara_inv _ _ _ _ _ _ _ _ _ _ _ HP) as (tr0 & rf1 & st0 & SR & t0 & ts & s & e & E1 & E2 & E3 & E4 & E5).
    rewrite WaveformFitting_eq. unfold WaveformPara. rewrite E1. cbn [getitem nth_error bind]. rewrite <- E1, E2. cbn [bind getitem nth_error]. rewrite E3. cbn [bind getitem nth_error]. rewrite E4. cbn [bind fst snd getitem nth_error].
    injection E5 as ->.
    match goal with |- exists wf, (T <- mapM ?f ?l ;; _) = _ => assert (M : exists T, mapM f l = Ok T) end.
    { apply mapM_total. intros [k h] I. apply in_prod_iff in I as [I1 I2]. apply mapM_Ok in HT'.
      destruct (F2_l _ _ _ HT' (k, h)) as (q & _ & Eq); [apply in_prod; auto|]. exists q. exact Eq. }
    destruct M as [T HT]. rewrite HT. cbn [bind].
    assert (NT : T <> []).
    { intros ->. apply mapM_length in HT. rewrite prod_length in HT. destruct Ks; [congruence|]. destruct Hs; [congruence|]. discriminate. }
    destruct (is_max_ex so_corr T NT) as [mc M1]. destruct (is_max_ex so_rmse T NT) as [mr M2]. destruct (is_max_ex so_pg T NT) as [mp M3].
    assert (HR : @rank RN a b c T = Ok (map (with_gof a b c mc mr mp) T)) by (apply rank_spec; eauto 8).
    rewrite HR. cbn [bind]. destruct (best_rows_ok (map (with_gof a b c mc mr mp) T)) as [bm Hb]; [intro E; apply map_eq_nil in E; contradiction|].
    rewrite Hb. cbn [bind]. eexists. reflexivity. }
  destruct Ex as [wf H]. exists wf. split; [exact H|].
  destruct (same_nodes _ _ _ _ _ _ _ _ _ _ _ _ _ _ _ _ _ _ _ _ _ _ H H') as (ev & T & T2 & Hev & HT & HR & HB & HT2 & HR2 & _).
  assert (Sub : forall r, In r (wf_sols wf) -> exists r', In r' (wf_sols wf') /\ strip r' = strip r).
  { intros r Hr. apply (strips _ _ _ _ _ _ HR) in Hr. apply (table_in _ _ _ _ _ Hev HT) in Hr as (I1 & I2 & E).
    assert (I : In (strip r) T2) by (apply (table_in _ _ _ _ _ Hev HT2); auto).
    rewrite <- (strip_rank _ _ _ _ _ HR2) in I. apply in_map_iff in I as (r' & E' & I'). exists r'. auto. }
  apply best_rows_spec in HB as ((i & Hi & _) & (j & Hj & _) & (k & Hk & _) & _).
  apply best_rows_spec in HB' as ((_ & _ & A1 & _) & (_ & _ & A2 & _) & (_ & _ & A3 & _) & _).
  apply nth_error_In in Hi, Hj, Hk.
  destruct (Sub _ Hi) as (r1 & I1 & S1). destruct (Sub _ Hj) as (r2 & I2 & S2). destruct (Sub _ Hk) as (r3 & I3 & S3).
  specialize (A1 _ I1). specialize (A2 _ I2). specialize (A3 _ I3).
  inversion S1 as [[Q1 Q2 Q3 Q4 Q5]]. inversion S2 as [[U1 U2 U3 U4 U5]]. inversion S3 as [[V1 V2 V3 V4 V5]].
  change (F RN) with R in *. rewrite Q1 in A1. rewrite U2 in A2. rewrite V3 in A3. repeat split; lra.
Qed.
(** C114: the weights only enter GoF: the criteria and the models printed for the
    correlation, the RMSE and the PG are the same (any arithmetic). *)
Theorem C114_weights {N : Num} stackR synO pgO rf po HS VpS VpC rp ga Ks Hs a b c a' b' c' (wf wf' : @wfit N) :
  WaveformFitting stackR synO pgO rf po HS VpS VpC rp Ks Hs ga a b c = Ok wf ->
  WaveformFitting stackR synO pgO rf po HS VpS VpC rp Ks Hs ga a' b' c' = Ok wf' ->
  map strip (wf_sols wf) = map strip (wf_sols wf') /\
  strip (b_corr (wf_printed wf)) = strip (b_corr (wf_printed wf')) /\ strip (b_rmse (wf_printed wf)) = strip (b_rmse (wf_printed wf')) /\
  strip (b_pg (wf_printed wf)) = strip (b_pg (wf_printed wf')).
Proof.
  intros H H'. destruct (same_nodes _ _ _ _ _ _ _ _ _ _ _ _ _ _ _ _ _ _ _ _ _ _ H H') as (ev & T & T' & Hev & HT & HR & HB & HT' & HR' & HB').
  assert (T' = T) by congruence. subst T'. pose proof (strip_rank _ _ _ _ _ HR) as S. pose proof (strip_rank _ _ _ _ _ HR') as S'.
  assert (ES : map strip (wf_sols wf) = map strip (wf_sols wf')) by congruence. split; [exact ES|].
  assert (EM : forall f : @sol N -> N, map (fun r => f (strip r)) (wf_sols wf) = map (fun r => f (strip r)) (wf_sols wf')).
  { intro f. pose proof (f_equal (map f) ES) as E. rewrite !map_map in E. exact E. }
  assert (EG : forall i r r', getitem (wf_sols wf) i = Ok r -> getitem (wf_sols wf') i = Ok r' -> strip r = strip r').
  { intros i r r' G G'. apply getitem_Ok in G, G'. apply (map_nth_error strip) in G, G'. rewrite ES in G. congruence. }
  unfold best_rows in HB, HB'.
  pose proof (EM so_corr) as E1. pose proof (EM so_rmse) as E2. pose proof (EM so_pg) as E3. cbn [strip so_corr so_rmse so_pg] in E1, E2, E3.
  change (map (fun r => sr_corr r) (wf_sols wf)) with (map sr_corr (wf_sols wf)) in E1. change (map (fun r => sr_corr r) (wf_sols wf')) with (map sr_corr (wf_sols wf')) in E1.
  change (map (fun r => sr_rmse r) (wf_sols wf)) with (map sr_rmse (wf_sols wf)) in E2. change (map (fun r => sr_rmse r) (wf_sols wf')) with (map sr_rmse (wf_sols wf')) in E2.
  change (map (fun r => sr_pg r) (wf_sols wf)) with (map sr_pg (wf_sols wf)) in E3. change (map (fun r => sr_pg r) (wf_sols wf')) with (map sr_pg (wf_sols wf')) in E3.
  rewrite E1, E2, E3 in HB.
  destruct (argmax (map sr_corr (wf_sols wf'))) as [i|]; [|discriminate]. cbn [bind] in HB, HB'.
  apply bind_Ok_inv in HB as (x & X & HB). apply bind_Ok_inv in HB' as (x' & X' & HB').
  destruct (argmin (map sr_rmse (wf_sols wf'))) as [j|]; [|discriminate]. cbn [bind] in HB, HB'.
  apply bind_Ok_inv in HB as (y & Y & HB). apply bind_Ok_inv in HB' as (y' & Y' & HB').
  destruct (argmax (map sr_pg (wf_sols wf'))) as [k|]; [|discriminate]. cbn [bind] in HB, HB'.
  apply bind_Ok_inv in HB as (z & Z & HB). apply bind_Ok_inv in HB' as (z' & Z' & HB').
  apply bind_Ok_inv in HB as (u & _ & HB). apply bind_Ok_inv in HB as (v & _ & HB). inversion HB as [EB].
  apply bind_Ok_inv in HB' as (u' & _ & HB'). apply bind_Ok_inv in HB' as (v' & _ & HB'). inversion HB' as [EB'].
  cbn [b_corr b_rmse b_pg]. repeat split; eapply EG; eassumption.
Qed.

(** ** C115 *)
(** C115: as long as the added models stay within the range of the three criteria seen on
    the smaller grid, the goodness of fit of every model stays the same, and its best
    value does not fall. *)
Theorem C115_within_range stackR synO pgO rf po HS VpS VpC rp ga Ks Hs Ks' Hs' (a b c : R) (wf wf' : @wfit RN) :
  incl Ks Ks' -> incl Hs Hs' ->
  WaveformFitting stackR synO pgO rf po HS VpS VpC rp Ks Hs ga a b c = Ok wf ->
  WaveformFitting stackR synO pgO rf po HS VpS VpC rp Ks' Hs' ga a b c = Ok wf' ->
  (forall r', In r' (wf_sols wf') ->
     (exists r, In r (wf_sols wf) /\ sr_corr r' <= sr_corr r)%R /\ (exists r, In r (wf_sols wf) /\ sr_rmse r' <= sr_rmse r)%R /\
     (exists r, In r (wf_sols wf) /\ sr_pg r' <= sr_pg r)%R) ->
  (forall r, In r (wf_sols wf) -> In r (wf_sols wf')) /\
  (sr_gof (b_gof (wf_printed wf)) <= sr_gof (b_gof (wf_printed wf')))%R.
Proof.
  intros IK IH H H' Hrange. destruct (same_nodes _ _ _ _ _ _ _ _ _ _ _ _ _ _ _ _ _ _ _ _ _ _ H H') as (ev & T & T' & Hev & HT & HR & HB & HT' & HR' & HB').
  assert (IT : incl T T').
  { intros s Is. apply (table_in _ _ _ _ _ Hev HT) in Is as (I1 & I2 & E). apply (table_in _ _ _ _ _ Hev HT'). auto. }
  apply rank_spec in HR as (mc & mr & mp & M1 & M2 & M3 & EW). apply rank_spec in HR' as (mc' & mr' & mp' & M1' & M2' & M3' & EW').
  assert (Same : forall (f : @sol RN -> R) (g : @srow RN -> R) m m', (forall s x y z, g (with_gof a b c x y z s) = f s) ->
     (forall r', In r' (wf_sols wf') -> exists r, In r (wf_sols wf) /\ g r' <= g r)%R -> is_max f T m -> is_max f T' m' -> m' = m).
  { intros f g m m' Eg Hr ((x & Ix & Ex) & Hm) ((y & Iy & Ey) & Hm'). apply Rle_antisym; [|rewrite <- Ex; apply Hm'; apply IT; exact Ix].
    destruct (Hr (with_gof a b c mc' mr' mp' y)) as (r & Ir & Lr); [rewrite EW'; apply in_map; exact Iy|].
    rewrite EW in Ir. apply in_map_iff in Ir as (q & <- & Iq). rewrite !Eg, Ey in Lr. specialize (Hm q Iq). lra. }
  assert (mc' = mc) by (apply (Same so_corr sr_corr); [reflexivity|intros r' I; apply (Hrange r' I)|exact M1|exact M1']).
  assert (mr' = mr) by (apply (Same so_rmse sr_rmse); [reflexivity|intros r' I; apply (Hrange r' I)|exact M2|exact M2']).
  assert (mp' = mp) by (apply (Same so_pg sr_pg); [reflexivity|intros r' I; apply (Hrange r' I)|exact M3|exact M3']).
  subst mc' mr' mp'.
  assert (Inc : forall r, In r (wf_sols wf) -> In r (wf_sols wf')).
  { intros r Ir. rewrite EW in Ir. apply in_map_iff in Ir as (q & <- & Iq). rewrite EW'. apply in_map. apply IT. exact Iq. }
  split; [exact Inc|]. apply best_rows_spec in HB as (_ & _ & _ & (i & Hi & _)). apply best_rows_spec in HB' as (_ & _ & _ & (_ & _ & A & _)).
  apply A. apply Inc. eapply nth_error_In. exact Hi.
Qed.

(** C115 is refuted: a model added to the grid changes which of two others is the better
    one overall.  Data 1 2 3 5 4 in the window; at Vp/Vs 2, 30 km the synthetic has the
    better shape and the larger misfit, at Vp/Vs 3, 30 km the smaller misfit.  Searching
    30 km only, the second is the best overall fit; with 40 km added, whose synthetics
    are far off, the first is. *)
Definition far := syn4 [3;6;9;15;12;0]%Z [1;2;3;4;0;0]%Z [90;0;0;0;0;0]%Z [90;0;0;0;0;0]%Z.
Definition ex_fit_on (syn : list B64 -> list B64 -> list B64 -> list B64 -> B64 -> B64 -> nat -> B64 -> B64 -> res (list B64)) (d : list Z) (w : Z * Z * Z) (Hs : list Z) :=
  WaveformFitting ex_stack syn pg1 [ex_trace d] (z2 0) (z2 1) (z2 2) (z2 6) (z2 0) [z2 2; z2 3] (map z2 Hs) (z2 1)
    (z2 (fst (fst w))) (z2 (snd (fst w))) (z2 (snd w)).
Theorem C115_refuted : exists wf wf' r2 r3 r2' r3',
  ex_fit_on far [1;2;3;5;4;0]%Z (1, 1, 0)%Z [30]%Z = Ok wf /\ ex_fit_on far [1;2;3;5;4;0]%Z (1, 1, 0)%Z [30; 40]%Z = Ok wf' /\
  (In r2 (wf_sols wf) /\ In r3 (wf_sols wf) /\ In r2' (wf_sols wf') /\ In r3' (wf_sols wf')) /\
  (rowis r2 30 2 && rowis r2' 30 2 && rowis r3 30 3 && rowis r3' 30 3 = true) /\
  @nltb B64 (sr_gof r2) (sr_gof r3) = true /\ @nltb B64 (sr_gof r3') (sr_gof r2') = true /\
  rowis (b_gof (wf_printed wf)) 30 3 = true /\ rowis (b_gof (wf_printed wf')) 30 2 = true.
Proof.
  assert (E : chk (wf <- ex_fit_on far [1;2;3;5;4;0]%Z (1, 1, 0)%Z [30]%Z ;; wf' <- ex_fit_on far [1;2;3;5;4;0]%Z (1, 1, 0)%Z [30; 40]%Z ;; Ok (wf, wf'))
    (fun x => let '(wf, wf') := x in
      match wf_sols wf, wf_sols wf' with
      | [r2; r3], [r2'; _; r3'; _] => rowis r2 30 2 && rowis r2' 30 2 && rowis r3 30 3 && rowis r3' 30 3 &&
          (@nltb B64 (sr_gof r2) (sr_gof r3) && @nltb B64 (sr_gof r3') (sr_gof r2') && rowis (b_gof (wf_printed wf)) 30 3 && rowis (b_gof (wf_printed wf')) 30 2)
      | _, _ => false end) = true) by (vm_compute; reflexivity).
  apply chk_true in E as ([wf wf'] & E & Hb).
  apply bind_Ok_inv in E as (wf0 & E1 & E). apply bind_Ok_inv in E as (wf0' & E2 & E). injection E as <- <-.
  destruct (wf_sols wf0) as [|r2 [|r3 [|]]] eqn:S; try discriminate Hb. destruct (wf_sols wf0') as [|r2' [|x [|r3' [|y [|]]]]] eqn:S'; try discriminate Hb.
  exists wf0, wf0', r2, r3, r2', r3'. apply andb_true_iff in Hb as [H1 Hb]. rewrite !andb_true_iff in Hb. destruct Hb as (((H2 & H3) & H4) & H5).
  split; [exact E1|]. split; [exact E2|]. split; [rewrite S, S'; cbn [In]; tauto|]. auto.
Qed.

(** ** C116 *)
Local Open Scope R_scope.
Lemma slice_map {A B} (f : A -> B) l s e : slice (map f l) s e = map f (slice l s e).
Proof. unfold slice. rewrite skipn_map, firstn_map. reflexivity. Qed.
Lemma rsum_scale u l : Rsum (map (Rmult u) l) = u * Rsum l.
Proof. induction l as [|x l IH]; cbn; [ring|]. rewrite IH. ring. Qed.
Lemma mean_scale (u : R) (x : list R) : @npmean RN (map (Rmult u) x) = u * @npmean RN x.
Proof. unfold npmean. cbn [nsum ndiv nofZ RN]. change (F RN) with R. rewrite rsum_scale, map_length. unfold Rdiv. ring. Qed.
Lemma centred_scale (u : R) (x : list R) : @centred RN (map (Rmult u) x) = map (Rmult u) (@centred RN x).
Proof. unfold centred. change (F RN) with R. rewrite mean_scale, !map_map. apply map_ext. intro a. cbn [nsub RN]. change (F RN) with R. ring. Qed.
Lemma zip_scale_l (u : R) (x y : list R) : Rsum (@zipN RN Rmult (map (Rmult u) x) y) = u * Rsum (@zipN RN Rmult x y).
Proof.
  unfold zipN. revert y. induction x as [|a x IH]; intros [|b y]; cbn [map combine Rsum fst snd]; try (cbn; ring).
  change (F RN) with R in *. specialize (IH y). cbn [map combine Rsum fst snd] in *. 
  rewrite IH. ring.
Qed.
Lemma zip_scale_r (u : R) (x y : list R) : Rsum (@zipN RN Rmult x (map (Rmult u) y)) = u * Rsum (@zipN RN Rmult x y).
Proof.
  unfold zipN. revert y. induction x as [|a x IH]; intros [|b y]; cbn [map combine Rsum fst snd]; try (cbn; ring).
  change (F RN) with R in *. specialize (IH y). cbn [map combine Rsum fst snd] in *. rewrite IH. ring.
Qed.
Lemma cov_scale (u : R) (x y : list R) : @cov RN (map (Rmult u) x) y = u * @cov RN x y.
Proof.
  unfold cov. cbn [nsum nmul ndiv nofZ RN]. change (F RN) with R. rewrite centred_scale, map_length.
  rewrite (zip_scale_l u (@centred RN x) (@centred RN y)). ring.
Qed.
Lemma cov_scale2 (u : R) (x : list R) : @cov RN (map (Rmult u) x) (map (Rmult u) x) = u * u * @cov RN x x.
Proof.
  unfold cov. cbn [nsum nmul ndiv nofZ RN]. change (F RN) with R. rewrite centred_scale, map_length.
  rewrite (zip_scale_l u (@centred RN x)), (zip_scale_r u (@centred RN x) (@centred RN x)). ring.
Qed.
Lemma corr_scale (u : R) (x y : list R) : 0 < u -> @corrcoef RN (map (Rmult u) x) y = @corrcoef RN x y.
Proof.
  intro Hu. unfold corrcoef. change (F RN) with R. rewrite map_length. destruct (length x =? length y)%nat; [|reflexivity].
  do 2 f_equal. rewrite cov_scale, cov_scale2. cbn [ndiv nroot RN]. change (F RN) with R.
  f_equal. rewrite sqrt_mult_alt by nra. rewrite sqrt_square by lra. unfold Rdiv. rewrite Rinv_mult.
  transitivity ((u * / u) * (@cov RN x y * / sqrt (@cov RN x x))); [change (F RN) with R; ring|]. rewrite Rinv_r by lra. change (F RN) with R. ring.
Qed.
Lemma signs_scale (u : R) (x : list R) : 0 < u -> @signs RN (map (Rmult u) x) = @signs RN x.
Proof.
  intro Hu. unfold signs. rewrite map_map. apply map_ext. intro a. cbn [nabs neqb ndiv nofZ RN]. change (F RN) with R in *.
  rewrite Rabs_mult, (Rabs_pos_eq u) by lra.
  destruct (Req_dec (Rabs a) 0) as [Z|Z].
  - rewrite Z, Rmult_0_r. unfold Reqb. destruct (Req_EM_T 0 0); [reflexivity|congruence].
  - unfold Reqb. destruct (Req_EM_T (u * Rabs a) 0) as [Q|Q]; [exfalso; apply Rmult_integral in Q; lra|].
    destruct (Req_EM_T (Rabs a) 0) as [Q'|Q']; [contradiction|]. field. split; [exact Q'|lra].
Qed.
Lemma rmse_scale_ok (u : R) (x y : list R) r : @rmse RN x y = Ok r -> exists r', @rmse RN (map (Rmult u) x) y = Ok r'.
Proof.
  unfold rmse. change (F RN) with R. rewrite map_length. destruct (length x =? length y)%nat; [|discriminate]. destruct (length x =? 0)%nat; [discriminate|].
  cbn [andb negb]. intros _. eexists. match goal with |- (if ?b then _ else _) = _ => assert (E : b = true) by (apply forallb_forall; reflexivity); rewrite E end. reflexivity.
Qed.
(** What does not depend on the amplitude unit: correlation, PG, depth, Vp/Vs. *)
Definition shape (r : @srow RN) : R * R * (R * R) := (sr_corr r, sr_pg r, (sr_H r, sr_K r)).
Definition sshape (s : @sol RN) : R * R * (R * R) := (so_corr s, so_pg s, (so_H s, so_K s)).
Lemma best_shape (W W' : list (@srow RN)) bm bm' : map shape W = map shape W' -> best_rows W = Ok bm -> best_rows W' = Ok bm' ->
  shape (b_corr bm) = shape (b_corr bm') /\ shape (b_pg bm) = shape (b_pg bm').
Proof.
  intros ES HB HB'.
  assert (EG : forall i r r', getitem W i = Ok r -> getitem W' i = Ok r' -> shape r = shape r').
  { intros i r r' G G'. apply getitem_Ok in G, G'. apply (map_nth_error shape) in G, G'. rewrite ES in G. congruence. }
  assert (E1 : map (@sr_corr RN) W = map (@sr_corr RN) W').
  { pose proof (f_equal (map (fun x => fst (fst x))) ES) as E. rewrite !map_map in E. exact E. }
  assert (E2 : map (@sr_pg RN) W = map (@sr_pg RN) W').
  { pose proof (f_equal (map (fun x => snd (fst x))) ES) as E. rewrite !map_map in E. exact E. }
  unfold best_rows in HB, HB'. rewrite E1, E2 in HB.
  destruct (argmax (map sr_corr W')) as [i|]; [|discriminate]. cbn [bind] in HB, HB'.
  apply bind_Ok_inv in HB as (x & X & HB). apply bind_Ok_inv in HB' as (x' & X' & HB').
  apply bind_Ok_inv in HB as (? & _ & HB). apply bind_Ok_inv in HB as (y & _ & HB).
  apply bind_Ok_inv in HB' as (? & _ & HB'). apply bind_Ok_inv in HB' as (y' & _ & HB').
  destruct (argmax (map sr_pg W')) as [k|]; [|discriminate]. cbn [bind] in HB, HB'.
  apply bind_Ok_inv in HB as (z & Z & HB). apply bind_Ok_inv in HB' as (z' & Z' & HB').
  apply bind_Ok_inv in HB as (? & _ & HB). apply bind_Ok_inv in HB as (? & _ & HB). inversion HB as [EB].
  apply bind_Ok_inv in HB' as (? & _ & HB'). apply bind_Ok_inv in HB' as (? & _ & HB'). inversion HB' as [EB'].
  cbn [b_corr b_pg]. split; eapply EG; eassumption.
Qed.

(** C116: with the records in another amplitude unit the fit succeeds as well; the
    correlation and the PG of every model are the same, and so are the best models by
    these two criteria. *)
Theorem C116_amplitude_unit stackR synO pgO rf po HS VpS VpC rp Ks Hs ga (a b c u : R) (wf : @wfit RN) : 0 < u ->
  stackR (map (scale_trace u) rf) = (S <- stackR rf ;; Ok (map (scale_trace u) S)) ->
  WaveformFitting stackR synO pgO rf po HS VpS VpC rp Ks Hs ga a b c = Ok wf ->
  exists wf', WaveformFitting stackR synO pgO (map (scale_trace u) rf) po HS VpS VpC rp Ks Hs ga a b c = Ok wf' /\
    map shape (wf_sols wf) = map shape (wf_sols wf') /\
    shape (b_corr (wf_printed wf)) = shape (b_corr (wf_printed wf')) /\ shape (b_pg (wf_printed wf)) = shape (b_pg (wf_printed wf')).
Proof.
  intros Hu Hst H. destruct (wf_inv _ _ _ _ _ _ _ _ _ _ _ _ _ _ _ _ H) as (P & T & HP & _ & _ & HT & HR & HB & _).
  destruct (WaveformPara_inv _ _ _ _ _ _ _ _ _ _ _ HP) as (tr0 & rf1 & st0 & SR & t0 & ts & s & e & E1 & E2 & E3 & E4 & E5).
  assert (L0 : length (tr_data (scale_trace u tr0)) = length (tr_data tr0)) by (cbn [scale_trace tr_data]; apply map_length).
  assert (Ls : length (tr_data (scale_trace u st0)) = length (tr_data st0)) by (cbn [scale_trace tr_data]; apply map_length).
  rewrite WaveformFitting_eq. unfold WaveformPara. rewrite Hst, E2. rewrite E1. cbn [map getitem nth_error bind]. rewrite L0, Ls.
  change (tr_delta (scale_trace u tr0)) with (tr_delta tr0). rewrite E3. cbn [bind getitem nth_error]. rewrite E4. cbn [bind fst snd getitem nth_error].
  injection E5 as ->.
  match goal with |- context [mapM (fun kh => eval_node synO pgO ?P' (snd kh) (fst kh)) _] => set (P1 := P') in * end.
  match type of HT with mapM (fun kh => eval_node synO pgO ?P' (snd kh) (fst kh)) _ = _ => set (P0 := P') in * end.
  assert (Node : forall h k q, eval_node synO pgO P0 h k = Ok q -> exists q', eval_node synO pgO P1 h k = Ok q' /\ sshape q = sshape q').
  { intros h k q E. unfold eval_node in E. apply bind_Ok_inv in E as (sy & Esy & E). apply bind_Ok_inv in E as (cc & Ec & E).
    apply bind_Ok_inv in E as (rr & Er & E). apply bind_Ok_inv in E as (pp & Ep & E). inversion E; subst q.
    change (wp_data P0) with (tr_data st0) in *. change (wp_start P0) with s in *. change (wp_end P0) with e in *. change (wp_delta P0) with (tr_delta tr0) in *.
    unfold eval_node.
    change (synth synO (wp_HSed P1) (wp_VpSed P1) (wp_VsSed P1) (wp_SedDen P1) (wp_VpCrust P1) (wp_CrustDen P1) h k (wp_rayp P1) (wp_delta P1) (wp_n P1) (wp_preonset P1) (wp_gauss P1))
      with (synth synO (wp_HSed P0) (wp_VpSed P0) (wp_VsSed P0) (wp_SedDen P0) (wp_VpCrust P0) (wp_CrustDen P0) h k (wp_rayp P0) (wp_delta P0) (wp_n P0) (wp_preonset P0) (wp_gauss P0)).
    change (wp_delta P0) with (tr_delta tr0). rewrite Esy. cbn [bind].
    change (wp_data P1) with (map (Rmult u) (tr_data st0)). change (wp_start P1) with s. change (wp_end P1) with e. change (wp_delta P1) with (tr_delta tr0).
    rewrite (slice_map (Rmult u)). change (F RN) with R in *. rewrite (corr_scale u _ _ Hu), Ec. cbn [bind]. destruct (rmse_scale_ok u _ _ _ Er) as [r' Er']. rewrite Er'. cbn [bind].
    rewrite (signs_scale u _ Hu), Ep. cbn [bind]. eexists. split; [reflexivity|]. reflexivity. }
  assert (HT' : exists T', mapM (fun kh => eval_node synO pgO P1 (snd kh) (fst kh)) (list_prod Ks Hs) = Ok T' /\ map sshape T = map sshape T').
  { apply mapM_Ok in HT. clear -HT Node. induction HT as [|[k h] q l T Hq HF (T' & E' & S')].
    - exists []. split; reflexivity.
    - cbn [fst snd] in Hq. destruct (Node h k q Hq) as (q' & Eq & Sq). exists (q' :: T'). cbn [mapM fst snd]. rewrite Eq. cbn [bind].
      change (F RN) with R in *. rewrite E'. cbn [bind map]. split; [reflexivity|]. rewrite Sq, S'. reflexivity. }
  destruct HT' as (T' & HT' & HS'). rewrite HT'. cbn [bind].
  apply rank_spec in HR as (mc & mr & mp & M1 & M2 & M3 & EW).
  assert (NT : T' <> []). { intros ->. destruct T; [|discriminate]. destruct M1 as ((x & [] & _) & _). }
  destruct (is_max_ex so_corr T' NT) as [mc' M1']. destruct (is_max_ex so_rmse T' NT) as [mr' M2']. destruct (is_max_ex so_pg T' NT) as [mp' M3'].
  assert (HR' : @rank RN a b c T' = Ok (map (with_gof a b c mc' mr' mp') T')) by (apply rank_spec; eauto 8).
  rewrite HR'. cbn [bind]. destruct (best_rows_ok (map (with_gof a b c mc' mr' mp') T')) as [bm Hb]; [intro E; apply map_eq_nil in E; contradiction|].
  rewrite Hb. cbn [bind]. eexists. split; [reflexivity|]. cbn [wf_sols wf_printed].
  assert (ES : map shape (wf_sols wf) = map shape (map (with_gof a b c mc' mr' mp') T')).
  { rewrite EW, !map_map. exact HS'. }
  split; [exact ES|]. eapply best_shape; eassumption.
Qed.
(** The RMSE does depend on the unit: with the data in another unit another model is
    reported as the best fit by RMSE. *)
Definition unit_syn := syn4 [1;2;3;5;4;0]%Z [2;4;6;10;8;0]%Z [0;0;1;0;0;0]%Z [1;0;0;0;0;0]%Z.
Theorem C116_rmse_depends : exists wf wf',
  ex_fit unit_syn [1;2;3;5;4;0]%Z (1, 1, 1)%Z = Ok wf /\ ex_fit unit_syn [2;4;6;10;8;0]%Z (1, 1, 1)%Z = Ok wf' /\
  rowis (b_corr (wf_printed wf)) 30 2 = true /\ rowis (b_corr (wf_printed wf')) 30 2 = true /\
  rowis (b_rmse (wf_printed wf)) 30 2 = true /\ rowis (b_rmse (wf_printed wf')) 30 3 = true.
Proof.
  assert (E : chk (wf <- ex_fit unit_syn [1;2;3;5;4;0]%Z (1, 1, 1)%Z ;; wf' <- ex_fit unit_syn [2;4;6;10;8;0]%Z (1, 1, 1)%Z ;; Ok (wf, wf'))
    (fun x => let '(wf, wf') := x in rowis (b_corr (wf_printed wf)) 30 2 && rowis (b_corr (wf_printed wf')) 30 2 &&
       rowis (b_rmse (wf_printed wf)) 30 2 && rowis (b_rmse (wf_printed wf')) 30 3) = true) by (vm_compute; reflexivity).
  apply chk_true in E as ([wf wf'] & E & Hb).
  apply bind_Ok_inv in E as (wf0 & E1 & E). apply bind_Ok_inv in E as (wf0' & E2 & E). injection E as <- <-.
  rewrite !andb_true_iff in Hb. exists wf0, wf0'. tauto.
Qed.

(** ** Concrete cases: the run [wave_example] meets the hypotheses. *)
Example C116_example : exists wf wf',
  let run rf := WaveformFitting (fun rf => Ok rf) rsyn rpg rf 0 1 2 6 0 [2] [30; 40] 1 (4/10) (4/10) (2/10) in
  run [rtrace rdata] = Ok wf /\ run [rtrace (map (Rmult 3) rdata)] = Ok wf' /\ map shape (wf_sols wf) = map shape (wf_sols wf').
Proof.
  destruct wave_example as (wf & HW & _). destruct (C116_amplitude_unit _ _ _ _ _ _ _ _ _ _ _ _ _ _ _ 3 wf ltac:(lra) eq_refl HW) as (wf' & HW' & ES & _).
  exists wf, wf'. split; [exact HW|]. split; [exact HW'|exact ES].
Qed.
Example C114_example : exists wf wf',
  let run Hs := WaveformFitting (fun rf => Ok rf) rsyn rpg [rtrace rdata] 0 1 2 6 0 [2] Hs 1 (4/10) (4/10) (2/10) in
  run [40] = Ok wf /\ run [30; 40] = Ok wf' /\ sr_rmse (b_rmse (wf_printed wf')) <= sr_rmse (b_rmse (wf_printed wf)).
Proof.
  destruct wave_example as (wf' & HW' & _).
  destruct (C114_refinement _ _ _ _ _ _ _ _ _ _ [2] [40] [2] [30; 40] (4/10) (4/10) (2/10) _ _ _ wf' (incl_refl _) (incl_tl 30 (incl_refl [40])) ltac:(discriminate) ltac:(discriminate) HW') as (wf & HW & _ & H & _).
  exists wf, wf'. split; [exact HW|]. split; [exact HW'|exact H].
Qed.
Lemma example_row Hs wf h : WaveformFitting (fun rf => Ok rf) rsyn rpg [rtrace rdata] 0 1 2 6 0 [2] Hs 1 (4/10) (4/10) (2/10) = Ok wf ->
  (In h Hs -> exists r, In r (wf_sols wf) /\ sr_H r = h /\ sr_K r = 2) /\
  (forall r, In r (wf_sols wf) -> In (sr_H r) Hs /\ sr_K r = 2 /\ forall y, rbody [1; sr_H r; 775/10] = y ->
     sr_corr r = pearson (slice rdata 0 5) (slice (y ++ []) 0 5) /\ sr_rmse r = rms_diff (slice rdata 0 5) (slice (y ++ []) 0 5) /\ sr_pg r = 1).
Proof.
  intro HW. destruct (C70_rows _ _ _ _ _ _ _ _ _ _ _ _ _ _ _ _ HW) as (tr0 & rf' & st0 & SR & s & e & F1 & F2 & F3 & FG & FR).
  injection F1 as <- <-. injection F2 as <- <-. cbn [rtrace tr_delta tr_data rdata length] in F3. rewrite rfit_window in F3. injection F3 as <- <-. split.
  - intro Ih. assert (I : In (2, h) (map (fun r => (sr_K r, sr_H r)) (wf_sols wf))) by (rewrite FG; apply in_prod; [left; reflexivity|exact Ih]).
    apply in_map_iff in I as (r & Er & Ir). injection Er as Ek Eh. exists r. auto.
  - intros r Ir. pose proof (in_map (fun r => (sr_K r, sr_H r)) _ _ Ir) as I. rewrite FG in I.
    apply in_prod_iff in I as [[Ik|[]] Ih]. symmetry in Ik. split; [exact Ih|]. split; [exact Ik|]. intros y Ey.
    destruct (FR r Ir) as (sy & Q & L & Ne & Rr & Rc & Rp). unfold synthetic_for, rsyn in Q. cbn [rtrace tr_data rdata length] in Q. 
    change (F RN) with R in *. rewrite Ey in Q. change (6 - 6)%nat with 0%nat in Q. cbn [repeat] in Q. 
    assert (Ly : firstn 6 y = y) by (apply firstn_all2; rewrite <- Ey, rbody_len; lia).
    assert (Q' : Ok (firstn 6 y ++ []) = Ok sy) by exact Q. rewrite Ly in Q'. injection Q' as Qs. subst sy.
    split; [|split; [exact Rr|unfold rpg in Rp; injection Rp as Rp; symmetry; exact Rp]].
    apply Rc; [exists 1, 2; cbn; repeat split; auto; lra|].
    unfold rbody in Ey. destruct (Reqb (sr_H r) 30); subst y; [exists 1, 2|exists (2 * 1), (2 * 2)]; cbn; repeat split; auto; lra.
Qed.
Example C115_example : exists wf wf',
  let run Hs := WaveformFitting (fun rf => Ok rf) rsyn rpg [rtrace rdata] 0 1 2 6 0 [2] Hs 1 (4/10) (4/10) (2/10) in
  run [30; 40] = Ok wf /\ run [30; 40; 50] = Ok wf' /\ sr_gof (b_gof (wf_printed wf)) <= sr_gof (b_gof (wf_printed wf')).
Proof.
  destruct wave_example as (wf & HW & _).
  assert (X : exists wf', WaveformFitting (fun rf => Ok rf) rsyn rpg [rtrace rdata] 0 1 2 6 0 [2] [30; 40; 50] 1 (4/10) (4/10) (2/10) = Ok wf').
  { apply (C73_completes _ _ _ _ _ _ _ _ _ _ _ _ _ _ _ (rtrace rdata) [] (rtrace rdata) [] 0); try reflexivity; cbn [rtrace tr_delta tr_data rdata length]; try discriminate; try lia; cbn [INR]; try lra.
    - intros. unfold synthetic_for. apply rsyn_total.
    - intros. exists 1%R. reflexivity. }
  destruct X as [wf' HW']. exists wf, wf'. cbv zeta. split; [exact HW|]. split; [exact HW'|].
  refine (proj2 (C115_within_range _ _ _ _ _ _ _ _ _ _ [2] [30; 40] [2] [30; 40; 50] _ _ _ wf wf' (incl_refl _) _ HW HW' _)).
  - intros x [<-|[<-|[]]]; cbn; auto.
  - intros r' Ir'. destruct (proj2 (example_row _ _ 0 HW') r' Ir') as (Ih & Ek & Cr).
    assert (G : exists r, In r (wf_sols wf) /\ rbody [1; sr_H r; 775/10] = rbody [1; sr_H r'; 775/10]).
    { destruct Ih as [E|[E|[E|[]]]]; rewrite <- E.
      - destruct (proj1 (example_row _ _ 30 HW)) as (r & Ir & Er & _); [cbn; auto|]. exists r. rewrite Er. auto.
      - destruct (proj1 (example_row _ _ 40 HW)) as (r & Ir & Er & _); [cbn; auto|]. exists r. rewrite Er. auto.
      - destruct (proj1 (example_row _ _ 40 HW)) as (r & Ir & Er & _); [cbn; auto|]. exists r. rewrite Er. split; [exact Ir|].
        unfold rbody, Reqb. destruct (Req_EM_T 40 30); [lra|]. destruct (Req_EM_T 50 30); [lra|]. reflexivity. }
    destruct G as (r & Ir & Eb). destruct (proj2 (example_row _ _ 0 HW) r Ir) as (_ & _ & Cs).
    destruct (Cr _ eq_refl) as (c1 & c2 & c3). destruct (Cs _ eq_refl) as (d1 & d2 & d3). rewrite Eb in d1, d2.
    change (F RN) with R in *. repeat split; exists r; (split; [exact Ir|]).
    + rewrite c1, d1. apply Rle_refl.
    + rewrite c2, d2. apply Rle_refl.
    + rewrite c3, d3. apply Rle_refl.
Qed.
Print Assumptions C114_refinement.
Print Assumptions C115_within_range.
Print Assumptions C115_refuted.
Print Assumptions C116_amplitude_unit.
