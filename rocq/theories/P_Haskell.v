(** * P_Haskell: layered-medium response, C29-C33 and C60-C63. *)

From Coq Require Import Reals Lra.
From Verif Require Import Base Num NumPy Cplx Mat4 SpecElastic DFT DFT2 SpecSignal ReverbModel DeconModel HaskellModel HaskellProofs HaskellProofs2 HaskellProofs3 HaskellProofs4 HaskellProofs5 HaskellProofs6.
Local Open Scope R_scope.

(** ** C29 *)
Lemma thickness_from_sum prev d k : (k < length d)%nat ->
  rsum (S k) (rnth (thickness_from prev d)) = rnth d k - match prev with None => 0 | Some q => q end.
Proof.
  revert prev k. induction d as [|x d IH]; intros prev k H; [cbn in H; lia|].
  destruct k as [|k].
  - cbn. destruct prev; ring.
  - change (S (S k)) with (1 + S k)%nat. rewrite rsum_split.
    rewrite (rsum_ext (S k) _ (rnth (thickness_from (Some x) d))) by (intros; reflexivity).
    rewrite IH by (cbn in H; lia). change (rnth (x :: d) (S k)) with (rnth d k).
    change (rsum 1 (rnth (thickness_from prev (x :: d)))) with (0 + match prev with None => x | Some q => x - q end).
    destruct prev; ring.
Qed.
Lemma thickness_from_length prev d : length (thickness_from prev d) = length d.
Proof. revert prev; induction d as [|x d IH]; intro prev; cbn; [reflexivity|]. rewrite IH. reflexivity. Qed.

(** As many layers as depths; the running sums of the thicknesses are the depths, and
    no other list has that property. *)
Theorem C29_thickness depth :
  length (thickness depth) = length depth /\
  (forall k, (k < length depth)%nat -> rsum (S k) (rnth (thickness depth)) = rnth depth k) /\
  (forall th, length th = length depth ->
     (forall k, (k < length depth)%nat -> rsum (S k) (rnth th) = rnth depth k) -> th = thickness depth).
Proof.
  assert (A : forall k, (k < length depth)%nat -> rsum (S k) (rnth (thickness depth)) = rnth depth k).
  { intros k H. unfold thickness. rewrite thickness_from_sum by exact H. ring. }
  split; [apply thickness_from_length|]. split; [exact A|]. intros th L H.
  apply rlist_ext; [rewrite L; symmetry; apply thickness_from_length|]. intros k Hk. rewrite L in Hk.
  pose proof (A k Hk) as B. rewrite <- (H k Hk) in B. cbn [rsum] in B.
  destruct k as [|k]; [cbn in B; lra|].
  assert (Hk' : (k < length depth)%nat) by lia.
  pose proof (H k Hk') as H1. pose proof (A k Hk') as A1. rewrite <- A1 in H1. cbn [rsum] in *. lra.
Qed.
(** Depths that increase from a non-negative first depth, and only those, give
    non-negative thicknesses. *)
Theorem C29_nonneg depth :
  (forall k, (k < length depth)%nat -> 0 <= rnth (thickness depth) k) <->
  (forall k, (k < length depth)%nat -> (if (k =? 0)%nat then 0 else rnth depth (k - 1)) <= rnth depth k).
Proof.
  destruct (C29_thickness depth) as (_&S&_).
  assert (E : forall k, (k < length depth)%nat -> rnth (thickness depth) k = rnth depth k - (if (k =? 0)%nat then 0 else rnth depth (k - 1))).
  { intros k H. pose proof (S k H) as A. cbn [rsum] in A. destruct k as [|k]; cbn [Nat.eqb].
    - cbn in A. rewrite <- A. cbn. lra.
    - replace (Datatypes.S k - 1)%nat with k by lia. assert (H' : (k < length depth)%nat) by lia. pose proof (S k H') as B.
      cbn [rsum] in B. cbn [rsum] in A. lra. }
  split; intros H k Hk; specialize (H k Hk); rewrite E in * by exact Hk; lra.
Qed.
Example C29_example : thickness [2; 35; 77.5] = [2; 33; 42.5].
Proof. cbn. repeat (f_equal; try lra). Qed.

(** ** C30 *)
(** The propagator over a sum of thicknesses is the product, and a zero thickness does
    nothing. *)
Theorem C30_group omega rho alpha beta p z1 z2 :
  propagator_sol omega rho alpha beta p (z1 + z2) =
    (P1 <- propagator_sol omega rho alpha beta p z1 ;;
     P2 <- propagator_sol omega rho alpha beta p z2 ;; Ok (mmul P2 P1)) /\
  (forall P, propagator_sol omega rho alpha beta p 0 = Ok P -> P = mI).
Proof.
  destruct (fin_dec omega rho alpha beta p) as [F|B].
  - rewrite !(propagator_Ok _ _ _ _ _ F). cbn [bind]. split.
    + f_equal. rewrite Rplus_comm. apply (P_add _ _ _ _ _ F).
    + intros P E. injection E as <-. apply (P_0 _ _ _ _ _ F).
  - unfold propagator_sol. rewrite B. cbn. split; [reflexivity|discriminate].
Qed.

(** Cutting a layer in two changes neither the response at any frequency nor the
    seismograms, in every model of two or more layers. *)
Theorem C30_split omega p ipha ls1 ls2 m z1 z2 : ls1 ++ ls2 <> [] ->
  let one := ls1 ++ [mkLayer m (z1 + z2)] ++ ls2 in
  let two := ls1 ++ [mkLayer m z1; mkLayer m z2] ++ ls2 in
  haskell omega p (length two) ipha (vps two) (vss two) (rhos two) (thicks two) =
  haskell omega p (length one) ipha (vps one) (vss one) (rhos one) (thicks one).
Proof.
  intros Hne one two.
  change (haskell_ls omega p ipha two = haskell_ls omega p ipha one).
  assert (FF : Forall (fun l => finm omega p (mat l)) two <-> Forall (fun l => finm omega p (mat l)) one).
  { unfold one, two. rewrite !Forall_app. split; intros (A&B&D); (split; [exact A|split; [|exact D]]).
    - inversion B; subst. constructor; [assumption|constructor].
    - inversion_clear B as [|? ? B1 _]. constructor; [exact B1|constructor; [exact B1|constructor]]. }
  assert (Hlen : (2 <= length one)%nat /\ (2 <= length two)%nat).
  { unfold one, two. rewrite !app_length. cbn [length]. destruct ls1 as [|x ls1], ls2 as [|y ls2]; cbn [length app] in *; try lia. contradiction. }
  assert (SS : Forall (fun l => finm omega p (mat l)) two -> stackP omega p two = stackP omega p one).
  { intro F. unfold one, two in *. apply Forall_app in F as [_ F]. apply Forall_app in F as [F _]. inversion_clear F as [|? ? F0 _].
    rewrite !stackP_app. cbn [stackP mat thick]. rewrite !mmul_1_l. do 2 f_equal. unfold Pm.
    rewrite (Rplus_comm z1 z2). symmetry. apply (P_add _ _ _ _ _ F0). }
  assert (Eff : forall l : list layer, (2 <= length l)%nat -> eff l = l) by (intros l H; unfold eff; destruct (Nat.ltb_spec 1 (length l)); [reflexivity|lia]).
  destruct ls2 as [|y ls2'] using rev_ind; clear -FF Hlen SS Eff.
  - destruct Hlen as [H1 H2]. unfold one, two in *. rewrite app_nil_r in *.
    change [mkLayer m z1; mkLayer m z2] with ([mkLayer m z1] ++ [mkLayer m z2]) in *. rewrite app_assoc in *.
    apply haskell_same; [reflexivity|exact FF|]. intro F. rewrite !Eff by assumption. exact (SS F).
  - destruct Hlen as [H1 H2]. unfold one, two in *. rewrite !app_assoc in *.
    apply haskell_same; [reflexivity|exact FF|]. intro F. rewrite !Eff by assumption. exact (SS F).
Qed.
Theorem C30_split_seismograms rayp dt npts ipha ls1 ls2 m z1 z2 : ls1 ++ ls2 <> [] ->
  let one := ls1 ++ [mkLayer m (z1 + z2)] ++ ls2 in
  let two := ls1 ++ [mkLayer m z1; mkLayer m z2] ++ ls2 in
  fwd_seis rayp dt npts ipha (vps two) (vss two) (rhos two) (thicks two) =
  fwd_seis rayp dt npts ipha (vps one) (vss one) (rhos one) (thicks one).
Proof.
  intros H one two. apply fwd_seis_ext. intro om. unfold thicks at 1 3. rewrite !map_length. apply C30_split. exact H.
Qed.
(** A layer of thickness zero above the deepest one has no effect. *)
Theorem C30_zero_layer omega p ipha ls1 ls2 l m : admissible p m -> omega <> 0 -> ls1 ++ ls2 <> [] ->
  let without := ls1 ++ ls2 ++ [l] in
  let zero := ls1 ++ [mkLayer m 0] ++ ls2 ++ [l] in
  haskell omega p (length zero) ipha (vps zero) (vss zero) (rhos zero) (thicks zero) =
  haskell omega p (length without) ipha (vps without) (vss without) (rhos without) (thicks without).
Proof.
  intros Ha Ho Hne without zero. pose proof (admissible_fin omega p m Ho Ha) as Fm.
  change (haskell_ls omega p ipha zero = haskell_ls omega p ipha without).
  unfold zero, without. rewrite !app_assoc. apply haskell_same; [reflexivity| |].
  - rewrite !Forall_app. split; intros H.
    + tauto.
    + repeat split; try tauto. constructor; [exact Fm|constructor].
  - intro F. unfold eff. rewrite !app_length. cbn [length].
    assert (0 < length ls1 + length ls2)%nat by (destruct ls1, ls2; cbn in *; try lia; contradiction).
    destruct (Nat.ltb_spec 1 (length ls1 + 1 + length ls2 + 1)); [|lia].
    destruct (Nat.ltb_spec 1 (length ls1 + length ls2 + 1)); [|lia].
    rewrite !stackP_app. cbn [stackP mat thick]. unfold Pm. rewrite (P_0 _ _ _ _ _ Fm), !mmul_1_l. reflexivity.
Qed.

(** ** C31 *)
Lemma haskell_Ok_fin omega p ipha ls l ur uz :
  haskell_ls omega p ipha (ls ++ [l]) = Ok (ur, uz) -> Forall (fun l => finm omega p (mat l)) (ls ++ [l]).
Proof.
  intro H. destruct (Forall_finm_dec omega p (ls ++ [l])) as [F|(a&x&b&E&_&N)]; [exact F|].
  unfold haskell_ls in H. rewrite (haskell_bad omega p ls l ipha) in H; [discriminate|].
  intro F. apply N. rewrite E in F. apply Forall_app in F as [_ F]. inversion F; assumption.
Qed.

Definition phase (omega p : R) (ipha : Z) (m : material) (d : R) : C :=
  cis (omega * (if (0 <=? ipha)%Z then pslow p m else sslow p m) * d).

Lemma solve2_rows ipha S a b ur uz : a <> C0 -> b <> C0 ->
  solve2 ipha S = Ok (ur, uz) ->
  forall S', m20 S' = (a * m20 S)%C -> m21 S' = (a * m21 S)%C -> m30 S' = (b * m30 S)%C -> m31 S' = (b * m31 S)%C ->
  solve2 ipha S' = Ok ((/ (if (0 <=? ipha)%Z then a else b) * ur)%C, (/ (if (0 <=? ipha)%Z then a else b) * uz)%C).
Proof.
  intros Ha Hb H S' E1 E2 E3 E4. unfold solve2 in *. rewrite E1, E2, E3, E4. cbv zeta in *.
  set (d := (m20 S * m31 S - m21 S * m30 S)%C) in *.
  assert (Ed : (a * m20 S * (b * m31 S) - a * m21 S * (b * m30 S))%C = (a * b * d)%C) by (unfold d; ring).
  rewrite Ed. destruct (Req_EM_T (Cnorm2 d) 0) as [Z|N]; [discriminate|].
  assert (Hd : d <> C0) by (intro Z; apply N; apply Cnorm2_0; exact Z).
  destruct (Req_EM_T (Cnorm2 (a * b * d)) 0) as [Z|_].
  { exfalso. apply Cnorm2_0 in Z. apply Cmul_0 in Z as [Z|Z]; [apply Cmul_0 in Z as [Z|Z]|]; contradiction. }
  destruct (0 <=? ipha)%Z; injection H as <- <-; f_equal; apply f_equal2; field; repeat split; assumption.
Qed.
Lemma cis_neg_inv t : (/ cis (- t))%C = cis t.
Proof.
  assert (X : (cis t * cis (- t))%C = C1) by (rewrite <- cis_add, Rplus_opp_r; apply cis_0).
  pose proof (cis_neq0 (- t)) as N.
  transitivity (cis t * cis (- t) * / cis (- t))%C; [rewrite X; ring|]. field. exact N.
Qed.
Lemma sl_bottom omega p ls m z : finm omega p m ->
  mmul (Eim omega p m) (stackP omega p (ls ++ [mkLayer m z])) =
  mmul (Lm omega p m z) (mmul (Eim omega p m) (stackP omega p ls)).
Proof.
  intro F. rewrite stackP_app. cbn [stackP mat thick]. rewrite mmul_1_l, !mmul_assoc. f_equal.
  unfold Eim, Pm, Lm. apply (Ei_P _ _ _ _ _ F).
Qed.
Lemma Lm_rows omega p m z S : let T := mmul (Lm omega p m z) S in
  m20 T = (cis (- (omega * pslow p m * z)) * m20 S)%C /\ m21 T = (cis (- (omega * pslow p m * z)) * m21 S)%C /\
  m30 T = (cis (- (omega * sslow p m * z)) * m30 S)%C /\ m31 T = (cis (- (omega * sslow p m * z)) * m31 S)%C.
Proof. cbv zeta. unfold Lm, Lam. rewrite mdiag_l. cbn [m20 m21 m30 m31]. repeat split; reflexivity. Qed.

Lemma sl_phase omega p ipha ls m z ur uz : finm omega p m ->
  solve2 ipha (mmul (Eim omega p m) (stackP omega p ls)) = Ok (ur, uz) ->
  solve2 ipha (mmul (Eim omega p m) (stackP omega p (ls ++ [mkLayer m z]))) =
    Ok ((phase omega p ipha m z * ur)%C, (phase omega p ipha m z * uz)%C).
Proof.
  intros F H. rewrite sl_bottom by exact F.
  pose proof (Lm_rows omega p m z (mmul (Eim omega p m) (stackP omega p ls))) as (R1&R2&R3&R4).
  rewrite (solve2_rows ipha _ _ _ ur uz (cis_neq0 _) (cis_neq0 _) H _ R1 R2 R3 R4).
  unfold phase. destruct (0 <=? ipha)%Z; rewrite cis_neg_inv; reflexivity.
Qed.

(** Changing the thickness of the deepest layer turns both components by one phase:
    that of an incident wave travelling through the added thickness. *)
Theorem C31_bottom omega p ipha ls m z z' ur uz : ls <> [] ->
  let all := fun z => ls ++ [mkLayer m z] in
  haskell omega p (length (all z)) ipha (vps (all z)) (vss (all z)) (rhos (all z)) (thicks (all z)) = Ok (ur, uz) ->
  let c := phase omega p ipha m (z' - z) in
  haskell omega p (length (all z')) ipha (vps (all z')) (vss (all z')) (rhos (all z')) (thicks (all z'))
    = Ok ((c * ur)%C, (c * uz)%C) /\
  Cnorm2 c = 1.
Proof.
  intros Hne all H c. split; [|apply cis_norm].
  pose proof (haskell_Ok_fin omega p ipha ls (mkLayer m z) ur uz H) as F.
  assert (F' : Forall (fun l => finm omega p (mat l)) (all z')).
  { unfold all. apply Forall_app in F as [F1 F2]. apply Forall_app. split; [exact F1|]. inversion_clear F2. constructor; [assumption|constructor]. }
  assert (Fm : finm omega p m) by (apply Forall_app in F as [_ F2]; inversion_clear F2; assumption).
  assert (Eff : forall z, eff (all z) = all z).
  { intro y. unfold eff, all. rewrite app_length. cbn [length]. destruct ls; [contradiction|]. cbn [length]. destruct (Nat.ltb_spec 1 (S (length ls) + 1)); [reflexivity|lia]. }
  pose proof (haskell_eq omega p ls (mkLayer m z) ipha F) as E. cbv zeta in E. unfold all in *. rewrite E in H. clear E.
  pose proof (haskell_eq omega p ls (mkLayer m z') ipha F') as E. cbv zeta in E. rewrite E. clear E.
  rewrite Eff in *. cbn [mat] in *.
  assert (X : mmul (Eim omega p m) (stackP omega p (ls ++ [mkLayer m z'])) =
              mmul (Eim omega p m) (stackP omega p ((ls ++ [mkLayer m z]) ++ [mkLayer m (z' - z)]))).
  { f_equal. rewrite !stackP_app. cbn [stackP mat thick]. rewrite !mmul_1_l, mmul_assoc. f_equal.
    unfold Pm. replace z' with (z' - z + z) at 1 by ring. apply (P_add _ _ _ _ _ Fm). }
  rewrite X. apply sl_phase; assumption.
Qed.
(** So the spectral ratio radial/vertical, which the receiver function is made of, is
    unchanged. *)
Theorem C31_ratio omega p ipha ls m z z' ur uz ur' uz' : ls <> [] ->
  let all := fun z => ls ++ [mkLayer m z] in
  haskell omega p (length (all z)) ipha (vps (all z)) (vss (all z)) (rhos (all z)) (thicks (all z)) = Ok (ur, uz) ->
  haskell omega p (length (all z')) ipha (vps (all z')) (vss (all z')) (rhos (all z')) (thicks (all z')) = Ok (ur', uz') ->
  (ur' * uz)%C = (ur * uz')%C /\ Cnorm2 ur' = Cnorm2 ur /\ Cnorm2 uz' = Cnorm2 uz /\
  (ur' * Cconj uz')%C = (ur * Cconj uz)%C.
Proof.
  intros Hne all H H'. destruct (C31_bottom omega p ipha ls m z z' ur uz Hne H) as [E N]. unfold all in *.
  rewrite E in H'. injection H' as <- <-. rewrite !Cnorm2_mul, N. repeat split; try ring.
  rewrite Cconj_mul. set (c := phase omega p ipha m (z' - z)) in *.
  transitivity ((c * Cconj c) * (ur * Cconj uz))%C; [ring|]. rewrite Cmul_conj, N. change (RtoC 1) with C1. ring.
Qed.
(** In a one-layer model the thickness is not used at all. *)
Theorem C31_lone omega p ipha m z z' :
  haskell omega p 1 ipha [vp_of m] [vs_of m] [density m] [z] =
  haskell omega p 1 ipha [vp_of m] [vs_of m] [density m] [z'].
Proof.
  apply (haskell_same omega p ipha [] [] (mkLayer m z) (mkLayer m z')); [reflexivity| |reflexivity].
  split; intro F; inversion_clear F; (constructor; [assumption|constructor]).
Qed.

(** ** C60: the response exists for every elastic model *)
Lemma admissible_all omega p ls : omega <> 0 -> Forall (fun l => admissible p (mat l)) ls -> Forall (fun l => finm omega p (mat l)) ls.
Proof. intros Ho H. eapply Forall_impl; [|exact H]. intros l Hl. apply admissible_fin; assumption. Qed.
Theorem C60_defined omega p ipha ls : omega <> 0 -> ls <> [] -> Forall (fun l => admissible p (mat l)) ls ->
  exists ur uz, haskell omega p (length ls) ipha (vps ls) (vss ls) (rhos ls) (thicks ls) = Ok (ur, uz) /\
    (ur, uz) <> (C0, C0).
Proof.
  intros Ho Hne H. apply split_last in Hne as (a&l&->).
  pose proof (admissible_all omega p _ Ho H) as F. destruct (haskell_total omega p a l ipha F) as (ur&uz&E).
  exists ur, uz. split; [exact E|]. intro Z. injection Z as -> ->.
  rewrite (haskell_eq omega p a l ipha F) in E. 
  assert (Fl : finm omega p (mat l)) by (apply Forall_app in F; destruct F as [_ X]; inversion X; assumption).
  assert (He : Forall (fun l => finm omega p (mat l)) (eff (a ++ [l]))) by (unfold eff; destruct (1 <? length (a ++ [l]))%nat; [exact F|constructor]).
  apply solve2_iff in E; [|apply det2_nonzero; assumption]. destruct E as [E1 E2].
  destruct (0 <=? ipha)%Z; [apply (f_equal fst) in E1; cunf; lra|apply (f_equal fst) in E2; cunf; lra].
Qed.

(** ** C61: it is the unique response of the free surface *)
(** The returned pair is the displacement of the stress-free surface of welded elastic
    layers over a half-space made of the deepest material, for an incident P wave of unit
    amplitude (ipha >= 0) or S wave (ipha < 0), and nothing else is. *)
Theorem C61_response omega p ipha ls l ur uz : omega <> 0 -> ls <> [] ->
  Forall (fun l => admissible p (mat l)) (ls ++ [l]) ->
  let all := ls ++ [l] in
  haskell omega p (length all) ipha (vps all) (vss all) (rhos all) (thicks all) = Ok (ur, uz) <->
  free_surface_response omega p all (mat l)
    (if (0 <=? ipha)%Z then C1 else C0) (if (0 <=? ipha)%Z then C0 else C1) ur uz.
Proof.
  intros Ho Hne H all. pose proof (admissible_all omega p _ Ho H) as F.
  pose proof (haskell_response omega p ls l ipha ur uz F) as R. cbv zeta in R. fold all in R.
  assert (E : eff all = all).
  { unfold eff, all. rewrite app_length. cbn [length]. destruct ls; [contradiction|]. cbn [length]. destruct (Nat.ltb_spec 1 (S (length ls) + 1)); [reflexivity|lia]. }
  rewrite E in R. exact R.
Qed.
(** One layer: the response of the bare half-space. *)
Theorem C61_lone omega p ipha m z ur uz : omega <> 0 -> admissible p m ->
  haskell omega p 1 ipha [vp_of m] [vs_of m] [density m] [z] = Ok (ur, uz) <->
  free_surface_response omega p [] m
    (if (0 <=? ipha)%Z then C1 else C0) (if (0 <=? ipha)%Z then C0 else C1) ur uz.
Proof.
  intros Ho H. apply (haskell_response omega p [] (mkLayer m z) ipha ur uz).
  constructor; [apply admissible_fin; assumption|constructor].
Qed.

(** ** C62: the propagator is the solution operator of the elastic equations *)
Theorem C62_propagator omega p m f : omega <> 0 -> admissible p m ->
  (elastic_field omega p m f <->
   forall z, exists P, propagator_sol omega (density m) (vp_of m) (vs_of m) p z = Ok P /\ f z = mapp P (f 0)).
Proof.
  intros Ho H. pose proof (admissible_fin omega p m Ho H) as F. split.
  - intros E z. exists (Pm omega p m z). split; [apply (propagator_Ok _ _ _ _ _ F)|]. apply elastic_unique; assumption.
  - intro E.
    assert (Q : forall z, mapp (Pm omega p m z) (f 0) = f z).
    { intro z. destruct (E z) as (P&EP&->). rewrite (propagator_Ok _ _ _ _ _ F) in EP. injection EP as <-. reflexivity. }
    pose proof (elastic_solution omega p m (f 0) F) as S.
    destruct (finm_nz omega p m F) as (N1&N2&N3). apply elastic_iff; try assumption. intro z.
    pose proof (proj1 (elastic_iff omega p m _ N1 N2 N3) S z) as D. cbv beta in D. rewrite Q in D.
    eapply vderiv_ext; [|exact D]. exact Q.
Qed.

(** ** C32 *)
Theorem C32_vertical omega ipha ls ur uz : 
  haskell omega 0 (length ls) ipha (vps ls) (vss ls) (rhos ls) (thicks ls) = Ok (ur, uz) ->
  if (0 <=? ipha)%Z then ur = C0 else uz = C0.
Proof.
  intro H. destruct ls as [|x ls'] eqn:El; [discriminate|].
  assert (Hne : ls <> []) by (rewrite El; discriminate). rewrite <- El in *. clear El. apply split_last in Hne as (a&l&->).
  pose proof (haskell_Ok_fin omega 0 ipha a l ur uz H) as F.
  rewrite (haskell_eq omega 0 a l ipha F) in H. unfold solve2 in H. cbv zeta in H.
  destruct (vertical_sl omega (mat l) (eff (a ++ [l]))) as [Z1 Z2]. rewrite Z1, Z2 in H.
  match type of H with context [Req_EM_T ?x 0] => destruct (Req_EM_T x 0) as [|N] end; [discriminate|].
  assert (Hd : (C0 * C0 - m21 (mmul (Eim omega 0 (mat l)) (stackP omega 0 (eff (a ++ [l])))) *
     m30 (mmul (Eim omega 0 (mat l)) (stackP omega 0 (eff (a ++ [l])))))%C <> C0).
  { intro Z. apply N. rewrite Z. cunf; ring. }
  destruct (0 <=? ipha)%Z; injection H as <- <-.
  - unfold Cdiv. ring.
  - unfold Cdiv. ring.
Qed.

(** ** C33 *)
(** Every propagator has determinant 1, hence so has the product over any stack; the
    vertical energy flux is the same above and below every stack. *)
Theorem C33_det omega p (Ps : list M4) :
  Forall (fun P => exists rho alpha beta z, propagator_sol omega rho alpha beta p z = Ok P) Ps ->
  mdet (fold_left (fun acc P => mmul P acc) Ps mI) = C1 /\
  forall s, flux (mapp (fold_left (fun acc P => mmul P acc) Ps mI) s) = flux s.
Proof.
  assert (G : forall Ps A, Forall (fun P => exists rho alpha beta z, propagator_sol omega rho alpha beta p z = Ok P) Ps ->
     mdet (fold_left (fun acc P => mmul P acc) Ps A) = mdet A /\
     forall s, flux (mapp (fold_left (fun acc P => mmul P acc) Ps A) s) = flux (mapp A s)).
  { clear Ps. induction Ps as [|P Ps IH]; intros A H; [split; reflexivity|]. inversion_clear H as [|? ? HP HR].
    destruct HP as (rho&alpha&beta&z&E). cbn [fold_left]. destruct (IH (mmul P A) HR) as [I1 I2].
    destruct (fin_dec omega rho alpha beta p) as [F|B].
    2: { unfold propagator_sol in E. rewrite B in E. discriminate. }
    rewrite (propagator_Ok _ _ _ _ _ F) in E. injection E as <-. split.
    - rewrite I1, mdet_mul, (det_P _ _ _ _ _ F). ring.
    - intro s. rewrite I2, mapp_mmul. apply (flux_P _ _ _ _ _ F). }
  intro H. destruct (G Ps mI H) as [G1 G2]. split.
  - rewrite G1. apply mdet_I.
  - intro s. rewrite G2, mapp_1. reflexivity.
Qed.

(** ** C63: a post-critical layer poisons the result *)
Theorem C63_postcritical omega p ipha ls l : ls <> [] -> In l ls ->
  0 < vs_of (mat l) -> 0 < vp_of (mat l) ->
  1 <= p * p * (vs_of (mat l) * vs_of (mat l)) \/ 1 <= p * p * (vp_of (mat l) * vp_of (mat l)) ->
  haskell omega p (length ls) ipha (vps ls) (vss ls) (rhos ls) (thicks ls) = Err NaNResult.
Proof.
  intros Hne Hin Hs Hp H. apply split_last in Hne as (a&x&->). apply haskell_bad. intro F.
  rewrite Forall_forall in F. specialize (F l Hin). apply finite_layer_fin in F. unfold finite_layer in F.
  match type of F with context [Req_EM_T ?x 0] => destruct (Req_EM_T x 0) end; [discriminate|].
  rewrite andb_true_iff, !Rltb_true in F. destruct F as [F1 F2].
  assert (G : forall v, 0 < v -> 1 <= p * p * (v * v) -> 0 < 1 / (v * v) - p * p -> False).
  { intros v Hv H1 H2. assert (V : 0 < v * v) by (apply Rmult_lt_0_compat; exact Hv).
    apply (Rmult_lt_compat_r (v * v)) in H2; [|exact V]. unfold Rdiv in H2. rewrite Rmult_0_l, Rmult_minus_distr_r, Rmult_1_l, Rinv_l in H2 by lra. lra. }
  destruct H as [H|H]; [exact (G _ Hs H F1)|exact (G _ Hp H F2)].
Qed.
