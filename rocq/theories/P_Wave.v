(** * P_Wave: the fit window, the solution table and the best models (C44, C45, C47). *)

From Coq Require Import Reals Lra Permutation.
From Verif Require Import Base Num NumPy Spec HkModel PlotModel PoolModel PoolProofs P_Pool WaveModel WaveProofs.

(** ** C44: the fit window *)
Lemma filter_seq_head p a n s : nth_error (filter p (seq a n)) 0 = Some s <->
  a <= s < a + n /\ p s = true /\ (forall j, a <= j < s -> p j = false).
Proof.
  revert a. induction n as [|n IH]; intro a; cbn [seq filter].
  - split; [discriminate|]. intros [H _]. lia.
  - destruct (p a) eqn:E.
    + cbn [nth_error]. split.
      * intro H. inversion H; subst. split; [lia|]. split; [exact E|]. intros j Hj. lia.
      * intros (H1 & H2 & H3). destruct (Nat.eq_dec a s) as [->|Hn]; [reflexivity|]. rewrite H3 in E by lia. discriminate.
    + rewrite IH. split; intros (H1 & H2 & H3).
      * split; [lia|]. split; [exact H2|]. intros j Hj. destruct (Nat.eq_dec j a) as [->|]; [exact E|]. apply H3. lia.
      * destruct (Nat.eq_dec a s) as [->|Hn]; [congruence|]. split; [lia|]. split; [exact H2|]. intros j Hj. apply H3. lia.
Qed.

(** In any arithmetic: the window starts at the first sample whose computed time equals 0
    and has int(25/delta) samples. *)
Theorem C44_any_arithmetic {N : Num} (t : list N) delta s e :
  fit_window t delta = Ok (s, e) <->
  (exists x, nth_error t s = Some x /\ neqb x (nofZ 0) = true) /\
  (forall j x, j < s -> nth_error t j = Some x -> neqb x (nofZ 0) = false) /\
  neqb delta (nofZ 0) = false /\
  exists z, ntrunc (ndiv (nofZ 25) delta) = Some z /\ (0 <= z)%Z /\ e = s + Z.to_nat z.
Proof.
  unfold fit_window. split.
  - intro H. apply bind_Ok_inv in H as (s' & Hs & H). apply getitem_Ok in Hs. unfold where_zero in Hs. apply filter_seq_head in Hs as (H1 & H2 & H3).
    destruct (neqb delta (nofZ 0)) eqn:Ed; [discriminate|]. destruct (ntrunc _) as [z|] eqn:Ez; [|discriminate].
    destruct (Z.ltb_spec z 0) as [Hz|Hz]; [discriminate|]. inversion H; subst. split; [|split; [|split; [reflexivity|]]].
    + destruct (nth_error t s) as [x|]; [eauto|discriminate].
    + intros j x Hj Hx. specialize (H3 j ltac:(lia)). rewrite Hx in H3. exact H3.
    + exists z. auto.
  - intros ((x & Hx & Hz) & H2 & -> & z & -> & Hz0 & ->).
    assert (E : getitem (where_zero t) 0 = Ok s).
    { apply getitem_Ok. unfold where_zero. apply filter_seq_head. assert (L : s < length t) by (apply nth_error_Some; congruence).
      split; [lia|]. rewrite Hx. split; [exact Hz|]. intros j Hj. destruct (nth_error t j) as [y|] eqn:Ey; [|reflexivity]. eapply H2; [|exact Ey]. lia. }
    rewrite E. cbn [bind]. destruct (Z.ltb_spec z 0); [lia|]. reflexivity.
Qed.

(** The samples of [data] whose sampling interval lies within the first 25 s after P. *)
Definition first_25s (delta : R) (axis data : list R) : list R :=
  map snd (filter (fun p => Rleb 0 (fst p) && Rleb (fst p + delta) 25) (combine axis data)).

Lemma filter_slice (P : R -> bool) (axis : list R) : forall (data : list R) a b, length data <= length axis ->
  (forall j t, nth_error axis j = Some t -> (P t = true <-> a <= j < b)) ->
  map snd (filter (fun p => P (fst p)) (combine axis data)) = slice data a b.
Proof.
  induction axis as [|t axis IH]; intros data a b Hl HP.
  - destruct data; [|cbn in Hl; lia]. unfold slice. rewrite skipn_nil, firstn_nil. reflexivity.
  - destruct data as [|d data]; [unfold slice; rewrite skipn_nil, firstn_nil; reflexivity|]. cbn [combine filter fst].
    cbn [length] in Hl. pose proof (HP 0 t eq_refl) as H0.
    assert (HP' : forall j t, nth_error axis j = Some t -> (P t = true <-> a - 1 <= j < b - 1)).
    { intros j t' Hj. rewrite (HP (S j) t' Hj). lia. }
    destruct (P t) eqn:E.
    + assert (a = 0 /\ 0 < b) as [-> Hb] by (pose proof (proj1 H0 eq_refl); lia). cbn [map snd]. rewrite (IH data (0 - 1) (b - 1)); [|lia|exact HP'].
      unfold slice. destruct b as [|b]; [lia|]. cbn [Nat.sub skipn firstn]. rewrite !Nat.sub_0_r. reflexivity.
    + rewrite (IH data (a - 1) (b - 1)); [|lia|exact HP']. unfold slice. destruct a as [|a].
      * destruct b as [|b]; [reflexivity|]. exfalso. assert (X : false = true) by (apply H0; lia). discriminate X.
      * cbn [Nat.sub skipn]. rewrite !Nat.sub_0_r. destruct b as [|b]; [reflexivity|]. cbn [Nat.sub]. rewrite Nat.sub_0_r. reflexivity.
Qed.

Lemma taxis_nth (delta : R) l po j t : nth_error (@taxis RN delta l po) j = Some t -> j < l /\ t = (delta * INR j - po)%R.
Proof.
  unfold taxis. intro H. apply nth_error_map_inv in H as (i & Hi & ->).
  assert (L : j < length (seq 0 l)) by (apply nth_error_Some; congruence). rewrite seq_length in L. split; [exact L|].
  rewrite (nth_error_nth' _ 0 ltac:(rewrite seq_length; exact L)), seq_nth in Hi by exact L. inversion Hi. cbn. rewrite INR_IZR_INZ. reflexivity.
Qed.
Lemma Rtrunc_pos x : (0 <= x)%R -> (0 <= Rtrunc x)%Z /\ (IZR (Rtrunc x) <= x < IZR (Rtrunc x) + 1)%R.
Proof.
  intro H. unfold Rtrunc. destruct (Rle_dec 0 x); [|lra]. destruct (base_Int_part x) as [A B]. split; [|lra].
  assert (X : (-1 < Int_part x)%Z) by (apply lt_IZR; lra). lia.
Qed.

Section Wave.
Context (stackR : stream RN -> res (list (trace RN))).

(** C44, exact arithmetic: whenever WaveformPara (and WaveformFitting, which executes the
    same statements) gets past the window computation, the samples fitted - of the stack
    and of every synthetic - are exactly those of the first 25 s after P. *)
Theorem C44_window rf po HS VpS VpC rp Ks Hs ga Ps P (data : list R) :
  WaveformPara stackR rf po HS VpS VpC rp Ks Hs ga = Ok Ps -> nth_error Ps 0 = Some P ->
  (0 < wp_delta P)%R -> length data <= length (wp_time P) ->
  (exists tr0, nth_error rf 0 = Some tr0 /\ wp_delta P = tr_delta tr0 /\ wp_time P = uniform_axis (tr_delta tr0) (length (tr_data tr0)) po) /\
  slice data (wp_start P) (wp_end P) = first_25s (wp_delta P) (wp_time P) data.
Proof.
  intros H HP Hd Hl. apply WaveformPara_inv in H as (tr0 & rf' & st0 & SR & t0 & ts & s & e & -> & H1 & H2 & H3 & ->).
  cbn [nth_error] in HP. inversion HP; subst P. cbn [wp_delta wp_time wp_start wp_end] in *. split.
  { exists tr0. repeat split. symmetry. exact H2. }
  apply C44_any_arithmetic in H3 as ((x & Hx & Hz) & Hmin & _ & z & Hzt & Hz0 & ->).
  cbn [neqb RN nofZ] in Hz, Hmin. apply Reqb_true in Hz. subst x.
  change (@ntrunc RN (@ndiv RN (@nofZ RN 25) (tr_delta tr0))) with (Some (Rtrunc (25 / tr_delta tr0))) in Hzt.
  assert (Ez : Rtrunc (25 / tr_delta tr0) = z) by congruence. clear Hzt.
  assert (Hd' : (0 < tr_delta tr0)%R) by exact Hd.
  assert (Hq : (0 <= 25 / tr_delta tr0)%R) by (apply Rmult_le_pos; [lra|apply Rlt_le, Rinv_0_lt_compat; exact Hd']).
  destruct (Rtrunc_pos _ Hq) as [_ [B1 B2]]. rewrite Ez in B1, B2.
  assert (B1' : (IZR z * tr_delta tr0 <= 25)%R).
  { apply (Rmult_le_compat_r (tr_delta tr0)) in B1; [|lra]. unfold Rdiv in B1. rewrite Rmult_assoc, Rinv_l, Rmult_1_r in B1 by lra. exact B1. }
  assert (B2' : (25 < (IZR z + 1) * tr_delta tr0)%R).
  { apply (Rmult_lt_compat_r (tr_delta tr0)) in B2; [|lra]. unfold Rdiv in B2. rewrite Rmult_assoc, Rinv_l, Rmult_1_r in B2 by lra. exact B2. }
  rewrite <- H2 in Hx. apply taxis_nth in Hx as [Ls Hs0]. 
  symmetry. unfold first_25s. apply (filter_slice (fun t => Rleb 0 t && Rleb (t + tr_delta tr0) 25)); [exact Hl|].
  intros j t Hj0. assert (Hj : nth_error (@taxis RN (tr_delta tr0) (length (tr_data tr0)) po) j = Some t) by (rewrite H2; exact Hj0). apply taxis_nth in Hj as [Lj ->]. rewrite andb_true_iff, !Rleb_true.
  change (F RN) with R in *. assert (Epo : po = (tr_delta tr0 * INR s)%R) by lra. rewrite Epo.
  assert (Ez2 : IZR z = INR (Z.to_nat z)) by (rewrite INR_IZR_INZ, Z2Nat.id by exact Hz0; reflexivity). rewrite Ez2 in *.
  set (m := Z.to_nat z) in *. set (dl := tr_delta tr0) in *.
  replace (dl * INR j - dl * INR s)%R with (dl * (INR j - INR s))%R by ring.
  split.
  - intros [A B]. assert (A' : (INR s <= INR j)%R).
    { destruct (Rle_dec (INR s) (INR j)); [assumption|]. exfalso. assert (X : (dl * (INR j - INR s) < dl * 0)%R) by (apply Rmult_lt_compat_l; lra). lra. }
    apply INR_le in A'. split; [exact A'|].
    destruct (Nat.lt_ge_cases j (s + m)) as [L|L]; [exact L|exfalso].
    assert (X : (INR m <= INR j - INR s)%R) by (apply le_INR in L; rewrite plus_INR in L; lra).
    apply (Rmult_le_compat_l dl) in X; [|lra]. nra.
  - intros [A B]. apply le_INR in A. assert (B3 : S j <= s + m) by lia. apply le_INR in B3. rewrite S_INR, plus_INR in B3.
    split; [apply Rmult_le_pos; lra|].
    assert (X : (dl * (INR j - INR s) <= dl * (INR m - 1))%R) by (apply Rmult_le_compat_l; lra). nra.
Qed.

(** C44: it gets past the window computation exactly when some sample is at the P arrival. *)
Theorem C44_succeeds rf po HS VpS VpC rp Ks Hs ga tr0 rf' st0 SR : rf = tr0 :: rf' -> stackR rf = Ok (st0 :: SR) ->
  (0 < tr_delta tr0)%R ->
  ((exists Ps, WaveformPara stackR rf po HS VpS VpC rp Ks Hs ga = Ok Ps) <->
   exists k, k < length (tr_data tr0) /\ (po = tr_delta tr0 * INR k)%R).
Proof.
  intros -> HS1 Hd. split.
  - intros [Ps H]. apply WaveformPara_inv in H as (tr0' & rf'' & st0' & SR' & t0 & ts & s & e & E & H1 & H2 & H3 & ->). inversion E; subst tr0' rf''.
    apply C44_any_arithmetic in H3 as ((x & Hx & Hz) & _). cbn [neqb RN nofZ] in Hz. apply Reqb_true in Hz. subst x.
    rewrite <- H2 in Hx. apply taxis_nth in Hx as [Ls Hs0]. exists s. split; [exact Ls|]. change (F RN) with R in *. lra.
  - intros (k & Lk & Ek). unfold WaveformPara. cbn [getitem nth_error bind]. rewrite HS1. cbn [bind getitem nth_error].
    assert (Hk : nth_error (@taxis RN (tr_delta tr0) (length (tr_data tr0)) po) k = Some 0%R).
    { destruct (nth_error (@taxis RN (tr_delta tr0) (length (tr_data tr0)) po) k) as [x|] eqn:Ex.
      - apply taxis_nth in Ex as [_ ->]. f_equal. change (F RN) with R in *. lra.
      - apply nth_error_None in Ex. unfold taxis in Ex. rewrite map_length, seq_length in Ex. lia. }
    set (t := @taxis RN (tr_delta tr0) (length (tr_data tr0)) po) in *.
    destruct t as [|t0 ts] eqn:Et; [destruct k; discriminate|]. cbn [getitem nth_error bind].
    assert (FW : exists w, fit_window (t0 :: ts) (tr_delta tr0) = Ok w).
    { eexists (_, _). apply C44_any_arithmetic. split; [exists 0%R; split; [exact Hk|apply Reqb_true; reflexivity]|].
      split; [|split].
      - intros j x Hj Hx. rewrite <- Et in Hx. apply taxis_nth in Hx as [_ ->]. cbn [neqb RN nofZ]. unfold Reqb. destruct (Req_EM_T _ _) as [E0|]; [|reflexivity].
        exfalso. assert (X : (INR j < INR k)%R) by (apply lt_INR; exact Hj). change (F RN) with R in *. rewrite Ek in E0. nra.
      - cbn [neqb RN nofZ]. unfold Reqb. destruct (Req_EM_T _ _) as [E0|]; [|reflexivity]. change (F RN) with R in *. lra.
      - eexists. split; [reflexivity|]. split; [|reflexivity]. apply Rtrunc_pos. apply Rmult_le_pos; [cbn; lra|apply Rlt_le, Rinv_0_lt_compat; exact Hd]. }
    destruct FW as [w ->]. cbn [bind]. eexists. reflexivity.
Qed.
End Wave.

(** C44 in binary64 is refuted: at 75 samples per second the P arrival 30 s into the
    trace is sample 2250, but no computed time equals 0 and the call raises IndexError. *)
Theorem C44_binary64_refuted :
  fit_window (@taxis B64 (@nlit B64 1 75) 3000 (@nofZ B64 30)) (@nlit B64 1 75) = Err IndexError.
Proof. vm_compute. reflexivity. Qed.
(** At 20 samples per second it is found, and the window has 500 samples. *)
Example C44_binary64_example :
  fit_window (@taxis B64 (@nlit B64 1 20) 900 (@nofZ B64 10)) (@nlit B64 1 20) = Ok (200, 700).
Proof. vm_compute. reflexivity. Qed.

(** ** Best rows in exact arithmetic *)
Lemma argmax_R (l : list RN) k : @argmax RN l = Ok k -> exists v : R, nth_error l k = Some v /\
  (forall i (x : R), nth_error l i = Some x -> (x <= v)%R) /\ (forall i (x : R), i < k -> nth_error l i = Some x -> (x < v)%R).
Proof.
  intro H. apply (argmax_first_best RN_laws) in H as (v & Hv & [[C _]|(_ & Ha & Hs)]); [discriminate C|].
  exists v. split; [exact Hv|]. split.
  - intros i x Hx. destruct (Ha i x Hx) as [_ Q]. unfold geN in Q. cbn [nleb RN] in Q. apply Rleb_true in Q. exact Q.
  - intros i x Hi Hx. specialize (Hs i x Hi Hx). unfold geN in Hs. cbn [nleb RN] in Hs. apply not_true_is_false, Rleb_false in Hs. exact Hs.
Qed.
Lemma argmin_R (l : list RN) k : @argmin RN l = Ok k -> exists v : R, nth_error l k = Some v /\
  (forall i (x : R), nth_error l i = Some x -> (v <= x)%R) /\ (forall i (x : R), i < k -> nth_error l i = Some x -> (v < x)%R).
Proof.
  intro H. apply (argmin_first_best RN_laws) in H as (v & Hv & [[C _]|(_ & Ha & Hs)]); [discriminate C|].
  exists v. split; [exact Hv|]. split.
  - intros i x Hx. destruct (Ha i x Hx) as [_ Q]. unfold leN in Q. cbn [nleb RN] in Q. apply Rleb_true in Q. exact Q.
  - intros i x Hi Hx. specialize (Hs i x Hi Hx). unfold leN in Hs. cbn [nleb RN] in Hs. apply not_true_is_false, Rleb_false in Hs. exact Hs.
Qed.

(** [r] is the first row of [t] with the largest (smallest) value of [f]. *)
Definition first_largest {A} (f : A -> R) (t : list A) (r : A) : Prop :=
  exists i, nth_error t i = Some r /\ (forall x, In x t -> (f x <= f r)%R) /\
    forall j x, j < i -> nth_error t j = Some x -> (f x < f r)%R.
Definition first_smallest {A} (f : A -> R) (t : list A) (r : A) : Prop := first_largest (fun x => (- f x)%R) t r.

(** What is printed: the first row with the largest correlation, the smallest RMSE, the
    largest PG, the largest GoF. *)
Lemma best_rows_spec (t : list (@srow RN)) b : best_rows t = Ok b ->
  first_largest sr_corr t (b_corr b) /\ first_smallest sr_rmse t (b_rmse b) /\
  first_largest sr_pg t (b_pg b) /\ first_largest sr_gof t (b_gof b).
Proof.
  assert (G1 : forall (f : srow -> RN) i r, @argmax RN (map f t) = Ok i -> getitem t i = Ok r -> first_largest f t r).
  { intros f i r Hi Hr. apply getitem_Ok in Hr. apply argmax_R in Hi as (v & Hv & Ha & Hs). rewrite (map_nth_error f _ _ Hr) in Hv. inversion Hv; subst v.
    exists i. split; [exact Hr|]. split.
    - intros x Hx. apply In_nth_error in Hx as [j Hj]. apply (Ha j). apply map_nth_error. exact Hj.
    - intros j x Hj Hx. apply (Hs j); [exact Hj|]. apply map_nth_error. exact Hx. }
  assert (G2 : forall (f : srow -> RN) i r, @argmin RN (map f t) = Ok i -> getitem t i = Ok r -> first_smallest f t r).
  { intros f i r Hi Hr. apply getitem_Ok in Hr. apply argmin_R in Hi as (v & Hv & Ha & Hs). rewrite (map_nth_error f _ _ Hr) in Hv. inversion Hv; subst v.
    exists i. split; [exact Hr|]. split.
    - intros x Hx. apply In_nth_error in Hx as [j Hj]. apply Ropp_le_contravar. apply (Ha j). apply map_nth_error. exact Hj.
    - intros j x Hj Hx. apply Ropp_lt_contravar. apply (Hs j); [exact Hj|]. apply map_nth_error. exact Hx. }
  unfold best_rows. intro H.
  apply bind_Ok_inv in H as (i & Hi & H). apply bind_Ok_inv in H as (a & Ha & H).
  apply bind_Ok_inv in H as (j & Hj & H). apply bind_Ok_inv in H as (b2 & Hb & H).
  apply bind_Ok_inv in H as (k & Hk & H). apply bind_Ok_inv in H as (c & Hc & H).
  apply bind_Ok_inv in H as (l & Hl & H). apply bind_Ok_inv in H as (d & Hd & H). inversion H; subst b. cbn [b_corr b_rmse b_pg b_gof].
  repeat split; eauto.
Qed.
Lemma best_rows_ok (t : list (@srow RN)) : t <> [] -> exists b, best_rows t = Ok b.
Proof.
  intro Hn. assert (Hm : forall f : srow -> RN, map f t <> []) by (intros f E; apply map_eq_nil in E; contradiction).
  assert (G : forall i, i < length t -> exists r, getitem t i = Ok r).
  { intros i Hi. destruct (nth_error t i) as [r|] eqn:E; [exists r; apply getitem_Ok; exact E|apply nth_error_None in E; lia]. }
  unfold best_rows.
  destruct (argmax_Ok_iff _ (Hm sr_corr)) as (i & -> & Li). rewrite map_length in Li. destruct (G i Li) as [a Ea].
  destruct (argmin_Ok_iff _ (Hm sr_rmse)) as (j & E2 & Lj). rewrite map_length in Lj. destruct (G j Lj) as [b Eb].
  destruct (argmax_Ok_iff _ (Hm sr_pg)) as (k & E3 & Lk). rewrite map_length in Lk. destruct (G k Lk) as [c Ec].
  destruct (argmax_Ok_iff _ (Hm sr_gof)) as (l & E4 & Ll). rewrite map_length in Ll. destruct (G l Ll) as [d Ed].
  cbn [bind]. rewrite Ea. cbn [bind]. rewrite E2. cbn [bind]. rewrite Eb. cbn [bind]. rewrite E3. cbn [bind]. rewrite Ec. cbn [bind]. rewrite E4. cbn [bind]. rewrite Ed. eexists. reflexivity.
Qed.

(** [m] is the largest value of [f] in [l]. *)
Definition is_max {A} (f : A -> R) (l : list A) (m : R) : Prop := (exists x, In x l /\ f x = m) /\ forall x, In x l -> (f x <= m)%R.
Lemma pymax_R {A} (f : A -> RN) (l : list A) m : @pymax RN (map f l) = Ok m <-> is_max f l m.
Proof.
  assert (G : forall (l0 : list A) (x0 m0 : R), fold_left (fun (m y : R) => if Rltb m y then y else m) (map f l0) x0 = m0 ->
      (x0 <= m0)%R /\ (forall x, In x l0 -> (f x <= m0)%R) /\ (m0 = x0 \/ exists x, In x l0 /\ f x = m0)).
  { induction l0 as [|x l0 IH]; intros x0 m0 E; cbn [map fold_left] in E; [subst; split; [lra|]; split; [intros x []|left; reflexivity]|].
    unfold Rltb at 2 in E. destruct (Rlt_dec x0 (f x)) as [L|L].
    - destruct (IH _ _ E) as (H1 & H2 & H3). split; [change (F RN) with R in *; lra|]. split; [intros y [<-|Hy]; [exact H1|exact (H2 y Hy)]|].
      destruct H3 as [H3|(y & Hy & E3)]; [right; exists x; split; [left; reflexivity|symmetry; exact H3]|right; exists y; split; [right; exact Hy|exact E3]].
    - destruct (IH _ _ E) as (H1 & H2 & H3). split; [exact H1|]. split; [intros y [<-|Hy]; [change (F RN) with R in *; lra|exact (H2 y Hy)]|].
      destruct H3 as [H3|(y & Hy & E3)]; [left; exact H3|right; exists y; split; [right; exact Hy|exact E3]]. }
  assert (G2 : forall m, @pymax RN (map f l) = Ok m -> is_max f l m).
  { destruct l as [|x l]; cbn [map pymax]; [discriminate|]. intros m' E. injection E as E'. destruct (G l (f x) m' E') as (H1 & H2 & H3).
    split.
    - destruct H3 as [H3|(y & Hy & E3)]; [exists x; split; [left; reflexivity|symmetry; exact H3]|exists y; split; [right; exact Hy|exact E3]].
    - intros y [<-|Hy]; [exact H1|exact (H2 y Hy)]. }
  split; [apply G2|]. intros ((x & Hx & Ex) & Hm). destruct (@pymax RN (map f l)) as [m'|e] eqn:E.
  - destruct (G2 m' eq_refl) as ((y & Hy & Ey) & Hm'). f_equal. specialize (Hm y Hy). specialize (Hm' x Hx). change (F RN) with R in *. lra.
  - destruct l; [contradiction|]. discriminate.
Qed.

(** GoF of a solution for given maxima. *)
Definition gof_of (a b c mc mr mp corr rm p : R) : R := (a * (corr / mc) + b * (1 - rm / mr) + c * (p / mp))%R.
Definition with_gof (a b c mc mr mp : R) (s : @sol RN) : @srow RN :=
  @mkSrow RN (so_corr s) (so_rmse s) (so_pg s) (gof_of a b c mc mr mp (so_corr s) (so_rmse s) (so_pg s)) (so_H s) (so_K s).
Lemma rank_spec (a b c : R) A W : @rank RN a b c A = Ok W <->
  exists mc mr mp, is_max so_corr A mc /\ is_max so_rmse A mr /\ is_max so_pg A mp /\ W = map (with_gof a b c mc mr mp) A.
Proof.
  unfold rank. split.
  - intro H. apply bind_Ok_inv in H as (mc & H1 & H). apply bind_Ok_inv in H as (mr & H2 & H). apply bind_Ok_inv in H as (mp & H3 & H).
    apply pymax_R in H1, H2, H3. inversion H. exists mc, mr, mp. auto.
  - intros (mc & mr & mp & H1 & H2 & H3 & ->). apply pymax_R in H1, H2, H3. rewrite H1. cbn [bind]. rewrite H2. cbn [bind]. rewrite H3. reflexivity.
Qed.
Lemma is_max_perm {A} (f : A -> R) l l' m : Permutation l l' -> is_max f l m -> is_max f l' m.
Proof.
  intros P ((x & Hx & E) & H). split; [exists x; split; [eapply Permutation_in; eassumption|exact E]|].
  intros y Hy. apply H. eapply Permutation_in; [symmetry; exact P|exact Hy].
Qed.
Lemma is_max_unique {A} (f : A -> R) l m m' : is_max f l m -> is_max f l m' -> m = m'.
Proof. intros ((x & Hx & E) & H) ((y & Hy & E') & H'). specialize (H y Hy). specialize (H' x Hx). lra. Qed.
Lemma is_max_ex {A} (f : A -> R) l : l <> [] -> exists m, is_max f l m.
Proof.
  intro Hn. destruct (@pymax RN (map f l)) as [m|e] eqn:E; [exists m; apply (pymax_R f l m); exact E|].
  destruct l; [congruence|discriminate].
Qed.
