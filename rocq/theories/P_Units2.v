(** * P_Units2: receiver functions under a change of the unit of time (C110, continued). *)

From Coq Require Import Reals Lra.
From Verif Require Import Base Num NumPy Cplx Mat4 DFT ReverbModel DeconModel HaskellModel SynModel DeconProofs4.
Local Open Scope R_scope.

(** A result with a function applied to its value; exceptions pass. *)
Definition rmapr {A B} (f : A -> B) (r : res A) : res B := match r with Ok x => Ok (f x) | Err e => Err e end.
Definition cscale (a : R) (l : list C) : list C := map (fun z => (RtoC a * z)%C) l.

Lemma cscale_nth a l j : cnth (cscale a l) j = (RtoC a * cnth l j)%C.
Proof. unfold cscale, cnth. replace C0 with (RtoC a * C0)%C at 1 by ring. apply (map_nth (fun z => (RtoC a * z)%C)). Qed.
Lemma cscale_length a l : length (cscale a l) = length l.
Proof. apply map_length. Qed.
Lemma fft_cscale a x n : fft (cscale a x) n = cscale a (fft x n).
Proof.
  unfold fft, cscale at 2. rewrite map_map. apply map_ext. intro k. rewrite <- csum_scale. apply csum_ext. intros j _. rewrite cscale_nth. ring.
Qed.
Lemma ifft_cscale a x n : ifft (cscale a x) n = cscale a (ifft x n).
Proof.
  unfold ifft, cscale at 2. rewrite map_map. apply map_ext. intro k.
  transitivity (RtoC (/ INR n) * csum n (fun k0 => RtoC a * (cnth x k0 * W n (Z.of_nat k * Z.of_nat k0))))%C; [|rewrite csum_scale; ring].
  f_equal. apply csum_ext. intros j _. rewrite cscale_nth. ring.
Qed.
Lemma cscale_R a x : map RtoC (rscale a x) = cscale a (map RtoC x).
Proof. unfold rscale, cscale. rewrite !map_map. apply map_ext. intro. apply RtoC_mul. Qed.
Lemma Re_cscale a x : map Re (cscale a x) = rscale a (map Re x).
Proof. unfold rscale, cscale. rewrite !map_map. apply map_ext. intros [p q]. cunf. ring. Qed.
Lemma cmul2_l a x y : cmul2 (cscale a x) y = cscale a (cmul2 x y).
Proof.
  revert y. induction x as [|z x IH]; intros [|w y]; try reflexivity. unfold cmul2, cscale in *. cbn. f_equal; [ring|apply IH].
Qed.
Lemma cmul2_r a x y : cmul2 x (cscale a y) = cscale a (cmul2 x y).
Proof.
  revert y. induction x as [|z x IH]; intros [|w y]; try reflexivity. unfold cmul2, cscale in *. cbn. f_equal; [ring|apply IH].
Qed.
Lemma cprod_l a x y : cprod (cscale a x) y = rmapr (cscale a) (cprod x y).
Proof. unfold cprod. rewrite cscale_length, cmul2_l. destruct (_ =? _)%nat; reflexivity. Qed.
Lemma cprod_r a x y : cprod x (cscale a y) = rmapr (cscale a) (cprod x y).
Proof. unfold cprod. rewrite cscale_length, cmul2_r. destruct (_ =? _)%nat; reflexivity. Qed.
Lemma cscale_cscale a b x : cscale a (cscale b x) = cscale (a * b) x.
Proof. unfold cscale. rewrite map_map. apply map_ext. intro. rewrite RtoC_mul. ring. Qed.
Lemma cscale_1 a x : a = 1 -> cscale a x = x.
Proof. intros ->. unfold cscale. rewrite <- (map_id x) at 2. apply map_ext. intro. change (RtoC 1) with C1. ring. Qed.
Lemma rscale_rscale a b x : rscale a (rscale b x) = rscale (a * b) x.
Proof. unfold rscale. rewrite map_map. apply map_ext. intro. ring. Qed.
Lemma rscale_1 a x : a = 1 -> rscale a x = x.
Proof. intros ->. unfold rscale. rewrite <- (map_id x) at 2. apply map_ext. intro. ring. Qed.
Lemma rscale_app a x y : rscale a (x ++ y) = rscale a x ++ rscale a y.
Proof. apply map_app. Qed.
Lemma rscale_rev a x : rscale a (rev x) = rev (rscale a x).
Proof. apply map_rev. Qed.
Lemma firstn_rscale a x k : rscale a (firstn k x) = firstn k (rscale a x).
Proof. unfold rscale. symmetry. apply firstn_map. Qed.
Lemma slice_rscale a x i j : rscale a (slice x i j) = slice (rscale a x) i j.
Proof. unfold slice. rewrite firstn_rscale. unfold rscale. rewrite skipn_map. reflexivity. Qed.
Lemma mul_dt dt x : map (fun z => (z * RtoC dt)%C) x = cscale dt x.
Proof. apply map_ext. intro. ring. Qed.

Section TimeUnit.
Variable T : R.
Context (HT : 0 < T).

Lemma gauss_units dt nft g : gaussFilter (T * dt) nft (g / T) = rmapr (rscale (/ T)) (gaussFilter dt nft g).
Proof.
  unfold gaussFilter. destruct (Req_EM_T (INR nft * dt) 0) as [Z|Z].
  { destruct (Req_EM_T (INR nft * (T * dt)) 0) as [|Q]; [reflexivity|]. exfalso. apply Q. replace (INR nft * (T * dt)) with (T * (INR nft * dt)) by ring. rewrite Z. ring. }
  destruct (Req_EM_T (INR nft * (T * dt)) 0) as [Q|_].
  { exfalso. replace (INR nft * (T * dt)) with (T * (INR nft * dt)) in Q by ring. apply Rmult_integral in Q as [Q|Q]; lra. }
  assert (INR nft <> 0 /\ dt <> 0) as [Hn Hd] by (split; intro Q; apply Z; rewrite Q; ring).
  cbv zeta. destruct (Req_EM_T g 0) as [Zg|Zg].
  { destruct (Req_EM_T (g / T) 0) as [|Q]; [reflexivity|]. exfalso. apply Q. rewrite Zg. unfold Rdiv. ring. }
  destruct (Req_EM_T (g / T) 0) as [Q|_].
  { exfalso. apply Zg. replace g with (g / T * T) by (field; lra). rewrite Q. ring. }
  set (W := map (fun x => 2 * PI * x) (map (fun i => 1 / (INR nft * dt) * INR i) (seq 0 ((nft + 1) / 2 + 1)))).
  match goal with |- context [map (fun x => exp (- (1 / 4) * (x / (g / T)) ^ 2) / (T * dt)) ?l] =>
    assert (E : map (fun x => exp (- (1 / 4) * (x / (g / T)) ^ 2) / (T * dt)) l = rscale (/ T) (map (fun x => exp (- (1 / 4) * (x / g) ^ 2) / dt) W)) end.
  { unfold W, rscale. rewrite !map_map. apply map_ext. intro i.
    replace (2 * PI * (1 / (INR nft * (T * dt)) * INR i) / (g / T)) with (2 * PI * (1 / (INR nft * dt) * INR i) / g) by (field; repeat split; lra).
    field. split; lra. }
  rewrite E. set (G := map (fun x => exp (- (1 / 4) * (x / g) ^ 2) / dt) W). rewrite rscale_length.
  destruct (_ =? _)%nat; [|reflexivity].
  assert (E2 : rev (slice (rscale (/ T) G ++ repeat 0 (nft - (nft / 2 + 1))) 1 (nft / 2 + 1 - 1)) = rscale (/ T) (rev (slice (G ++ repeat 0 (nft - (nft / 2 + 1))) 1 (nft / 2 + 1 - 1)))).
  { rewrite rscale_rev, slice_rscale, rscale_app, rscale_repeat0. reflexivity. }
  rewrite E2, rscale_length. destruct (_ =? _)%nat; [|reflexivity]. cbn [rmapr]. rewrite rscale_app. reflexivity.
Qed.

Lemma gfilter_gen x n G dt a b c : gfilter (rscale a x) n (cscale b G) (c * dt) = rmapr (rscale (a * b * c)) (gfilter x n G dt).
Proof.
  unfold gfilter. rewrite cscale_R, fft_cscale, cprod_l, cprod_r. destruct (cprod (fft (map RtoC x) n) G) as [X|]; [|reflexivity]. cbn [rmapr bind].
  rewrite !mul_dt. rewrite !cscale_cscale. match goal with |- context [ifft (cscale ?k X) n] => replace k with (a * b * c * dt) by ring end. rewrite <- (cscale_cscale (a * b * c) dt).
  rewrite ifft_cscale, Re_cscale. reflexivity.
Qed.
Lemma rmapr_1 {X} (r : res X) f : (forall x, f x = x) -> rmapr f r = r.
Proof. intro H. destruct r; cbn; [rewrite H|]; reflexivity. Qed.
Lemma TinvT : / T * T = 1. Proof. field. lra. Qed.
Lemma gfilter_G x n G dt : gfilter x n (cscale (/ T) G) (T * dt) = gfilter x n G dt.
Proof.
  rewrite <- (rscale_1 1 x eq_refl) at 1. rewrite gfilter_gen. apply rmapr_1. intro. apply rscale_1. rewrite Rmult_1_l. apply TinvT.
Qed.
Lemma gfilter_pG p n G dt : gfilter (rscale (/ T) p) n (cscale (/ T) G) (T * dt) = rmapr (rscale (/ T)) (gfilter p n G dt).
Proof. rewrite gfilter_gen. rewrite Rmult_assoc, TinvT, Rmult_1_r. reflexivity. Qed.
Lemma gfilter_pW p n G dt : gfilter (rscale (/ T) p) n G (T * dt) = gfilter p n G dt.
Proof.
  rewrite <- (cscale_1 1 G eq_refl) at 1. rewrite gfilter_gen. apply rmapr_1. intro. apply rscale_1. rewrite Rmult_1_r. apply TinvT.
Qed.

(** *** Iterative method *)
Definition sc (s : dstate) : dstate := mkD (rscale (/ T) (d_p0 s)) (d_r s) (d_rms s) (d_err s) (d_sumsq s) (d_it s).
Lemma dt0 dt : (if Req_EM_T (T * dt) 0 then true else false) = (if Req_EM_T dt 0 then true else false).
Proof.
  destruct (Req_EM_T (T * dt) 0) as [Q|Q], (Req_EM_T dt 0) as [Z|Z]; try reflexivity; exfalso.
  - apply Rmult_integral in Q as [Q|Q]; lra.
  - apply Q. rewrite Z. ring.
Qed.
Lemma dt0_if {A} dt (x y : A) : (if Req_EM_T (T * dt) 0 then x else y) = (if Req_EM_T dt 0 then x else y).
Proof. pose proof (dt0 dt) as H. destruct (Req_EM_T (T * dt) 0), (Req_EM_T dt 0); try reflexivity; discriminate. Qed.
Lemma getitem_rscale a l i : getitem (rscale a l) i = rmapr (Rmult a) (getitem l i).
Proof. unfold getitem, rscale. rewrite nth_error_map. destruct (nth_error l i); reflexivity. Qed.
Lemma setitem_rscale a l i v : setitem (rscale a l) i (a * v) = rmapr (rscale a) (setitem l i v).
Proof.
  unfold setitem. rewrite rscale_length. destruct (i <? length l)%nat; [|reflexivity]. cbn [rmapr]. apply f_equal.
  revert i. induction l as [|x l IH]; intros [|i]; cbn; try reflexivity. f_equal. apply IH.
Qed.
Lemma dstep_units dt n ph G u w wf pu s :
  dstep (T * dt) n ph (rscale (/ T) G) u w wf pu (sc s) = rmapr sc (dstep dt n ph G u w wf pu s).
Proof.
  unfold dstep, sc. cbn [d_p0 d_r d_rms d_err d_sumsq d_it]. destruct (correl (d_r s) w n) as [rw0|]; [|reflexivity]. cbn [bind].
  destruct (Req_EM_T (sumsqR w) 0); [reflexivity|]. destruct (argmax _) as [i1|]; [|reflexivity]. cbn [bind].
  destruct (getitem (map _ rw0) i1) as [a|]; [|reflexivity]. cbn [bind]. rewrite dt0_if. destruct (Req_EM_T dt 0) as [|Hd]; [reflexivity|].
  rewrite getitem_rscale. destruct (getitem (d_p0 s) i1) as [old|]; [|reflexivity]. cbn [bind rmapr].
  replace (/ T * old + a / (T * dt)) with (/ T * (old + a / dt)) by (field; split; lra). rewrite setitem_rscale.
  destruct (setitem (d_p0 s) i1 (old + a / dt)) as [p0|]; [|reflexivity]. cbn [bind rmapr]. rewrite cscale_R, gfilter_pG.
  destruct (gfilter p0 n (map RtoC G) dt) as [pf1|]; [|reflexivity]. cbn [bind rmapr]. rewrite gfilter_pW.
  destruct (gfilter pf1 n wf dt) as [pf2|]; [|reflexivity]. cbn [bind]. destruct (Req_EM_T pu 0); [reflexivity|].
  destruct (setitem (d_rms s) (d_it s) _) as [rms|]; [|reflexivity]. reflexivity.
Qed.
Lemma dloop_units dt me itmax n ph G u w wf pu fuel : forall s,
  dloop (T * dt) me itmax n ph (rscale (/ T) G) u w wf pu fuel (sc s) = rmapr sc (dloop dt me itmax n ph G u w wf pu fuel s).
Proof.
  induction fuel as [|fuel IH]; intro s; cbn [dloop]; [reflexivity|]. change (d_err (sc s)) with (d_err s). change (d_it (sc s)) with (d_it s).
  destruct (_ && _)%bool; [|reflexivity]. rewrite dstep_units. destruct (dstep dt n ph G u w wf pu s) as [s'|]; [|reflexivity]. cbn [bind rmapr]. apply IH.
Qed.
Lemma phaseshift_units x n dt pre : phaseshift (rscale (/ T) x) n (T * dt) (T * pre) = rmapr (rscale (/ T)) (phaseshift x n dt pre).
Proof.
  unfold phaseshift. rewrite dt0_if. destruct (Req_EM_T dt 0) as [|Hd]; [reflexivity|]. cbv zeta.
  replace (T * pre / (T * dt)) with (pre / dt) by (field; split; lra). rewrite cscale_R, fft_cscale, cprod_l.
  destruct (cprod _ _) as [X|]; [|reflexivity]. cbn [bind rmapr]. destruct (Req_EM_T _ 0); [reflexivity|]. apply (f_equal Ok).
  rewrite ifft_cscale. unfold cscale, rscale. rewrite !map_map. apply map_ext. intros [p q]. cunf. ring.
Qed.

Theorem C110_iterative uin win dt nt preonset gaussian itmax minderr phase :
  deconv_iterative uin win (T * dt) nt (T * preonset) (gaussian / T) itmax minderr phase =
  rmapr (fun '(rf, rms, it) => (map (fun v => v / T) rf, rms, it)) (deconv_iterative uin win dt nt preonset gaussian itmax minderr phase).
Proof.
  unfold deconv_iterative. destruct (negb _); [reflexivity|]. cbv zeta. destruct (next_pow_2 _) as [n|]; [|reflexivity]. cbn [bind].
  destruct (put_prefix n _ uin) as [u0|]; [|reflexivity]. cbn [bind]. destruct (put_prefix n _ win) as [w0|]; [|reflexivity]. cbn [bind].
  rewrite gauss_units. destruct (gaussFilter dt n gaussian) as [G|]; [|reflexivity]. cbn [bind rmapr]. rewrite cscale_R, !gfilter_G.
  destruct (gfilter u0 n (map RtoC G) dt) as [u|]; [|reflexivity]. cbn [bind]. destruct (gfilter w0 n (map RtoC G) dt) as [w|]; [|reflexivity]. cbn [bind].
  match goal with |- context [dloop dt _ _ _ _ _ _ _ _ _ _ ?s0] => assert (E : s0 = sc s0) by (unfold sc; cbn [d_p0 d_r d_rms d_err d_sumsq d_it]; rewrite rscale_repeat0; reflexivity) end.
  rewrite E at 1. rewrite dloop_units. destruct (dloop dt _ _ _ _ _ _ _ _ _ _ _) as [s|]; [|reflexivity]. cbn [bind rmapr].
  change (d_p0 (sc s)) with (rscale (/ T) (d_p0 s)). rewrite gfilter_pG. destruct (gfilter (d_p0 s) n (map RtoC G) dt) as [pf|]; [|reflexivity]. cbn [bind rmapr].
  rewrite phaseshift_units. destruct (phaseshift pf n dt preonset) as [q|]; [|reflexivity]. cbn [bind rmapr].
  change (d_rms (sc s)) with (d_rms s). change (d_it (sc s)) with (d_it s). rewrite <- slice_rscale. apply (f_equal Ok). f_equal. f_equal.
  unfold rscale. apply map_ext. intro. field. lra.
Qed.

(** *** Water level method *)
Lemma rsum_rscale a l : rsum (length (rscale a l)) (rnth (rscale a l)) = a * rsum (length l) (rnth l).
Proof. rewrite rscale_length, <- rsum_scale. apply rsum_ext. intros. apply rscale_nth. Qed.
Lemma sumsq_rscale a l : sumsqR (rscale a l) = a * a * sumsqR l.
Proof. unfold sumsqR. rewrite rscale_length, <- rsum_scale. apply rsum_ext. intros. rewrite rscale_nth. ring. Qed.
Lemma diff_rscale a x : forall y, map (fun ab => fst ab - snd ab) (combine (rscale a x) (rscale a y)) = rscale a (map (fun ab => fst ab - snd ab) (combine x y)).
Proof. induction x as [|v x IH]; intros [|w y]; try reflexivity. unfold rscale in *. cbn. f_equal; [ring|apply IH]. Qed.
Lemma map_slice_Re a X i j : map Re (slice (cscale a X) i j) = rscale a (map Re (slice X i j)).
Proof. rewrite <- Re_cscale. f_equal. unfold slice, cscale. rewrite skipn_map, firstn_map. reflexivity. Qed.

Theorem C110_waterlevel uin win dt preonset wlevel gaussian normalize :
  deconv_waterlevel uin win (T * dt) (T * preonset) wlevel (gaussian / T) normalize =
  rmapr (fun '(rf, rms) => (if normalize then rf else map (fun v => v / T) rf, rms)) (deconv_waterlevel uin win dt preonset wlevel gaussian normalize).
Proof.
  unfold deconv_waterlevel. destruct (negb _); [reflexivity|]. cbv zeta. destruct (next_pow_2 _) as [n|] eqn:En; [|reflexivity]. cbn [bind].
  assert (Hn : INR n <> 0).
  { unfold next_pow_2 in En. destruct (_ =? 0)%nat; [discriminate|]. injection En as <-. apply not_0_INR. apply Nat.pow_nonzero. lia. }
  replace (2 * (T * dt)) with (T * (2 * dt)) by ring. rewrite dt0_if. destruct (Req_EM_T (2 * dt) 0) as [|Hd]; [reflexivity|].
  destruct (pymax _) as [dmax|]; [|reflexivity]. cbn [bind]. set (dfl := map (fun d : R => if Rlt_dec d _ then _ else d) _).
  rewrite gauss_units. destruct (gaussFilter dt n gaussian) as [G|]; [|reflexivity]. cbn [bind rmapr]. rewrite cscale_R, !cprod_l.
  destruct (cprod (map RtoC G) (fft (map RtoC uin) n)) as [ug|]; [|reflexivity]. cbn [bind rmapr]. rewrite cprod_l.
  destruct (cprod ug _) as [nf|]; [|reflexivity]. cbn [bind rmapr]. destruct (existsb _ dfl); [reflexivity|]. rewrite cmul2_l. set (rff := cmul2 nf _).
  rewrite cprod_l. destruct (cprod rff _) as [upf|]; [|reflexivity]. cbn [bind rmapr]. rewrite cprod_l.
  set (fr := map (fun k => 1 / (2 * dt) / (1 / 2 * INR n) * INR k) (seq 0 ((n + 1) / 2 + 1))).
  replace (map (fun k => 1 / (T * (2 * dt)) / (1 / 2 * INR n) * INR k) (seq 0 ((n + 1) / 2 + 1))) with (rscale (/ T) fr)
    by (unfold fr, rscale; rewrite map_map; apply map_ext; intro; field; repeat split; lra).
  set (w := map (fun x => 2 * PI * x) fr).
  replace (map (fun x => 2 * PI * x) (rscale (/ T) fr)) with (rscale (/ T) w) by (unfold w, rscale; rewrite !map_map; apply map_ext; intro; ring).
  replace (map (fun x => cis (- (x * (T * preonset)))) (rscale (/ T) w ++ map Ropp (rev (slice (rscale (/ T) w) 1 (length (rscale (/ T) w) - 1)))))
    with (map (fun x => cis (- (x * preonset))) (w ++ map Ropp (rev (slice w 1 (length w - 1))))).
  2: { rewrite rscale_length, <- slice_rscale, <- rscale_rev. unfold rscale. rewrite !map_app, !map_map. f_equal; apply map_ext; intro; apply (f_equal cis); field; lra. }
  destruct (cprod rff _) as [rf2|]; [|reflexivity]. cbn [bind rmapr]. rewrite !ifft_cscale, !Re_cscale, map_slice_Re, <- !slice_rscale, diff_rscale, !sumsq_rscale.
  set (ut := slice (map Re (ifft ug n)) 0 (length uin)). set (upt := slice (map Re (ifft upf n)) 0 (length uin)). set (rft := map Re (slice (ifft rf2 n) 0 (length uin))).
  assert (HTT : / T * / T <> 0) by (apply Rmult_integral_contrapositive_currified; apply Rinv_neq_0_compat; lra).
  match goal with |- context [if Req_EM_T (/ T * / T * sumsqR ut) 0 then None else ?x] =>
    assert (ER : (if Req_EM_T (/ T * / T * sumsqR ut) 0 then None else x) = (if Req_EM_T (sumsqR ut) 0 then None else Some (sumsqR (map (fun ab => fst ab - snd ab) (combine upt ut)) / sumsqR ut))) end.
  { destruct (Req_EM_T (sumsqR ut) 0) as [Z|Z], (Req_EM_T (/ T * / T * sumsqR ut) 0) as [Q|Q]; try reflexivity.
    - exfalso. apply Q. rewrite Z. ring.
    - exfalso. apply Rmult_integral in Q as [Q|Q]; contradiction.
    - apply f_equal. field. split; lra. }
  rewrite ER. clear ER. destruct normalize.
  - rewrite rsum_rscale. set (g0 := rsum (length G) (rnth G)).
    replace (/ T * g0 * (1 / (T * (2 * dt)) / (1 / 2 * INR n)) * (T * dt)) with (/ T * (g0 * (1 / (2 * dt) / (1 / 2 * INR n)) * dt)) by (field; repeat split; lra).
    set (gn := g0 * (1 / (2 * dt) / (1 / 2 * INR n)) * dt). destruct (Req_EM_T gn 0) as [Z|Z], (Req_EM_T (/ T * gn) 0) as [Q|Q]; try reflexivity.
    + exfalso. apply Q. rewrite Z. ring.
    + exfalso. apply Rmult_integral in Q as [Q|Q]; [|contradiction]. pose proof (Rinv_0_lt_compat _ HT). lra.
    + cbn [rmapr]. apply (f_equal Ok). f_equal. unfold rscale. rewrite map_map. apply map_ext. intro. field. split; lra.
  - cbn [rmapr]. apply (f_equal Ok). f_equal. unfold rscale. apply map_ext. intro. field. lra.
Qed.
End TimeUnit.
