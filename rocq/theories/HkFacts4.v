(** * HkFacts4: introduction lemmas and cross-program equalities. *)

From Coq Require Import Reals Lra Psatz Permutation Floats.SpecFloat.
From Verif Require Import Base Num NumPy Spec HkModel HkProofs HkReal HkFacts HkFacts2 HkFacts3.

Section Intro.
Context {N : Num} (km1 : N) (stackO : stream N -> res (list (trace N)))
  (draw : list (row N) -> res unit).

Lemma hk_intro rfstream preonset H K Vp w1 w2 w3 layer stack st0 SR tr0 rows ib u :
  stackO rfstream = Ok (st0 :: SR) -> nth_error rfstream 0 = Some tr0 ->
  is_table (fun k h => sumM (hk_c km1 (dflt stack false) st0 (avgslow rfstream)
       (taxis (tr_delta tr0) (length (tr_data tr0)) preonset)
       (dflt Vp (nlit 65 10)) (dflt w1 (nlit 6 10)) (dflt w2 (nlit 3 10)) (dflt w3 (nlit 1 10)) k h) rfstream)
       K H rows ->
  argmax (map rS rows) = Ok ib -> draw rows = Ok u ->
  hk km1 stackO draw rfstream preonset H K Vp w1 w2 w3 layer stack =
    Ok (mkHkRes rfstream (tr_data st0) (taxis (tr_delta tr0) (length (tr_data tr0)) preonset)
          ib (tr_sta tr0) (dflt Vp (nlit 65 10)) rows (dflt layer "Moho"%string)
          (dflt stack false) (tr_chan tr0) (avgslow rfstream) H K).
Proof.
  intros HS H0 T A D. rewrite hk_eq. rewrite HS. cbn [bind getitem nth_error].
  unfold getitem. rewrite H0. cbn [bind]. unfold is_table in T. rewrite T. cbn [bind].
  rewrite A. cbn [bind]. rewrite D. reflexivity.
Qed.

Lemma hkSynth_intro Synthrf time rayp raypk H K Vp w1 w2 w3 layer rows ib u :
  is_table (fun k h => one (contrib (dflt w1 (nlit 6 10)) (dflt w2 (nlit 3 10)) (dflt w3 (nlit 1 10))
       Synthrf time (hkSynth_times (dflt Vp (nlit 65 10)) rayp raypk h k))) K H rows ->
  argmax (map rS rows) = Ok ib -> draw rows = Ok u ->
  hkSynth draw Synthrf time rayp raypk H K Vp w1 w2 w3 layer =
    Ok (mkHksRes Synthrf time ib (dflt Vp (nlit 65 10)) rows (dflt layer "Moho"%string) rayp H K).
Proof.
  intros T A D. rewrite hkSynth_eq. cbn zeta. unfold is_table in T. rewrite T. cbn [bind].
  rewrite A. cbn [bind]. rewrite D. reflexivity.
Qed.

Lemma sumM_single {A} (c : A -> res N) x : sumM c [x] = one (c x).
Proof. unfold sumM, one. simpl. destruct (c x); reflexivity. Qed.

Lemma lastv_single {A} (c : A -> res N) x : lastv c [x] = one (c x).
Proof. unfold lastv, lastM, one. simpl. destruct (c x); reflexivity. Qed.

Lemma bind_ext {A B} (x : res A) (f g : A -> res B) : (forall a, f a = g a) -> bind x f = bind x g.
Proof. intro E. destruct x; simpl; auto. Qed.

Lemma mapM_mkrow_ext (f g : N -> N -> res N) K H : (forall k h, f k h = g k h) ->
  mapM (mkrow_of f) (list_prod K H) = mapM (mkrow_of g) (list_prod K H).
Proof. intro E. apply mapM_ext. intros [k h] _. unfold mkrow_of. simpl. rewrite E. reflexivity. Qed.

Lemma contribO_inv (w1 w2 w3 : option N) data t ts v :
  contribO w1 w2 w3 data t ts = Ok v ->
  exists x1 x2 x3 ts', w1 = Some x1 /\ w2 = Some x2 /\ w3 = Some x3 /\ ts = Ok ts' /\
    contrib x1 x2 x3 data t (Ok ts') = Ok v.
Proof.
  unfold contribO. destruct ts as [[[t1 t2] t3]|e]; [|discriminate]. cbn [bind].
  intro E. destruct w1 as [x1|]; [|binv E; discriminate].
  destruct w2 as [x2|]; [|binv E; discriminate].
  destruct w3 as [x3|]; [|binv E; discriminate].
  exists x1, x2, x3, (t1, t2, t3). repeat (split; [reflexivity|]). exact E.
Qed.

Lemma one_inv (c : res N) v : one c = Ok v -> exists y, c = Ok y /\ v = nadd y (nofZ 0).
Proof. unfold one. intro E. binv E. inversion E; subst. eauto. Qed.

End Intro.

(** ** Post-critical reads *)

Lemma sf_add_nan_r x : sf_add x S754_nan = S754_nan.
Proof. destruct x; reflexivity. Qed.
Lemma sf_sub_nan_r x : sf_sub x S754_nan = S754_nan.
Proof. destruct x; reflexivity. Qed.
Lemma sf_mul_nan_r x : sf_mul x S754_nan = S754_nan.
Proof. destruct x; reflexivity. Qed.
Lemma sf_sqrt_neg x : SFltb x (sf_ofZ 0) = true -> sf_sqrt x = S754_nan.
Proof.
  destruct x as [s|s| |s m e]; cbn; try discriminate; destruct s; try discriminate; reflexivity.
Qed.

Section PC.
Local Open Scope R_scope.
Lemma hk_times_post Vp p H K : 0 < Vp -> (1 / Vp) ^ 2 < p ^ 2 ->
  exists im, @hk_times RN Vp p PyF H K =
    Ok (TC (H * qs Vp K p) (- im), TC (H * qs Vp K p) im, TR (t_PsPs Vp p H K)).
Proof.
  intros HV Hp. unfold hk_times, pyinv.
  replace (neqb Vp (nofZ 0)) with false; cbn [bind].
  2:{ symmetry. simpl. unfold Reqb. destruct (Req_EM_T Vp 0); [lra|reflexivity]. }
  unfold proot.
  replace (nltb (nsub (nsq (ndiv (nofZ 1) Vp)) (nsq p)) (nofZ 0)) with true.
  2:{ symmetry. simpl. apply Rltb_true. simpl in *. nra. }
  exists (H * sqrt (p ^ 2 - (1 / Vp) ^ 2)). f_equal. simpl rmult. unfold qs, t_PsPs, qs.
  assert (E : sqrt ((K / Vp) ^ 2 - p ^ 2) = sqrt (K / Vp * (K / Vp) - p * p)).
  { f_equal. ring. }
  assert (E2 : sqrt (p ^ 2 - (1 / Vp) ^ 2) = sqrt (- (1 / Vp * (1 / Vp) - p * p))).
  { f_equal. ring. }
  rewrite E, E2. simpl. f_equal; [f_equal|]; f_equal; ring.
Qed.
End PC.
