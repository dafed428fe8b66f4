(** * WaveProofs: equations for the waveform-fitting model. *)

From Coq Require Import Reals Lra Permutation.
From Verif Require Import Base Num NumPy Spec HkModel PlotModel PoolModel PoolProofs P_Pool WaveModel.

Section Any.
Context {N : Num}.
Context (stackR : stream N -> res (list (trace N)))
        (synO : list N -> list N -> list N -> list N -> N -> N -> nat -> N -> N -> res (list N))
        (pgO : list N -> list N -> N -> res N).

(** ** Writing rows into a table of zeros *)
Lemma upd_app {A} (l1 l2 : list A) x : upd (l1 ++ l2) (length l1) x = match l2 with [] => l1 | _ :: l2' => l1 ++ x :: l2' end.
Proof.
  induction l1 as [|y l1 IH]; cbn [app length upd]; [destruct l2; reflexivity|].
  rewrite IH. destruct l2; reflexivity.
Qed.
Lemma fill_loop rows : forall n (pre : list (@sol N)), 
  forM rows (fun r (s : nat * list sol) => let '(z, tb) := s in tb' <- setitem tb z r ;; Ok (S z, tb')) (length pre, pre ++ repeat zsol n) =
  if length rows <=? n then Ok (length pre + length rows, pre ++ rows ++ repeat zsol (n - length rows)) else Err IndexError.
Proof.
  induction rows as [|r rows IH]; intros n pre; cbn [forM length].
  - rewrite Nat.sub_0_r, Nat.add_0_r. reflexivity.
  - assert (E : setitem (pre ++ repeat zsol n) (length pre) r = if length pre <? length (pre ++ repeat (@zsol N) n) then Ok (upd (pre ++ repeat zsol n) (length pre) r) else Err IndexError) by reflexivity.
    rewrite E, app_length, repeat_length. clear E. destruct n as [|n].
    + rewrite Nat.add_0_r, Nat.ltb_irrefl. reflexivity.
    + destruct (Nat.ltb_spec (length pre) (length pre + S n)) as [_|L]; [|lia]. cbn [bind repeat].
      rewrite upd_app. cbv beta iota. specialize (IH n (pre ++ [r])). rewrite app_length in IH. cbn [length] in IH.
      rewrite Nat.add_1_r, <- app_assoc in IH. cbn [app] in IH. rewrite IH. cbn [Nat.leb Nat.sub].
      destruct (length rows <=? n); [|reflexivity]. rewrite <- app_assoc. do 2 f_equal. lia.
Qed.
Lemma fill_eq n (rows : list (@sol N)) :
  fill n rows = if length rows <=? n then Ok (rows ++ repeat zsol (n - length rows)) else Err IndexError.
Proof.
  unfold fill. pose proof (fill_loop rows n []) as E. cbn [length app] in E. rewrite E. destruct (length rows <=? n); reflexivity.
Qed.
Lemma fill_exact (rows : list (@sol N)) : fill (length rows) rows = Ok rows.
Proof. rewrite fill_eq, Nat.leb_refl, Nat.sub_diag. cbn [repeat]. rewrite app_nil_r. reflexivity. Qed.

(** ** The grid loops *)
Lemma append_loop {A B} (f : A -> res B) l acc :
  forM l (fun a acc => s <- f a ;; Ok (acc ++ [s])) acc = (r <- mapM f l ;; Ok (acc ++ r)).
Proof.
  revert acc. induction l as [|a l IH]; intro acc; cbn [forM mapM]; [cbn; rewrite app_nil_r; reflexivity|].
  destruct (f a) as [b|e]; cbn [bind]; [|reflexivity]. rewrite IH. destruct (mapM f l) as [r|e]; cbn [bind]; [|reflexivity].
  rewrite <- app_assoc. reflexivity.
Qed.
Lemma mapM_app {A B} (f : A -> res B) l1 l2 : mapM f (l1 ++ l2) = (a <- mapM f l1 ;; b <- mapM f l2 ;; Ok (a ++ b)).
Proof.
  induction l1 as [|x l1 IH]; cbn [app mapM bind].
  - destruct (mapM f l2); reflexivity.
  - destruct (f x) as [y|e]; cbn [bind]; [|reflexivity]. rewrite IH. destruct (mapM f l1) as [a|e]; cbn [bind]; [|reflexivity].
    destruct (mapM f l2) as [b|e]; cbn [bind]; reflexivity.
Qed.
Lemma mapM_map {A B D} (f : B -> res D) (g : A -> B) l : mapM f (map g l) = mapM (fun a => f (g a)) l.
Proof. induction l as [|x l IH]; cbn [map mapM]; [reflexivity|]. rewrite IH. reflexivity. Qed.
(** The serial table is K-major. *)
Lemma serial_table (ev : N -> N -> res (@sol N)) Ks Hs acc :
  forM Ks (fun Ktemp acc => forM Hs (fun Htemp acc => s <- ev Htemp Ktemp ;; Ok (acc ++ [s])) acc) acc =
  (r <- mapM (fun kh => ev (snd kh) (fst kh)) (list_prod Ks Hs) ;; Ok (acc ++ r)).
Proof.
  revert acc. induction Ks as [|k Ks IH]; intro acc; cbn [forM list_prod]; [cbn; rewrite app_nil_r; reflexivity|].
  rewrite append_loop, mapM_app, mapM_map. cbn [fst snd]. destruct (mapM (fun h => ev h k) Hs) as [r|e]; cbn [bind]; [|reflexivity].
  rewrite IH. destruct (mapM _ (list_prod Ks Hs)) as [r'|e]; cbn [bind]; [|reflexivity]. rewrite app_assoc. reflexivity.
Qed.
(** The multiprocessing table is H-major. *)
Lemma multi_table (ev : N -> N -> res (@sol N)) Ks Hs res :
  mapM (fun h => mapM (ev h) Ks) Hs = Ok res ->
  mapM (fun hk => ev (fst hk) (snd hk)) (list_prod Hs Ks) = Ok (concat res).
Proof.
  revert res. induction Hs as [|h Hs IH]; intros res E; cbn [mapM list_prod] in *; [inversion E; reflexivity|].
  apply bind_Ok_inv in E as (r & Er & E). apply bind_Ok_inv in E as (rs & Ers & E). inversion E; subst.
  rewrite mapM_app, mapM_map. cbn [fst snd]. change (mapM (fun a => ev h a) Ks) with (mapM (ev h) Ks). rewrite Er. cbn [bind].
  rewrite (IH rs Ers). reflexivity.
Qed.
Lemma multi_table_conv (ev : N -> N -> res (@sol N)) Ks Hs T :
  mapM (fun hk => ev (fst hk) (snd hk)) (list_prod Hs Ks) = Ok T ->
  exists res, mapM (fun h => mapM (ev h) Ks) Hs = Ok res /\ concat res = T.
Proof.
  revert T. induction Hs as [|h Hs IH]; intros T E; cbn [mapM list_prod] in *; [inversion E; exists []; auto|].
  rewrite mapM_app, mapM_map in E. cbn [fst snd] in E. apply bind_Ok_inv in E as (r & Er & E). apply bind_Ok_inv in E as (rs & Ers & E). inversion E; subst.
  destruct (IH rs Ers) as (res & E1 & <-). exists (r :: res). change (mapM (fun a => ev h a) Ks) with (mapM (ev h) Ks) in Er. rewrite Er. cbn [bind]. rewrite E1. auto.
Qed.

Lemma mapM_perm {A B} (f : A -> res B) l l' r : Permutation l l' -> mapM f l = Ok r -> exists r', mapM f l' = Ok r' /\ Permutation r r'.
Proof.
  intro P. revert r. induction P as [|x l l' P IH|x y l|l1 l2 l3 P1 IH1 P2 IH2]; intros r E.
  - inversion E. exists []. auto.
  - cbn [mapM] in E. apply bind_Ok_inv in E as (a & Ea & E). apply bind_Ok_inv in E as (b & Eb & E). inversion E; subst.
    destruct (IH b Eb) as (b' & Eb' & Pb). exists (a :: b'). cbn [mapM]. rewrite Ea. cbn [bind]. rewrite Eb'. auto.
  - cbn [mapM] in E. apply bind_Ok_inv in E as (a & Ea & E). apply bind_Ok_inv in E as (c & Ec & E).
    apply bind_Ok_inv in Ec as (b & Eb & Ec). apply bind_Ok_inv in Ec as (d & Ed & Ec). inversion Ec; subst. inversion E; subst.
    exists (b :: a :: d). cbn [mapM]. rewrite Ea, Eb, Ed. cbn [bind]. split; [reflexivity|apply perm_swap].
  - destruct (IH1 r E) as (r2 & E2 & Q1). destruct (IH2 r2 E2) as (r3 & E3 & Q2). exists r3. split; [exact E3|]. etransitivity; eassumption.
Qed.
Lemma prod_swap {A B} (l : list A) (m : list B) : Permutation (map (fun p => (snd p, fst p)) (list_prod l m)) (list_prod m l).
Proof.
  induction l as [|x l IH].
  - cbn [list_prod map]. induction m as [|y m IHm]; cbn [list_prod map app]; [constructor|exact IHm].
  - cbn [list_prod]. rewrite map_app, map_map. cbn [fst snd].
    assert (G : forall m : list B, Permutation (list_prod m (x :: l)) (map (fun y => (y, x)) m ++ list_prod m l)).
    { clear. induction m as [|y m IH]; cbn [list_prod map app]; [constructor|]. constructor.
      rewrite IH. rewrite !app_assoc. apply Permutation_app_tail. apply Permutation_app_comm. }
    rewrite G. apply Permutation_app_head. exact IH.
Qed.

Lemma WaveformPara_inv rf po HS VpS VpC rp Ks Hs ga Ps :
  WaveformPara stackR rf po HS VpS VpC rp Ks Hs ga = Ok Ps ->
  exists tr0 rf' st0 SR t0 ts s e,
    rf = tr0 :: rf' /\ stackR rf = Ok (st0 :: SR) /\
    taxis (tr_delta tr0) (length (tr_data tr0)) po = t0 :: ts /\
    fit_window (t0 :: ts) (tr_delta tr0) = Ok (s, e) /\
    Ps = [mkWp rf rp ga HS VpS VpC (brocher_vs VpS) (brocher_rho VpS) (brocher_rho VpC) Hs Ks (tr_delta tr0) (t0 :: ts)
             (tr_sta tr0) (tr_data st0) (nabs t0) (length (tr_data st0)) s e].
Proof.
  unfold WaveformPara. intro H. apply bind_Ok_inv in H as (tr0 & H0 & H). destruct rf as [|tr0' rf']; [discriminate|]. inversion H0; subst tr0'.
  apply bind_Ok_inv in H as (SR & HS1 & H). apply bind_Ok_inv in H as (st0 & H2 & H). destruct SR as [|st0' SR]; [discriminate|]. inversion H2; subst st0'.
  apply bind_Ok_inv in H as (t0 & H3 & H). destruct (taxis (tr_delta tr0) (length (tr_data tr0)) po) as [|t0' ts] eqn:Et; [discriminate|]. inversion H3; subst t0'.
  apply bind_Ok_inv in H as ([s e] & H4 & H). inversion H; subst. exists tr0, rf', st0, SR, t0, ts, s, e. auto.
Qed.

(** ** The serial run *)
Lemma WaveformFitting_eq rf po HS VpS VpC rp Ks Hs ga a b c :
  WaveformFitting stackR synO pgO rf po HS VpS VpC rp Ks Hs ga a b c =
  (Ps <- WaveformPara stackR rf po HS VpS VpC rp Ks Hs ga ;; P <- getitem Ps 0 ;;
   T <- mapM (fun kh => eval_node synO pgO P (snd kh) (fst kh)) (list_prod Ks Hs) ;;
   W <- rank a b c T ;; bm <- best_rows W ;; Ok (mkWf W rf HS VpS VpC rp Ks Hs ga bm)).
Proof.
  unfold WaveformFitting. destruct (WaveformPara _ _ _ _ _ _ _ _ _ _) as [Ps|e]; [|reflexivity]. cbn [bind].
  destruct (getitem Ps 0) as [P|e]; [|reflexivity]. cbn [bind].
  rewrite (serial_table (fun h k => eval_node synO pgO P h k)). destruct (mapM _ (list_prod Ks Hs)) as [T|e]; [|reflexivity].
  cbn [bind app]. rewrite fill_exact. reflexivity.
Qed.

(** ** The parallel run *)
Lemma fit_eq h (P : wparams) Ps : WaveformFit_multiproc synO pgO ([h], P :: Ps) = mapM (eval_node synO pgO P h) (wp_KMoho P).
Proof.
  unfold WaveformFit_multiproc. cbn [getitem nth_error bind]. rewrite (append_loop (fun k => eval_node synO pgO P h k)).
  change (mapM (fun a => eval_node synO pgO P h a) (wp_KMoho P)) with (mapM (eval_node synO pgO P h) (wp_KMoho P)).
  destruct (mapM _ _) as [r|e]; reflexivity.
Qed.
Lemma run_spec nproc Hs (P : wparams) r : 0 < nproc -> run_waveformfitting synO pgO nproc Hs [P] (Ok r) ->
  exists res, mapM (fun h => mapM (eval_node synO pgO P h) (wp_KMoho P)) Hs = Ok res /\ r = map Some res.
Proof.
  intros Hp H. unfold run_waveformfitting in H.
  destruct (mapM (WaveformFit_multiproc synO pgO) (map (fun h => ([h], [P])) Hs)) as [res|e] eqn:E.
  - exists res. split.
    + rewrite mapM_map in E. rewrite <- E. clear. induction Hs as [|h Hs IH]; cbn [mapM]; [reflexivity|]. rewrite fit_eq, IH. reflexivity.
    + pose proof (C46_returns_ok _ _ _ _ _ Hp E H) as X. inversion X. reflexivity.
  - destruct (C46_returns_err _ _ _ _ _ Hp E H) as (x & e' & _ & _ & X). discriminate.
Qed.
Lemma run_conv nproc Hs (P : wparams) res : 0 < nproc -> mapM (fun h => mapM (eval_node synO pgO P h) (wp_KMoho P)) Hs = Ok res ->
  forall r, run_waveformfitting synO pgO nproc Hs [P] r <-> r = Ok (map Some res).
Proof.
  intros Hp E. assert (E' : mapM (WaveformFit_multiproc synO pgO) (map (fun h => ([h], [P])) Hs) = Ok res).
  { rewrite mapM_map, <- E. clear. induction Hs as [|h Hs IH]; cbn [mapM]; [reflexivity|]. rewrite fit_eq, IH. reflexivity. }
  intro r. split; [intro H; exact (C46_returns_ok _ _ _ _ _ Hp E' H)|]. intros ->.
  destruct (C46_pool_returns (WaveformFit_multiproc synO pgO) nproc (map (fun h => ([h], [P])) Hs) Hp) as [r Hr].
  pose proof (C46_returns_ok _ _ _ _ _ Hp E' Hr). subst r. exact Hr.
Qed.

Lemma eval_node_HK P h k s : eval_node synO pgO P h k = Ok s -> so_H s = h /\ so_K s = k.
Proof.
  unfold eval_node. intro H. apply bind_Ok_inv in H as (rf & _ & H). apply bind_Ok_inv in H as (c & _ & H).
  apply bind_Ok_inv in H as (r & _ & H). apply bind_Ok_inv in H as (p & _ & H). inversion H. split; reflexivity.
Qed.
End Any.
