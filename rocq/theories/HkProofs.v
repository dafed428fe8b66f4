(** * HkProofs: lemmas about the H-k model. *)

From Coq Require Import Reals Lra.
From Verif Require Import Base Num NumPy Spec HkModel.

(** ** The double loop filling the stack table *)

Section Grid.
Context {N : Num}.

Definition mkrow_of (f : N -> N -> res N) (kh : N * N) : res (row N) :=
  v <- f (fst kh) (snd kh) ;; Ok (mkRow (snd kh) (fst kh) v).

(** Inner loop step with extra loop state [q]. *)
Definition stepq {Q} (node : N -> N -> Q -> res (N * Q)) (k h : N) (st : list (row N) * nat * Q)
  : res (list (row N) * nat * Q) :=
  let '(stk, z, q) := st in
  sq <- node k h q ;;
  let '(s, q) := sq in
  stk <- setitem stk z (mkRow h k s) ;;
  Ok (stk, S z, q).

Lemma upd_app_length {A} (pre suf : list A) x y :
  upd (pre ++ x :: suf) (length pre) y = (pre ++ [y]) ++ suf.
Proof.
  induction pre as [|a pre IH]; simpl; [reflexivity|]. rewrite IH; reflexivity.
Qed.

Lemma stepq_loop {Q} (Inv : nat -> Q -> Prop) (node : N -> N -> Q -> res (N * Q))
  (f : N -> N -> res N) (total : nat) :
  (forall n q k h, n < total -> Inv n q ->
     match f k h with
     | Ok v => exists q', node k h q = Ok (v, q') /\ Inv (S n) q'
     | Err e => node k h q = Err e
     end) ->
  forall (khs : list (N * N)) pre suf q,
  length suf = length khs -> length pre + length khs <= total ->
  Inv (length pre) q ->
  match mapM (mkrow_of f) khs with
  | Ok rows => exists q', forM khs (fun kh => stepq node (fst kh) (snd kh)) (pre ++ suf, length pre, q)
                 = Ok (pre ++ rows, length pre + length khs, q')
  | Err e => forM khs (fun kh => stepq node (fst kh) (snd kh)) (pre ++ suf, length pre, q) = Err e
  end.
Proof.
  intros Hn. induction khs as [|[k h] khs IH]; intros pre suf q Hs Hl Hq; simpl.
  - destruct suf; [|discriminate]. exists q. rewrite Nat.add_0_r. reflexivity.
  - destruct suf as [|r0 suf]; [discriminate|]. simpl in Hs, Hl.
    specialize (Hn (length pre) q k h ltac:(lia) Hq).
    unfold mkrow_of at 1; simpl.
    destruct (f k h) as [v|e] eqn:Ef; simpl.
    + destruct Hn as [q' [En Hq']]. rewrite En; simpl.
      unfold setitem. rewrite (proj2 (Nat.ltb_lt _ _)) by (rewrite app_length; simpl; lia).
      simpl. rewrite upd_app_length.
      assert (El : S (length pre) = length (pre ++ [mkRow h k v])) by (rewrite app_length; simpl; lia).
      rewrite El.
      specialize (IH (pre ++ [mkRow h k v]) suf q' ltac:(lia)).
      rewrite <- El in IH. specialize (IH ltac:(simpl; lia) Hq').
      rewrite <- El.
      destruct (mapM (mkrow_of f) khs) as [rows|e] eqn:Em; simpl.
      * destruct IH as [q'' E]. exists q''. rewrite E, <- app_assoc. simpl.
        do 2 f_equal. f_equal. lia.
      * exact IH.
    + rewrite Hn; reflexivity.
Qed.

Lemma forM_nested {A B S} (K : list A) (H : list B) (body : A -> B -> S -> res S) s :
  forM K (fun k s => forM H (fun h => body k h) s) s
  = forM (list_prod K H) (fun kh => body (fst kh) (snd kh)) s.
Proof.
  revert s; induction K as [|k K IH]; intro s; simpl; [reflexivity|].
  rewrite forM_app, forM_map. simpl.
  destruct (forM H (fun h : B => body k h) s); simpl; auto.
Qed.

Lemma zerosT_length n : length (@zerosT N n) = n.
Proof. apply repeat_length. Qed.

(** The whole double loop: either all nodes evaluate and the table holds
    exactly the grid in K-major order, or the first failing node's exception is
    raised. *)
Lemma grid_q {Q} (Inv : nat -> Q -> Prop) (node : N -> N -> Q -> res (N * Q))
  (f : N -> N -> res N) (K H : list N) q0 :
  (forall n q k h, n < length K * length H -> Inv n q ->
     match f k h with
     | Ok v => exists q', node k h q = Ok (v, q') /\ Inv (S n) q'
     | Err e => node k h q = Err e
     end) ->
  Inv 0 q0 ->
  match mapM (mkrow_of f) (list_prod K H) with
  | Ok rows => exists z q', forM K (fun k st => forM H (fun h => stepq node k h) st)
                 (zerosT (length K * length H), 0, q0) = Ok (rows, z, q')
  | Err e => forM K (fun k st => forM H (fun h => stepq node k h) st)
                 (zerosT (length K * length H), 0, q0) = Err e
  end.
Proof.
  intros Hn Hq. rewrite (forM_nested K H (stepq node)).
  pose proof (stepq_loop Inv node f (length K * length H) Hn (list_prod K H) []
    (zerosT (length K * length H)) q0) as P.
  rewrite zerosT_length, prod_length in P. simpl in P.
  specialize (P eq_refl (Nat.le_refl _) Hq).
  destruct (mapM (mkrow_of f) (list_prod K H)); [|exact P].
  destruct P as [q' E]. eauto.
Qed.

(** Variant without extra state. *)
Definition stepu (node : N -> N -> res N) (k h : N) (st : list (row N) * nat)
  : res (list (row N) * nat) :=
  let '(stk, z) := st in
  s <- node k h ;;
  stk <- setitem stk z (mkRow h k s) ;;
  Ok (stk, S z).

Lemma stepu_q node khs st :
  forM khs (fun kh => stepq (fun k h (q : unit) => v <- node k h ;; Ok (v, q)) (fst kh) (snd kh))
    (st, tt)
  = (r <- forM khs (fun kh => stepu node (fst kh) (snd kh)) st ;; Ok (r, tt)).
Proof.
  revert st; induction khs as [|[k h] khs IH]; intros [stk z]; [reflexivity|].
  cbn -[setitem]. destruct (node k h) as [v|e]; cbn -[setitem]; [|reflexivity].
  destruct (setitem stk z _); cbn -[setitem]; [|reflexivity]. apply IH.
Qed.

Lemma grid_u (node : N -> N -> res N) (K H : list N) :
  match mapM (mkrow_of node) (list_prod K H) with
  | Ok rows => exists z, forM K (fun k st => forM H (fun h => stepu node k h) st)
                 (zerosT (length K * length H), 0) = Ok (rows, z)
  | Err e => forM K (fun k st => forM H (fun h => stepu node k h) st)
                 (zerosT (length K * length H), 0) = Err e
  end.
Proof.
  rewrite (forM_nested K H (stepu node)).
  pose proof (grid_q (fun _ (_ : unit) => True) (fun k h q => v <- node k h ;; Ok (v, q)) node K H tt) as P.
  rewrite (forM_nested K H (stepq _)) in P.
  change (zerosT (length K * length H), 0, tt) with ((@zerosT N (length K * length H), 0), tt) in P.
  rewrite stepu_q in P.
  assert (P' := P ltac:(intros n q k h _ _; destruct (node k h); simpl; eauto) I); clear P.
  destruct (mapM (mkrow_of node) (list_prod K H)) as [rows|e].
  - destruct P' as [z [q' E]]. apply bind_Ok_inv in E. destruct E as [[stk z'] [E E']].
    inversion E'; subst. rewrite E. eauto.
  - destruct (forM _ _ _) as [r|e']; simpl in P'; [discriminate|]. congruence.
Qed.

(** ** Facts about a table obtained by [mapM (mkrow_of f) (list_prod K H)] *)

Definition is_table (f : N -> N -> res N) (K H : list N) (rows : list (row N)) : Prop :=
  mapM (mkrow_of f) (list_prod K H) = Ok rows.

Lemma table_length f K H rows : is_table f K H rows -> length rows = length K * length H.
Proof.
  unfold is_table. intro E. apply mapM_Ok in E. apply Forall2_len in E.
  rewrite prod_length in E. congruence.
Qed.

Lemma table_node f K H rows i j k h :
  is_table f K H rows -> nth_error K i = Some k -> nth_error H j = Some h ->
  exists v, nth_error rows (i * length H + j) = Some (mkRow h k v) /\ f k h = Ok v.
Proof.
  intros E Hk Hh. apply mapM_Ok in E.
  pose proof (nth_error_combine_prod K H i j k h Hk Hh) as P.
  destruct (Forall2_nth _ _ _ _ _ E P) as [r [Hr Er]].
  unfold mkrow_of in Er; simpl in Er. apply bind_Ok_inv in Er.
  destruct Er as [v [Ev Er]]. inversion Er; subst. eauto.
Qed.

Lemma table_row f K H rows n r :
  is_table f K H rows -> nth_error rows n = Some r ->
  exists i j, n = i * length H + j /\ j < length H /\
    nth_error K i = Some (rK r) /\ nth_error H j = Some (rH r) /\ f (rK r) (rH r) = Ok (rS r).
Proof.
  intros E Hr. pose proof (table_length _ _ _ _ E) as El.
  assert (Hn : n < length K * length H) by (rewrite <- El; apply nth_error_Some; congruence).
  destruct (Nat.eq_dec (length H) 0) as [Z|Z]; [rewrite Z in Hn; lia|].
  pose proof (Nat.div_mod n (length H) Z) as D.
  pose proof (Nat.mod_upper_bound n (length H) Z) as M.
  assert (Hi : n / length H < length K) by (apply Nat.div_lt_upper_bound; lia).
  destruct (nth_error K (n / length H)) as [k|] eqn:Ek; [|apply nth_error_None in Ek; lia].
  destruct (nth_error H (n mod length H)) as [h|] eqn:Eh; [|apply nth_error_None in Eh; lia].
  destruct (table_node f K H rows _ _ k h E Ek Eh) as [v [Ev Ef]].
  assert (n / length H * length H + n mod length H = n) by lia.
  rewrite H0 in Ev. rewrite Ev in Hr; inversion Hr; subst; simpl.
  exists (n / length H), (n mod length H). auto.
Qed.

Lemma table_nonempty f K H rows : is_table f K H rows -> K <> [] -> H <> [] -> rows <> [].
Proof.
  intros E HK HH C. apply table_length in E. subst. simpl in E.
  destruct K; [congruence|]. destruct H; [congruence|]. simpl in E. lia.
Qed.

End Grid.

(** ** getamp *)

Section Getamp.
Context {N : Num} (L : OrdLaws N).

Lemma getamp_nil (data : list N) t : getamp data [] t = Err ValueError.
Proof. reflexivity. Qed.

Lemma getamp_total (data axis : list N) t :
  axis <> [] -> exists i, i < length axis /\
    first_best leN (map (fun ti => tdist ti t) axis) i /\
    getamp data axis t = getitem data i.
Proof.
  intro Ha. unfold getamp.
  destruct (argmin_Ok_iff (map (fun ti => tdist ti t) axis)) as [i [Ei Hi]].
  { destruct axis; [congruence|discriminate]. }
  rewrite map_length in Hi. exists i. split; [assumption|]. rewrite Ei. split; [|reflexivity].
  apply argmin_first_best; assumption.
Qed.

Lemma first_best_nearest (axis : list N) x i :
  (forall ti, In ti axis -> nisnan (dist ti x) = false) ->
  first_best leN (map (fun ti => tdist ti (TR x)) axis) i -> nearest_first axis x i.
Proof.
  intros Hnn [v [Hv H]]. rewrite nth_error_map in Hv.
  destruct (nth_error axis i) as [ti|] eqn:Ei; [|discriminate].
  simpl in Hv. inversion Hv; subst. exists ti. split; [assumption|].
  assert (Hi : nisnan (dist ti x) = false) by (apply Hnn; eapply nth_error_In; eassumption).
  unfold dist in Hi.
  destruct H as [[C _]|[_ [Ha Hs]]]; [congruence|]. split.
  - intros j tj Hj. apply (Ha j (nabs (nsub tj x))). rewrite nth_error_map, Hj; reflexivity.
  - intros j tj Hlt Hj. specialize (Hs j (nabs (nsub tj x)) Hlt).
    rewrite nth_error_map, Hj in Hs. specialize (Hs eq_refl). unfold leN in Hs.
    assert (nisnan (dist tj x) = false) by (apply Hnn; eapply nth_error_In; eassumption).
    unfold dist in *. rewrite (ltb_leb N L) by assumption.
    destruct (nleb (nabs (nsub tj x)) (nabs (nsub ti x))); [|reflexivity].
    destruct Hs; reflexivity.
Qed.

(** Without NaN distances, [getamp] reads the first nearest sample. *)
Lemma getamp_nearest (data axis : list N) x :
  axis <> [] -> (forall ti, In ti axis -> nisnan (dist ti x) = false) ->
  exists i, i < length axis /\ nearest_first axis x i /\ getamp data axis (TR x) = getitem data i.
Proof.
  intros Ha Hn. destruct (getamp_total data axis (TR x) Ha) as [i [Hi [Hf E]]].
  exists i. split; [assumption|split; [|assumption]].
  apply first_best_nearest; assumption.
Qed.

Lemma getamp_allnan (data axis : list N) t :
  axis <> [] -> (forall ti, In ti axis -> nisnan (tdist ti t) = true) ->
  getamp data axis t = getitem data 0.
Proof.
  intros Ha Hn. destruct axis as [|ti axis]; [congruence|].
  unfold getamp. simpl. rewrite Hn by (left; reflexivity). reflexivity.
Qed.

Lemma nearest_first_unique (axis : list N) x i j :
  nearest_first axis x i -> nearest_first axis x j -> i = j.
Proof.
  intros [ti [Hi [Ha Hs]]] [tj [Hj [Hb Ht]]].
  assert (E : forall a b : N, nltb a b = true -> nleb b a = true -> False).
  { intros a b H1 H2. destruct (nisnan a) eqn:Na.
    - rewrite (ltb_nan_l N L) in H1 by assumption; discriminate.
    - destruct (nisnan b) eqn:Nb.
      + rewrite (ltb_nan_r N L) in H1 by assumption; discriminate.
      + rewrite (ltb_leb N L), H2 in H1 by assumption. discriminate. }
  destruct (Nat.lt_trichotomy i j) as [Hlt|[?|Hlt]]; auto; exfalso.
  - eapply E; [eapply Ht; eassumption|]. eapply Ha; eassumption.
  - eapply E; [eapply Hs; eassumption|]. eapply Hb; eassumption.
Qed.

End Getamp.

Lemma getamp_R (data axis : list RN) (x : R) a :
  @getamp RN data axis (TR x) = Ok a <-> amp_near data axis x a.
Proof.
  split.
  - intro E. destruct axis as [|t0 axis]; [discriminate|].
    destruct (getamp_nearest RN_laws data (t0 :: axis) x) as [i [Hi [Hn Eg]]]; try discriminate.
    { reflexivity. }
    rewrite Eg in E. apply getitem_Ok in E. exists i; auto.
  - intros [i [Hn Hd]].
    destruct axis as [|t0 axis]. { destruct Hn as [ti [H _]]. destruct i; discriminate. }
    destruct (getamp_nearest RN_laws data (t0 :: axis) x) as [j [Hj [Hn' Eg]]]; try discriminate.
    { reflexivity. }
    assert (i = j) by (eapply (nearest_first_unique RN_laws); eassumption). subst j.
    rewrite Eg. apply getitem_Ok; assumption.
Qed.

(** ** Functional form of the five programs *)

Section Forms.
Context {N : Num} (km1 : N) (stackO : stream N -> res (list (trace N)))
  (draw : list (row N) -> res unit).

(** Weighted sum of the three amplitudes read at the times [ts]. *)
Definition contrib (w1 w2 w3 : N) (data t : list N) (ts : res (tval N * tval N * tval N)) : res N :=
  ts <- ts ;;
  let '(tps, tppps, tpsps) := ts in
  a1 <- getamp data t tps ;;
  a2 <- getamp data t tppps ;;
  a3 <- getamp data t tpsps ;;
  Ok (nsub (nadd (nmul w1 a1) (nmul w2 a2)) (nmul w3 a3)).

Definition hk_data (stack : bool) (st0 tr : trace N) : list N :=
  if stack then tr_data st0 else tr_data tr.
Definition hk_rp (stack : bool) (avg : N) (tr : trace N) : N :=
  if stack then nmul km1 avg else nmul km1 (tr_slow tr).
Definition hk_rpk (stack : bool) (tr : trace N) : fkind :=
  if stack then NpF else tr_slowk tr.

Definition hk_c (stack : bool) (st0 : trace N) (avg : N) (t : list N) (Vp w1 w2 w3 : N)
    (k h : N) (tr : trace N) : res N :=
  contrib w1 w2 w3 (hk_data stack st0 tr) t
    (hk_times Vp (hk_rp stack avg tr) (hk_rpk stack tr) h k).

(** [s = 0; for tr in l: s = c(tr) + s] *)
Definition sumM {A} (c : A -> res N) (l : list A) : res N :=
  forM l (fun tr s => v <- c tr ;; Ok (nadd v s)) (nofZ 0).

Lemma sumM_q {A} (c : A -> res N) l s q nd :
  q + length l <= nd ->
  forM l (fun tr sq => let '(s, q) := sq in
            v <- c tr ;; let s := nadd v s in
            if q <? nd then Ok (s, S q) else Err IndexError) (s, q)
  = (s' <- forM l (fun tr s => v <- c tr ;; Ok (nadd v s)) s ;; Ok (s', q + length l)).
Proof.
  revert s q; induction l as [|x l IH]; intros s q H; simpl in *.
  - rewrite Nat.add_0_r; reflexivity.
  - destruct (c x) as [v|e]; simpl; [|reflexivity].
    rewrite (proj2 (Nat.ltb_lt q nd)) by lia. simpl.
    rewrite IH by lia. replace (S q + length l) with (q + S (length l)) by lia. reflexivity.
Qed.

Theorem hk_eq rfstream preonset H K Vp w1 w2 w3 layer stack :
  hk km1 stackO draw rfstream preonset H K Vp w1 w2 w3 layer stack =
  (StackedRF <- stackO rfstream ;;
   st0 <- getitem StackedRF 0 ;;
   tr0 <- getitem rfstream 0 ;;
   let Vp := dflt Vp (nlit 65 10) in
   let w1 := dflt w1 (nlit 6 10) in
   let w2 := dflt w2 (nlit 3 10) in
   let w3 := dflt w3 (nlit 1 10) in
   let stack := dflt stack false in
   let t := taxis (tr_delta tr0) (length (tr_data tr0)) preonset in
   rows <- mapM (mkrow_of (fun k h =>
       sumM (hk_c stack st0 (avgslow rfstream) t Vp w1 w2 w3 k h) rfstream)) (list_prod K H) ;;
   ib <- argmax (map rS rows) ;;
   _ <- draw rows ;;
   Ok (mkHkRes rfstream (tr_data st0) t ib (tr_sta tr0) Vp rows (dflt layer "Moho"%string)
         stack (tr_chan tr0) (avgslow rfstream) H K)).
Proof.
  unfold hk.
  destruct (stackO rfstream) as [SR|e]; cbn -[getitem mapM]; [|reflexivity].
  destruct (getitem SR 0) as [st0|e]; cbn -[getitem mapM]; [|reflexivity].
  destruct (getitem rfstream 0) as [tr0|e]; cbn -[getitem mapM]; [|reflexivity].
  set (t := taxis _ _ _). set (Vp' := dflt Vp _). set (w1' := dflt w1 _).
  set (w2' := dflt w2 _). set (w3' := dflt w3 _). set (stk' := dflt stack _).
  set (nd := length K * length H * length rfstream).
  set (c := hk_c stk' st0 (avgslow rfstream) t Vp' w1' w2' w3').
  set (node := fun k h q => forM rfstream (fun tr sq => let '(s, q) := sq in
            v <- c k h tr ;; let s := nadd v s in
            if q <? nd then Ok (s, S q) else Err IndexError) (@nofZ N 0, q)).
  assert (P := grid_q (fun n q => q = n * length rfstream) node (fun k h => sumM (c k h) rfstream) K H 0).
  match goal with |- bind (forM K ?b ?s) _ = _ =>
    assert (E : forM K b s = forM K (fun k st => forM H (fun h => stepq node k h) st) s) end.
  { apply forM_ext. intros k st _. apply forM_ext. intros h [[stk z] q] _.
    unfold stepq, node.
    match goal with |- bind ?x _ = bind ?y _ => assert (Exy : x = y); [|rewrite Exy; reflexivity] end.
    apply forM_ext. intros tr [s q'] _. unfold c, hk_c, contrib, hk_data, hk_rp, hk_rpk.
    destruct (hk_times Vp' _ _ h k) as [[[t1 t2] t3]|e]; cbn -[getamp]; [|reflexivity].
    destruct (getamp _ t t1); cbn -[getamp]; [|reflexivity].
    destruct (getamp _ t t2); cbn -[getamp]; [|reflexivity].
    destruct (getamp _ t t3); cbn -[getamp]; reflexivity. }
  rewrite E.
  assert (Hnode : forall k h q, q + length rfstream <= nd ->
     node k h q = (v <- sumM (c k h) rfstream ;; Ok (v, q + length rfstream))).
  { intros k h q Hq. apply (sumM_q (c k h) rfstream (nofZ 0) q nd Hq). }
  lapply P; clear P.
  2:{ intros n q k h Hn Hq. subst q. rewrite Hnode by (unfold nd; nia).
      destruct (sumM (c k h) rfstream); simpl; [|reflexivity].
      eexists; split; [reflexivity|]. lia. }
  intro P. assert (P' := P eq_refl).
  clear P. fold c.
  destruct (mapM (mkrow_of (fun k h => sumM (c k h) rfstream)) (list_prod K H)) as [rows|e].
  - destruct P' as [z [q' E']]. rewrite E'. cbn -[argmax]. reflexivity.
  - rewrite P'. reflexivity.
Qed.

(** One-trace programs share the shape "value = contribution + 0.0". *)
Definition one (c : res N) : res N := v <- c ;; Ok (nadd v (nofZ 0)).

Theorem hkSynth_eq Synthrf time rayp raypk H K Vp w1 w2 w3 layer :
  hkSynth draw Synthrf time rayp raypk H K Vp w1 w2 w3 layer =
  (let Vp := dflt Vp (nlit 65 10) in
   let w1 := dflt w1 (nlit 6 10) in
   let w2 := dflt w2 (nlit 3 10) in
   let w3 := dflt w3 (nlit 1 10) in
   rows <- mapM (mkrow_of (fun k h =>
       one (contrib w1 w2 w3 Synthrf time (hkSynth_times Vp rayp raypk h k)))) (list_prod K H) ;;
   ib <- argmax (map rS rows) ;;
   _ <- draw rows ;;
   Ok (mkHksRes Synthrf time ib Vp rows (dflt layer "Moho"%string) rayp H K)).
Proof.
  unfold hkSynth. cbn zeta.
  set (f := fun k h => one _).
  assert (P := grid_u f K H).
  match goal with |- bind (forM K ?b ?s) _ = _ =>
    assert (E : forM K b s = forM K (fun k st => forM H (fun h => stepu f k h) st) s) end.
  { apply forM_ext. intros k st _. apply forM_ext. intros h [stk z] _.
    unfold stepu, f, one, contrib.
    destruct (hkSynth_times _ _ _ h k) as [[[t1 t2] t3]|e]; cbn -[getamp]; [|reflexivity].
    destruct (getamp _ _ t1); cbn -[getamp]; [|reflexivity].
    destruct (getamp _ _ t2); cbn -[getamp]; [|reflexivity].
    destruct (getamp _ _ t3); cbn -[getamp]; reflexivity. }
  rewrite E. destruct (mapM (mkrow_of f) (list_prod K H)) as [rows|e].
  - destruct P as [z E']. rewrite E'. reflexivity.
  - rewrite P. reflexivity.
Qed.

(** hkSeq's inner loop keeps only the last contribution. *)
Definition lastM {A} (c : A -> res N) (l : list A) : res (option N) :=
  forM l (fun tr _ => v <- c tr ;; Ok (Some (nadd v (nofZ 0)))) None.
Definition lastv {A} (c : A -> res N) (l : list A) : res N :=
  o <- lastM c l ;; match o with Some v => Ok v | None => Err UnboundLocalError end.

Lemma lastM_indep {A} (c : A -> res N) x l q q' :
  forM (x :: l) (fun tr _ => v <- c tr ;; Ok (Some (nadd v (nofZ 0)))) q
  = forM (x :: l) (fun tr _ => v <- c tr ;; Ok (Some (nadd v (nofZ 0)))) q'.
Proof. simpl. destruct (c x); reflexivity. Qed.

Lemma lastM_some {A} (c : A -> res N) x l q o :
  forM (x :: l) (fun tr _ => v <- c tr ;; Ok (Some (nadd v (nofZ 0)))) q = Ok o -> exists v, o = Some v.
Proof.
  revert x q; induction l as [|y l IH]; intros x q; simpl.
  - destruct (c x); simpl; intro E; inversion E; eauto.
  - destruct (c x) as [v|]; simpl; [|discriminate]. intro E.
    apply (IH y (Some (nadd v (nofZ 0)))). exact E.
Qed.

(** The node values of hkSeq's stages, with [q] the leaked local variable. *)
Lemma lastv_node {A} (c : A -> res N) l q :
  (l = [] -> q = None) ->
  (o <- forM l (fun tr _ => v <- c tr ;; Ok (Some (nadd v (nofZ 0)))) q ;;
   match o with Some v => Ok (v, o) | None => Err UnboundLocalError end)
  = (v <- lastv c l ;; Ok (v, Some v)).
Proof.
  intro Hq. unfold lastv, lastM. destruct l as [|x l].
  - rewrite Hq by reflexivity. reflexivity.
  - rewrite (lastM_indep c x l q None).
    destruct (forM (x :: l) _ None) as [o|e] eqn:E; simpl; [|reflexivity].
    apply lastM_some in E. destruct E as [v ->]. reflexivity.
Qed.

Definition seqSed_c (stack : bool) (st0 : trace N) (avg : N) (t : list N) (VpSed w1 w2 w3 : N)
    (k h : N) (tr : trace N) : res N :=
  contrib w1 w2 w3 (hk_data stack st0 tr) t
    (hkSeqSed_times VpSed (hk_rp stack avg tr) (hk_rpk stack tr) h k).

(** Contribution with weights that may be [None] (evaluated after the reads). *)
Definition contribO (w1 w2 w3 : option N) (data t : list N)
    (ts : res (tval N * tval N * tval N)) : res N :=
  ts <- ts ;;
  let '(tps, tppps, tpsps) := ts in
  a1 <- getamp data t tps ;;
  a2 <- getamp data t tppps ;;
  a3 <- getamp data t tpsps ;;
  w1 <- need w1 ;; w2 <- need w2 ;; w3 <- need w3 ;;
  Ok (nsub (nadd (nmul w1 a1) (nmul w2 a2)) (nmul w3 a3)).

Lemma contribO_Some w1 w2 w3 data t ts :
  contribO (Some w1) (Some w2) (Some w3) data t ts = contrib w1 w2 w3 data t ts.
Proof. reflexivity. Qed.

Definition seqMoho_c (stack : bool) (st0 : trace N) (avg : N) (t : list N) (H1 K1 VpSed : N)
    (VpMoho w1 w2 w3 : option N) (k h : N) (tr : trace N) : res N :=
  contribO w1 w2 w3 (hk_data stack st0 tr) t
    (hkSeqMoho_times H1 K1 VpSed VpMoho (hk_rp stack avg tr) (hk_rpk stack tr) h k).

Lemma clip_loop_eq (stk : list (row N)) : clip_loop stk = Ok (map clip_row stk).
Proof.
  unfold clip_loop.
  assert (G : forall suf pre : list (row N),
    forM (seq (length pre) (length suf)) (fun i stk =>
      r <- getitem stk i ;;
      if nleb (rS r) (nofZ 0) then setitem stk i (mkRow (rH r) (rK r) (nofZ 0)) else Ok stk)
      (pre ++ suf) = Ok (pre ++ map clip_row suf)).
  { induction suf as [|r suf IH]; intro pre; simpl; [reflexivity|].
    unfold getitem at 1. rewrite nth_error_app2, Nat.sub_diag by lia. simpl.
    assert (El : S (length pre) = length (pre ++ [clip_row r])) by (rewrite app_length; simpl; lia).
    assert (Eb : (if nleb (rS r) (nofZ 0)
                  then setitem (pre ++ r :: suf) (length pre) (mkRow (rH r) (rK r) (nofZ 0))
                  else Ok (pre ++ r :: suf)) = Ok ((pre ++ [clip_row r]) ++ suf)).
    { unfold clip_row. destruct (nleb (rS r) (nofZ 0)).
      - unfold setitem. rewrite (proj2 (Nat.ltb_lt _ _)) by (rewrite app_length; simpl; lia).
        rewrite upd_app_length. reflexivity.
      - rewrite <- app_assoc. reflexivity. }
    rewrite Eb. simpl. rewrite El, IH, <- app_assoc. reflexivity. }
  apply (G stk []).
Qed.

Theorem hkSeq_eq rfS rfM preonset HSed KSed VpSed w1S w2S w3S HMoho KMoho VpMoho w1M w2M w3M stack :
  hkSeq km1 stackO draw rfS rfM preonset HSed KSed VpSed w1S w2S w3S HMoho KMoho VpMoho w1M w2M w3M stack =
  (let VpSed := dflt VpSed (nlit 30 10) in
   let w1S := dflt w1S (nlit 6 10) in
   let w2S := dflt w2S (nlit 3 10) in
   let w3S := dflt w3S (nlit 1 10) in
   let stack := dflt stack false in
   SS <- stackO rfS ;; stS0 <- getitem SS 0 ;;
   SM <- stackO rfM ;; stM0 <- getitem SM 0 ;;
   tr0 <- getitem rfS 0 ;;
   let avg := avgslow rfM in
   let t := taxis (tr_delta tr0) (length (tr_data tr0)) preonset in
   rowsS <- mapM (mkrow_of (fun k h =>
       lastv (seqSed_c stack stS0 avg t VpSed w1S w2S w3S k h) rfS)) (list_prod KSed HSed) ;;
   ibS <- argmax (map rS rowsS) ;;
   _ <- draw rowsS ;;
   bm <- getitem rowsS ibS ;;
   rowsM <- mapM (mkrow_of (fun k h =>
       lastv (seqMoho_c stack stM0 avg t (rH bm) (rK bm) VpSed VpMoho w1M w2M w3M k h) rfM))
       (list_prod KMoho HMoho) ;;
   ibM <- argmax (map rS rowsM) ;;
   _ <- draw (map clip_row rowsM) ;;
   Ok (mkSeqRes rfS (tr_data stS0) rfM (tr_data stM0) t ibS rowsS ibM (map clip_row rowsM)
         stack (tr_chan tr0) avg VpSed VpMoho HSed KSed HMoho KMoho (tr_sta tr0))).
Proof.
  unfold hkSeq. cbn zeta.
  destruct (stackO rfS) as [SS|e]; cbn -[getitem mapM argmax clip_loop]; [|reflexivity].
  destruct (getitem SS 0) as [stS0|e]; cbn -[getitem mapM argmax clip_loop]; [|reflexivity].
  destruct (stackO rfM) as [SM|e]; cbn -[getitem mapM argmax clip_loop]; [|reflexivity].
  destruct (getitem SM 0) as [stM0|e]; cbn -[getitem mapM argmax clip_loop]; [|reflexivity].
  destruct (getitem rfS 0) as [tr0|e]; cbn -[getitem mapM argmax clip_loop]; [|reflexivity].
  set (t := taxis _ _ _). set (Vp' := dflt VpSed _). set (w1' := dflt w1S _).
  set (w2' := dflt w2S _). set (w3' := dflt w3S _). set (stk' := dflt stack _).
  set (cS := seqSed_c stk' stS0 (avgslow rfM) t Vp' w1' w2' w3').
  set (nodeS := fun k h q =>
    o <- forM rfS (fun tr _ => v <- cS k h tr ;; Ok (Some (nadd v (nofZ 0)))) q ;;
    match o with Some v => Ok (v, o) | None => Err UnboundLocalError end).
  assert (P := grid_q (fun n q => rfS = [] -> q = None) nodeS (fun k h => lastv (cS k h) rfS) KSed HSed None).
  match goal with |- bind (forM KSed ?b ?s) _ = _ =>
    assert (E : forM KSed b s = forM KSed (fun k st => forM HSed (fun h => stepq nodeS k h) st) s) end.
  { apply forM_ext. intros k st _. apply forM_ext. intros h [[stk z] q] _.
    unfold stepq, nodeS.
    match goal with |- bind (bind ?x _) _ = bind (bind ?y _) _ =>
      assert (Exy : x = y); [|rewrite Exy; reflexivity] end.
    apply forM_ext. intros tr q' _. unfold cS, seqSed_c, contrib, hk_data, hk_rp, hk_rpk.
    destruct (hkSeqSed_times Vp' _ _ h k) as [[[t1 t2] t3]|e]; cbn -[getamp]; [|reflexivity].
    destruct (getamp _ t t1); cbn -[getamp]; [|reflexivity].
    destruct (getamp _ t t2); cbn -[getamp]; [|reflexivity].
    destruct (getamp _ t t3); cbn -[getamp]; reflexivity. }
  rewrite E; clear E.
  lapply P; clear P.
  2:{ intros n q k h Hn Hq.
      assert (Hnode : nodeS k h q = (v <- lastv (cS k h) rfS ;; Ok (v, Some v)))
        by (apply lastv_node; exact Hq).
      rewrite Hnode. destruct (lastv (cS k h) rfS) eqn:El; simpl; [|reflexivity].
      eexists; split; [reflexivity|]. intro C. rewrite C in El. discriminate. }
  intro P. assert (P' := P (fun _ => eq_refl)). clear P.
  destruct (mapM (mkrow_of (fun k h => lastv (cS k h) rfS)) (list_prod KSed HSed)) as [rowsS|e];
    [destruct P' as [z [q' E']]; rewrite E' | rewrite P'; reflexivity].
  cbn -[getitem mapM argmax clip_loop].
  destruct (argmax (map rS rowsS)) as [ibS|e]; cbn -[getitem mapM argmax clip_loop]; [|reflexivity].
  destruct (draw rowsS) as [u|e]; cbn -[getitem mapM argmax clip_loop]; [|reflexivity].
  destruct (getitem rowsS ibS) as [bm|e]; cbn -[getitem mapM argmax clip_loop]; [|reflexivity].
  clear E'.
  set (cM := seqMoho_c stk' stM0 (avgslow rfM) t (rH bm) (rK bm) Vp' VpMoho w1M w2M w3M).
  set (nodeM := fun k h q =>
    o <- forM rfM (fun tr _ => v <- cM k h tr ;; Ok (Some (nadd v (nofZ 0)))) q ;;
    match o with Some v => Ok (v, o) | None => Err UnboundLocalError end).
  assert (P := grid_q (fun n q => rfM = [] -> q = None) nodeM (fun k h => lastv (cM k h) rfM) KMoho HMoho None).
  match goal with |- bind (forM KMoho ?b ?s) _ = _ =>
    assert (E : forM KMoho b s = forM KMoho (fun k st => forM HMoho (fun h => stepq nodeM k h) st) s) end.
  { apply forM_ext. intros k st _. apply forM_ext. intros h [[stk z'] q] _.
    unfold stepq, nodeM.
    match goal with |- bind (bind ?x _) _ = bind (bind ?y _) _ =>
      assert (Exy : x = y); [|rewrite Exy; reflexivity] end.
    apply forM_ext. intros tr q'' _. unfold cM, seqMoho_c, contribO, hk_data, hk_rp, hk_rpk.
    destruct (hkSeqMoho_times _ _ Vp' _ _ _ h k) as [[[t1 t2] t3]|e]; cbn -[getamp]; [|reflexivity].
    destruct (getamp _ t t1); cbn -[getamp]; [|reflexivity].
    destruct (getamp _ t t2); cbn -[getamp]; [|reflexivity].
    destruct (getamp _ t t3); cbn -[getamp]; [|reflexivity].
    destruct w1M, w2M, w3M; reflexivity. }
  rewrite E; clear E.
  lapply P; clear P.
  2:{ intros n q k h Hn Hq.
      assert (Hnode : nodeM k h q = (v <- lastv (cM k h) rfM ;; Ok (v, Some v)))
        by (apply lastv_node; exact Hq).
      rewrite Hnode. destruct (lastv (cM k h) rfM) eqn:El; simpl; [|reflexivity].
      eexists; split; [reflexivity|]. intro C. rewrite C in El. discriminate. }
  intro P. assert (P' := P (fun _ => eq_refl)). clear P.
  destruct (mapM (mkrow_of (fun k h => lastv (cM k h) rfM)) (list_prod KMoho HMoho)) as [rowsM|e];
    [destruct P' as [z' [q'' E']]; rewrite E' | rewrite P'; reflexivity].
  cbn -[getitem mapM argmax clip_loop].
  destruct (argmax (map rS rowsM)) as [ibM|e]; cbn -[getitem mapM argmax clip_loop]; [|reflexivity].
  rewrite clip_loop_eq. reflexivity.
Qed.

Theorem hkSeqSynth_eq rfS rfM time rayp raypk HSed KSed VpSed w1S w2S w3S HMoho KMoho VpMoho w1M w2M w3M :
  hkSeqSynth draw rfS rfM time rayp raypk HSed KSed VpSed w1S w2S w3S HMoho KMoho VpMoho w1M w2M w3M =
  (let VpSed := dflt VpSed (nlit 30 10) in
   let w1S := dflt w1S (nlit 6 10) in
   let w2S := dflt w2S (nlit 3 10) in
   let w3S := dflt w3S (nlit 1 10) in
   rowsS <- mapM (mkrow_of (fun k h =>
       one (contrib w1S w2S w3S rfS time (hkSeqSynthSed_times VpSed rayp raypk h k)))) (list_prod KSed HSed) ;;
   ibS <- argmax (map rS rowsS) ;;
   _ <- draw rowsS ;;
   bm <- getitem rowsS ibS ;;
   rowsM <- mapM (mkrow_of (fun k h =>
       one (contribO w1M w2M w3M rfM time
              (hkSeqSynthMoho_times (rH bm) (rK bm) VpSed VpMoho rayp raypk h k))))
       (list_prod KMoho HMoho) ;;
   ibM <- argmax (map rS rowsM) ;;
   _ <- draw (map clip_row rowsM) ;;
   Ok (mkSeqsRes rfS rfM time ibS rowsS ibM (map clip_row rowsM) rayp VpSed VpMoho
         HSed KSed HMoho KMoho)).
Proof.
  unfold hkSeqSynth. cbn zeta.
  set (Vp' := dflt VpSed _). set (w1' := dflt w1S _).
  set (w2' := dflt w2S _). set (w3' := dflt w3S _).
  set (f := fun k h => one _).
  assert (P := grid_u f KSed HSed).
  match goal with |- bind (forM KSed ?b ?s) _ = _ =>
    assert (E : forM KSed b s = forM KSed (fun k st => forM HSed (fun h => stepu f k h) st) s) end.
  { apply forM_ext. intros k st _. apply forM_ext. intros h [stk z] _.
    unfold stepu, f, one, contrib.
    destruct (hkSeqSynthSed_times _ _ _ h k) as [[[t1 t2] t3]|e]; cbn -[getamp]; [|reflexivity].
    destruct (getamp _ _ t1); cbn -[getamp]; [|reflexivity].
    destruct (getamp _ _ t2); cbn -[getamp]; [|reflexivity].
    destruct (getamp _ _ t3); cbn -[getamp]; reflexivity. }
  rewrite E; clear E. destruct (mapM (mkrow_of f) (list_prod KSed HSed)) as [rowsS|e];
    [destruct P as [z E']; rewrite E' | rewrite P; reflexivity].
  cbn -[getitem mapM argmax clip_loop].
  destruct (argmax (map rS rowsS)) as [ibS|e]; cbn -[getitem mapM argmax clip_loop]; [|reflexivity].
  destruct (draw rowsS) as [u|e]; cbn -[getitem mapM argmax clip_loop]; [|reflexivity].
  destruct (getitem rowsS ibS) as [bm|e]; cbn -[getitem mapM argmax clip_loop]; [|reflexivity].
  clear E'.
  set (f2 := fun k h => one _).
  assert (P := grid_u f2 KMoho HMoho).
  match goal with |- bind (forM KMoho ?b ?s) _ = _ =>
    assert (E : forM KMoho b s = forM KMoho (fun k st => forM HMoho (fun h => stepu f2 k h) st) s) end.
  { apply forM_ext. intros k st _. apply forM_ext. intros h [stk z'] _.
    unfold stepu, f2, one, contribO.
    destruct (hkSeqSynthMoho_times _ _ _ _ _ _ h k) as [[[t1 t2] t3]|e]; cbn -[getamp]; [|reflexivity].
    destruct (getamp _ _ t1); cbn -[getamp]; [|reflexivity].
    destruct (getamp _ _ t2); cbn -[getamp]; [|reflexivity].
    destruct (getamp _ _ t3); cbn -[getamp]; [|reflexivity].
    destruct w1M, w2M, w3M; reflexivity. }
  rewrite E; clear E. destruct (mapM (mkrow_of f2) (list_prod KMoho HMoho)) as [rowsM|e];
    [destruct P as [z' E']; rewrite E' | rewrite P; reflexivity].
  cbn -[getitem mapM argmax clip_loop].
  destruct (argmax (map rS rowsM)) as [ibM|e]; cbn -[getitem mapM argmax clip_loop]; [|reflexivity].
  rewrite clip_loop_eq. reflexivity.
Qed.

Theorem hkYu_eq flt time tlag tlagk rayp raypk H K VpMoho VpSed VsSed w1 w2 w3 :
  hkYu draw flt time tlag tlagk rayp raypk H K VpMoho VpSed VsSed w1 w2 w3 =
  (let VpMoho := dflt VpMoho (nlit 65 10) in
   let VpSed := dflt VpSed (nlit 25 10) in
   VsSed <- need VsSed ;;
   let SedH := ndiv (nmul tlag VsSed) (nofZ 2) in
   a <- kdiv tlagk SedH VsSed ;;
   b <- kdiv tlagk SedH VpSed ;;
   let Pdelay := nsub a b in
   rows <- mapM (mkrow_of (fun k h =>
       one (contribO w1 w2 w3 flt time (hkYu_times VpMoho rayp raypk tlag Pdelay h k)))) (list_prod K H) ;;
   ib <- argmax (map rS rows) ;;
   _ <- draw rows ;;
   Ok (mkYuRes flt time tlag Pdelay rayp ib VpMoho VpSed rows H K SedH)).
Proof.
  unfold hkYu. cbn zeta.
  destruct (need VsSed) as [vs|e]; cbn -[getitem mapM argmax]; [|reflexivity].
  destruct (kdiv tlagk _ vs) as [a|e]; cbn -[getitem mapM argmax]; [|reflexivity].
  destruct (kdiv tlagk _ _) as [b|e]; cbn -[getitem mapM argmax]; [|reflexivity].
  set (f := fun k h => one _).
  assert (P := grid_u f K H).
  match goal with |- bind (forM K ?b ?s) _ = _ =>
    assert (E : forM K b s = forM K (fun k st => forM H (fun h => stepu f k h) st) s) end.
  { apply forM_ext. intros k st _. apply forM_ext. intros h [stk z] _.
    unfold stepu, f, one, contribO.
    destruct (hkYu_times _ _ _ _ _ h k) as [[[t1 t2] t3]|e]; cbn -[getamp]; [|reflexivity].
    destruct (getamp _ _ t1); cbn -[getamp]; [|reflexivity].
    destruct (getamp _ _ t2); cbn -[getamp]; [|reflexivity].
    destruct (getamp _ _ t3); cbn -[getamp]; [|reflexivity].
    destruct w1, w2, w3; reflexivity. }
  rewrite E. destruct (mapM (mkrow_of f) (list_prod K H)) as [rows|e].
  - destruct P as [z E']. rewrite E'. reflexivity.
  - rewrite P. reflexivity.
Qed.

End Forms.
