(** * P_Samples: which recorded samples the extraction functions write (C103, C104).

    The traces now carry their samples, [D = list (time, value)].  obspy's reader is
    still a parameter, constrained by the law [reads_window] that its documentation
    states: reading between two times returns every sample of the file in between, and
    nothing that is not in the file or is further than [h] (half a sample) outside. *)

From Coq Require Import Reals Lra Permutation Sorted.
From Verif Require Import Base PoolModel PoolProofs P_Pool ExtractModel P_Extract.
Local Open Scope Z_scope.

Section Spec.
Context {V : Type}.
Notation tr := (@etr (list (Z * V))).
Variable rd : string -> res (list tr).
Variable rdw : string -> Z -> Z -> res (list tr).
(** File [f] has a sample with value [v] at time [t]. *)
Definition recorded (f : string) (t : Z) (v : V) : Prop :=
  exists st x, rd f = Ok st /\ In x st /\ In (t, v) (e_data x).
Definition reads_window (h : Z) : Prop :=
  forall f a b d, rdw f a b = Ok d ->
    (forall t v, recorded f t v -> a <= t <= b -> exists x, In x d /\ In (t, v) (e_data x)) /\
    (forall t v x, In x d -> In (t, v) (e_data x) -> recorded f t v /\ a - h <= t <= b + h).
End Spec.
(** The sample is in a trace of [out] marked with the onset [on]. *)
Definition written {V} (out : list (@etr (list (Z * V)))) (on t : Z) (v : V) : Prop :=
  exists x, In x out /\ e_onset x = Some on /\ In (t, v) (e_data x).

Lemma F2_l {X Y} (P : X -> Y -> Prop) l1 l2 : Forall2 P l1 l2 -> forall a, In a l1 -> exists b, In b l2 /\ P a b.
Proof.
  intro F. induction F as [|a b l1 l2 Hab F IH]; intros a' []; [subst; exists b; split; [left; reflexivity|exact Hab]|].
  destruct (IH a' H) as (b' & ? & ?). exists b'. split; [right|]; assumption.
Qed.
Lemma F2_r {X Y} (P : X -> Y -> Prop) l1 l2 : Forall2 P l1 l2 -> forall b, In b l2 -> exists a, In a l1 /\ P a b.
Proof.
  intro F. induction F as [|a b l1 l2 Hab F IH]; intros b' []; [subst; exists a; split; [left; reflexivity|exact Hab]|].
  destruct (IH b' H) as (a' & ? & ?). exists a'. split; [right|]; assumption.
Qed.
Lemma is_window_unique geo tt stalat stalon w0 w1 ev w w' :
  is_window geo tt stalat stalon w0 w1 ev w -> is_window geo tt stalat stalon w0 w1 ev w' -> w = w'.
Proof.
  intros ((o & os & dd & dist & p & ps & E1 & E2 & E3 & E4 & E5) & E6 & E7)
         ((o' & os' & dd' & dist' & p' & ps' & E1' & E2' & E3' & E4' & E5') & E6' & E7').
  destruct w as [ws we wo], w' as [ws' we' wo']. cbn [w_start w_end w_onset] in *.
  assert (o' = o) by congruence. subst o'. assert (dd' = dd) by congruence. subst dd'. assert (dist' = dist) by congruence. subst dist'.
  assert (p' = p) by congruence. subst. reflexivity.
Qed.

Section Claims.
Context {V : Type}.
Notation tr := (@etr (list (Z * V))).
Variable glob : string -> list string.
Variable rd : string -> res (list tr).
Variable rdw : string -> Z -> Z -> res (list tr).
Variable events : string -> res (list event).
Variable geo : R -> R -> R -> R -> res R.
Variable tt : R -> R -> list R.

(** C103: the three parallel steps together lose no sample of any request window,
    whatever the files, the schedules and the numbers of processes: each recorded sample
    of the window of each event is written under the onset of that event; and what is
    written is recorded, and (to half a sample) in the window of the event it is marked
    with. *)
Theorem C103_no_sample_lost h catalog stalat stalon w0 w1 cat nproc nproc' wins datafiles filename name out :
  reads_window rd rdw h -> (0 < nproc)%nat -> (0 < nproc')%nat ->
  Add_sta_time_2cat events catalog stalat stalon [w0; w1] = Ok cat ->
  Get_Eqtimes_multiproc geo tt nproc cat (Ok (map Some wins)) ->
  ExtractEq_Multiproc rdw datafiles wins nproc' filename (Ok (name, out)) ->
  exists evs, events catalog = Ok evs /\
    (forall ev w f t v, In ev evs -> is_window geo tt stalat stalon w0 w1 ev w -> In f datafiles ->
       recorded rd f t v -> w_start w <= t <= w_end w -> written out (w_onset w) t v) /\
    (forall on t v, written out on t v -> exists ev w f, In ev evs /\ is_window geo tt stalat stalon w0 w1 ev w /\
       In f datafiles /\ on = w_onset w /\ recorded rd f t v /\ w_start w - h <= t <= w_end w + h).
Proof.
  intros Hrd Hp Hp' HA HT HM.
  destruct (C53_windows _ _ _ _ _ _ _ _ _ _ _ Hp HA HT) as (evs & ws & Hev & Hw & El).
  assert (wins = map (fun w => [w]) ws).
  { clear -El. revert El. generalize (map (fun w => [w]) ws). induction wins as [|a wins IH]; intros [|b m] E; cbn [map] in E; inversion E; [reflexivity|]. f_equal. apply IH. assumption. }
  subst wins. apply C53_written in HM as (-> & table & HTb & ->); [|exact Hp']. exists evs. split; [exact Hev|]. split.
  - intros ev w f t v Hin Hwin Hf Hrec Ht.
    destruct (F2_l _ _ _ Hw ev Hin) as (w' & Hw' & Hwin'). pose proof (is_window_unique _ _ _ _ _ _ _ _ _ Hwin Hwin'). subst w'.
    destruct (F2_l _ _ _ HTb f Hf) as (row & Hrow & HR). destruct (F2_l _ _ _ HR w Hw') as (l & Hl & d & Ed & ->).
    destruct (proj1 (Hrd _ _ _ _ Ed) t v Hrec Ht) as (x & Hx & Hs).
    exists (set_onset (w_onset w) x). split; [|split; [reflexivity|exact Hs]].
    apply in_concat. exists (concat row). split; [apply in_map; exact Hrow|]. apply in_concat. eexists. split; [exact Hl|]. apply in_map. exact Hx.
  - intros on t v (x & Hx & Hon & Hs). apply in_concat in Hx as (lf & Hlf & Hx). apply in_map_iff in Hlf as (row & <- & Hrow).
    apply in_concat in Hx as (l & Hl & Hx). destruct (F2_r _ _ _ HTb row Hrow) as (f & Hf & HR). destruct (F2_r _ _ _ HR l Hl) as (w & Hww & d & Ed & ->).
    destruct (F2_r _ _ _ Hw w Hww) as (ev & Hevi & Hwin). apply in_map_iff in Hx as (x0 & <- & Hx0).
    destruct (proj2 (Hrd _ _ _ _ Ed) t v x0 Hx0 Hs) as [Hrec Ht]. exists ev, w, f. cbn in Hon.
    repeat (split; [first [assumption|congruence]|]). exact Ht.
Qed.

(** C104, what does hold of ExtractEq: a sample of a request window is written exactly if
    the whole window lies inside the first trace of a file that holds the sample. *)
Theorem C104_which_samples datapath filename catalog stalat stalon w0 w1 name out h :
  reads_window rd rdw h ->
  ExtractEq glob rd rdw events geo tt datapath filename catalog stalat stalon [w0; w1] = Ok (name, out) ->
  exists evs, events catalog = Ok evs /\
    (forall ev w f t v, In ev evs -> is_window geo tt stalat stalon w0 w1 ev w -> In f (glob (datapath ++ "*")%string) ->
       covered rd f w -> recorded rd f t v -> w_start w <= t <= w_end w -> written out (w_onset w) t v) /\
    (forall on t v, written out on t v -> exists ev w f, In ev evs /\ is_window geo tt stalat stalon w0 w1 ev w /\
       In f (glob (datapath ++ "*")%string) /\ on = w_onset w /\ covered rd f w /\ recorded rd f t v /\ w_start w - h <= t <= w_end w + h).
Proof.
  intros Hrd H. pose proof (C50_written _ _ _ _ _ _ _ _ _ _ _ _ _ _ _ H) as (_ & evs & wins & Hev & Hw & table & HTb & Eo).
  exists evs. split; [exact Hev|]. destruct (C50_file_order (glob (datapath ++ "*")%string)) as [HP _]. split.
  - intros ev w f t v Hin Hwin Hf HC Hrec Ht.
    destruct (F2_l _ _ _ Hw ev Hin) as (w' & Hw' & Hwin'). pose proof (is_window_unique _ _ _ _ _ _ _ _ _ Hwin Hwin'). subst w'.
    destruct (F2_l _ _ _ HTb f) as (row & Hrow & HR); [apply (Permutation_in _ (Permutation_sym HP)); exact Hf|].
    destruct (F2_l _ _ _ HR w Hw') as (l & Hl & He1 & _). destruct (He1 HC) as ((d & Ed & ->) & _).
    destruct (proj1 (Hrd _ _ _ _ Ed) t v Hrec Ht) as (x & Hx & Hs).
    exists (set_onset (w_onset w) x). split; [|split; [reflexivity|exact Hs]]. subst out.
    apply in_concat. exists (concat row). split; [apply in_map; exact Hrow|]. apply in_concat. eexists. split; [exact Hl|]. apply in_map. exact Hx.
  - intros on t v (x & Hx & Hon & Hs).
    destruct (C50_every_trace _ _ _ _ _ _ _ _ _ _ _ _ _ _ _ x H) as (evs' & Hev' & Hiff). assert (evs' = evs) by congruence. subst evs'.
    apply Hiff in Hx as (f & ev & w & d & y & Hf & Hevi & Hwin & HC & Ed & Hy & ->). cbn in Hon, Hs.
    destruct (proj2 (Hrd _ _ _ _ Ed) t v y Hy Hs) as [Hrec Ht]. exists ev, w, f.
    repeat (split; [first [assumption|congruence]|]). exact Ht.
Qed.

(** C104: nothing is lost if no request window leaves the first trace of a file it
    touches. *)
Theorem C104_no_straddling datapath filename catalog stalat stalon w0 w1 name out h :
  reads_window rd rdw h ->
  ExtractEq glob rd rdw events geo tt datapath filename catalog stalat stalon [w0; w1] = Ok (name, out) ->
  exists evs, events catalog = Ok evs /\
    ((forall ev w f t v, In ev evs -> is_window geo tt stalat stalon w0 w1 ev w -> In f (glob (datapath ++ "*")%string) ->
        recorded rd f t v -> w_start w <= t <= w_end w -> covered rd f w) ->
     forall ev w f t v, In ev evs -> is_window geo tt stalat stalon w0 w1 ev w -> In f (glob (datapath ++ "*")%string) ->
       recorded rd f t v -> w_start w <= t <= w_end w -> written out (w_onset w) t v).
Proof.
  intros Hrd H. destruct (C104_which_samples _ _ _ _ _ _ _ _ _ _ Hrd H) as (evs & Hev & H1 & _). exists evs. split; [exact Hev|].
  intros HN ev w f t v A B C D E. eapply H1; eauto.
Qed.
End Claims.

(** ** A concrete archive: two consecutive files without a gap, one sample per second,
    0 to 99 s and 100 to 199 s; two events, with the request windows 47-67 s and
    85-105 s. *)
Definition ticks (a n : nat) : list (Z * Z) := map (fun k => (sec (Z.of_nat k), Z.of_nat k)) (seq a n).
Definition one_trace (l : list (Z * Z)) : list (@etr (list (Z * Z))) :=
  match l with [] => [] | x :: _ => [mkE (fst x) (fst (last l x)) None l] end.
Definition ar_glob (s : string) : list string := ["data/day2.mseed"; "data/day1.mseed"]%string.
Definition ar_rd (s : string) : res (list (@etr (list (Z * Z)))) :=
  if String.eqb s "data/day1.mseed" then Ok (one_trace (ticks 0 100))
  else if String.eqb s "data/day2.mseed" then Ok (one_trace (ticks 100 100))
  else Err FileNotFoundError.
Definition ar_rdw (s : string) (a b : Z) : res (list (@etr (list (Z * Z)))) :=
  st <- ar_rd s ;;
  Ok (flat_map (fun x => one_trace (filter (fun s => (a <=? fst s) && (fst s <=? b)) (e_data x))) st).

Lemma one_trace_in l x s : In x (one_trace l) -> In s (e_data x) -> In s l.
Proof. destruct l as [|y l]; [intros []|]. intros [<-|[]]. cbn. auto. Qed.
Lemma one_trace_has l s : In s l -> exists x, In x (one_trace l) /\ In s (e_data x).
Proof. destruct l as [|y l]; [intros []|]. intro H. eexists. split; [left; reflexivity|exact H]. Qed.
Lemma ar_reads : reads_window ar_rd ar_rdw 0.
Proof.
  intros f a b d E. unfold ar_rdw in E. destruct (ar_rd f) as [st|e] eqn:Er; [|discriminate]. cbn [bind] in E. inversion E; subst d; clear E. split.
  - intros t v (st' & x & E & Hx & Hs) Ht. rewrite Er in E. inversion E; subst st'.
    destruct (one_trace_has (filter (fun s => (a <=? fst s) && (fst s <=? b)) (e_data x)) (t, v)) as (y & Hy & Hv).
    { apply filter_In. split; [exact Hs|]. cbn [fst]. apply andb_true_intro. split; apply Z.leb_le; lia. }
    exists y. split; [|exact Hv]. apply in_flat_map. exists x. auto.
  - intros t v x Hx Hs. apply in_flat_map in Hx as (y & Hy & Hx). apply (one_trace_in _ _ _ Hx) in Hs. apply filter_In in Hs as [Hs Hb].
    cbn [fst] in Hb. apply andb_prop in Hb as [B1 B2]. apply Z.leb_le in B1, B2. split; [|lia]. exists st, y. auto.
Qed.

Definition ar_out : list (@etr (list (Z * Z))) := [mkE (sec 47) (sec 67) (Some (sec 57)) (ticks 47 21)].
Theorem C104_run : ExtractEq ar_glob ar_rd ar_rdw ex_events ex_geo ex_tt "data/" "eq.mseed" "cat.xml" 52 4 [(-10)%R; 10%R] = Ok ("eq.mseed"%string, ar_out).
Proof.
  unfold ExtractEq, ar_glob, ex_events.
  replace (sorted ["data/day2.mseed"; "data/day1.mseed"]%string) with ["data/day1.mseed"; "data/day2.mseed"]%string by reflexivity.
  cbn [getitem nth_error bind length Nat.sub mapM].
  rewrite (ex_window (sec 50) 50), (ex_window (sec 88) 88) by (try reflexivity; apply ex_abs). vm_compute. reflexivity.
Qed.
Definition late_window : window := mkW (sec 85) (sec 105) (sec 95).
Lemma late_is : is_window ex_geo ex_tt 52 4 (-10) 10 (ex_event (sec 88)) late_window.
Proof.
  apply (proj1 (C51_both ex_geo ex_tt 52 4 (-10) 10 (ex_event (sec 88)) late_window 6 [] eq_refl)).
  unfold late_window. change (sec 85) with (sec (88 - 3)). change (sec 105) with (sec (88 + 17)). change (sec 95) with (sec (88 + 7)).
  apply (ex_window (sec 88) 88 (-10) 10); [apply ex_abs|apply ex_abs|reflexivity].
Qed.
(** Every second of the window of the second event is recorded, nothing of it is written. *)
Theorem C104_event_lost :
  (forall k, 85 <= k <= 105 -> exists f, In f (ar_glob "data/*") /\ recorded ar_rd f (sec k) k) /\
  forall t v, ~ written ar_out (sec 95) t v.
Proof.
  split.
  - intros k Hk.
    assert (T : forall a n, Z.of_nat a <= k < Z.of_nat a + Z.of_nat n -> In (sec k, k) (ticks a n)).
    { intros a n Hr. unfold ticks. apply in_map_iff. exists (Z.to_nat k). split; [rewrite Z2Nat.id by lia; reflexivity|]. apply in_seq. lia. }
    destruct (Z.lt_ge_cases k 100) as [L|L].
    + exists "data/day1.mseed"%string. split; [right; left; reflexivity|]. exists (one_trace (ticks 0 100)).
      destruct (one_trace_has (ticks 0 100) (sec k, k)) as (x & Hx & Hs); [apply T; lia|]. exists x. split; [reflexivity|]. auto.
    + exists "data/day2.mseed"%string. split; [left; reflexivity|]. exists (one_trace (ticks 100 100)).
      destruct (one_trace_has (ticks 100 100) (sec k, k)) as (x & Hx & Hs); [apply T; lia|]. exists x. split; [reflexivity|]. auto.
  - intros t v (x & [<-|[]] & Hon & _). discriminate Hon.
Qed.

(** C104 is refuted: ExtractEq does not write every recorded sample of every request
    window. *)
Theorem C104_refuted :
  ~ (forall V glob (rd : string -> res (list (@etr (list (Z * V))))) rdw events geo tt datapath filename catalog stalat stalon w0 w1 out evs ev w f t v,
      reads_window rd rdw 0 ->
      ExtractEq glob rd rdw events geo tt datapath filename catalog stalat stalon [w0; w1] = Ok (filename, out) ->
      events catalog = Ok evs -> In ev evs -> is_window geo tt stalat stalon w0 w1 ev w ->
      In f (glob (datapath ++ "*")%string) -> recorded rd f t v -> w_start w <= t <= w_end w ->
      written out (w_onset w) t v).
Proof.
  intro H. destruct C104_event_lost as [Hrec Hno]. destruct (Hrec 90 ltac:(lia)) as (f & Hf & Hr).
  apply (Hno (sec 90) 90). refine (H _ ar_glob ar_rd ar_rdw ex_events ex_geo ex_tt "data/"%string "eq.mseed"%string "cat.xml"%string 52%R 4%R (-10)%R 10%R ar_out _ (ex_event (sec 88)) late_window f (sec 90) 90 ar_reads C104_run eq_refl _ late_is Hf Hr _).
  - right; left; reflexivity.
  - unfold late_window, sec. cbn. lia.
Qed.

(** C103 on the same archive: the parallel functions write both parts. *)
Theorem C103_example nproc : (0 < nproc)%nat -> exists cat out,
  Add_sta_time_2cat ex_events "cat.xml" 52 4 [(-10)%R; 10%R] = Ok cat /\
  Get_Eqtimes_multiproc ex_geo ex_tt nproc cat (Ok (map Some (map (fun w => [w]) ex_wins))) /\
  ExtractEq_Multiproc ar_rdw (sorted (ar_glob "data/*")) (map (fun w => [w]) ex_wins) nproc "eq.mseed" (Ok ("eq.mseed"%string, out)) /\
  (forall k, 85 <= k <= 105 -> written out (sec 95) (sec k) k).
Proof.
  intro Hp. destruct (C53_example nproc Hp) as (cat & Hc & Hw & _). exists cat.
  destruct (C53_complete (D := list (Z * Z)) ar_rdw (sorted (ar_glob "data/*")) ex_wins nproc "eq.mseed" Hp) as (out & Hl & Hr).
  { intros f w Hf _. destruct Hf as [<-|[<-|[]]]; eexists; reflexivity. }
  exists out. split; [exact Hc|]. split; [apply Hw; reflexivity|]. split; [apply Hr; reflexivity|]. intros k Hk.
  destruct (C103_no_sample_lost ar_rd ar_rdw ex_events ex_geo ex_tt 0 "cat.xml" 52 4 (-10) 10 cat nproc nproc _ (sorted (ar_glob "data/*")) "eq.mseed" "eq.mseed" out ar_reads Hp Hp Hc (proj2 (Hw _) eq_refl) (proj2 (Hr _) eq_refl)) as (evs & Hev & Hall & _).
  inversion Hev; subst evs. destruct (proj1 C104_event_lost k Hk) as (f & Hf & Hrec).
  refine (Hall (ex_event (sec 88)) late_window f (sec k) k _ late_is _ Hrec _).
  - right; left; reflexivity.
  - apply (Permutation_in _ (Permutation_sym (proj1 (C50_file_order _)))). exact Hf.
  - unfold late_window, sec. cbn. lia.
Qed.
Print Assumptions C103_no_sample_lost.
Print Assumptions C104_refuted.
