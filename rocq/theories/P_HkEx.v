(** * P_HkEx: a concrete crust for the H-k theorems over exact arithmetic.

    Vp = 20/3 km/s, ray parameter 0.12 s/km, H0 = 40 km, K0 = 1.7: all vertical
    slownesses of the grid are rational, so the hypotheses of C03, C06, C14, C77
    and C78 can be checked by hand. *)

From Coq Require Import Reals Lra Psatz.
From Verif Require Import Base Num NumPy Spec HkModel HkProofs HkReal HkFacts HkFacts2 HkFacts4 P_Hk DrawSpec P_Hk2 P_Hk3 P_Hk4 P_Hk5 P_Hk6.

Local Open Scope R_scope.

Definition exVp : R := 20 / 3.
Definition exp_ : R := 12 / 100.
Definition exH : list R := [30; 40; 50].
Definition exK : list R := [4 / 3; 17 / 10; 52 / 25].
Definition exsample (i : nat) : R :=
  if Nat.eqb i 10 then 1 / 2 else if Nat.eqb i 37 then 1 else if Nat.eqb i 73 then 1 else if Nat.eqb i 100 then -1 else 0.
Definition exdata : list R := map exsample (seq 0 160).
Definition extr (sta : string) : trace RN :=
  @mkTrace RN exdata (1 / 5) exp_ PyF (-2) 0 60 sta "Q" None.
Definition exrf : stream RN := [extr "A"%string; extr "B"%string].

Lemma ex_qp : qp exVp exp_ = 9 / 100.
Proof. unfold qp, exVp, exp_. replace ((1 / (20 / 3)) ^ 2 - (12 / 100) ^ 2) with (Rsqr (9 / 100)) by (unfold Rsqr; field). apply sqrt_Rsqr. lra. Qed.
Lemma ex_qs1 : qs exVp (4 / 3) exp_ = 16 / 100.
Proof. unfold qs, exVp, exp_. replace ((4 / 3 / (20 / 3)) ^ 2 - (12 / 100) ^ 2) with (Rsqr (16 / 100)) by (unfold Rsqr; field). apply sqrt_Rsqr. lra. Qed.
Lemma ex_qs2 : qs exVp (17 / 10) exp_ = 225 / 1000.
Proof. unfold qs, exVp, exp_. replace ((17 / 10 / (20 / 3)) ^ 2 - (12 / 100) ^ 2) with (Rsqr (225 / 1000)) by (unfold Rsqr; field). apply sqrt_Rsqr. lra. Qed.
Lemma ex_qs3 : qs exVp (52 / 25) exp_ = 288 / 1000.
Proof. unfold qs, exVp, exp_. replace ((52 / 25 / (20 / 3)) ^ 2 - (12 / 100) ^ 2) with (Rsqr (288 / 1000)) by (unfold Rsqr; field). apply sqrt_Rsqr. lra. Qed.

Lemma ex_precritical : precritical exVp exp_.
Proof. unfold precritical, exVp, exp_. split; [lra|]. apply Rminus_le. replace ((12 / 100) ^ 2 - (1 / (20 / 3)) ^ 2) with (- (81 / 10000)) by field. lra. Qed.

Lemma ex_nth i : (i < 160)%nat -> nth_error exdata i = Some (exsample i).
Proof.
  intro Hi. unfold exdata. rewrite nth_error_map.
  rewrite (nth_error_nth' (seq 0 160) 0%nat) by (rewrite seq_length; exact Hi). rewrite seq_nth by exact Hi. reflexivity.
Qed.

Lemma ex_nearest (x : R) i : (i < 160)%nat -> x = 1 / 5 * INR i - 2 ->
  @nearest_first RN (@uniform_axis RN (1 / 5) 160 2) x i.
Proof.
  intros Hi ->. apply (nearest_R_intro (@taxis RN (1 / 5) 160 2) _ i (1 / 5 * INR i - 2)).
  - apply taxis_R_nth. exact Hi.
  - intros j tj _. replace (1 / 5 * INR i - 2 - (1 / 5 * INR i - 2)) with 0 by ring. rewrite Rabs_R0. apply Rabs_pos.
  - intros j tj Hj Hn. apply taxis_R_inv in Hn. destruct Hn as [_ ->].
    replace (1 / 5 * INR i - 2 - (1 / 5 * INR i - 2)) with 0 by ring. rewrite Rabs_R0.
    apply Rabs_pos_lt. assert (INR j < INR i) by (apply lt_INR; exact Hj). lra.
Qed.

Lemma ex_times : t_Ps exVp exp_ 40 (17 / 10) = 54 / 10 /\ t_PpPs exVp exp_ 40 (17 / 10) = 126 / 10 /\
  t_PsPs exVp exp_ 40 (17 / 10) = 18.
Proof. unfold t_Ps, t_PpPs, t_PsPs. rewrite ex_qp, ex_qs2. repeat split; lra. Qed.

Lemma ex_ideal : ideal_rf 1 exdata (@uniform_axis RN (1 / 5) 160 2)
   (t_Ps exVp exp_ 40 (17 / 10)) (t_PpPs exVp exp_ 40 (17 / 10)) (t_PsPs exVp exp_ 40 (17 / 10)).
Proof.
  destruct ex_times as (-> & -> & ->). exists 37%nat, 73%nat, 100%nat.
  split; [apply ex_nearest; [lia|rewrite INR_IZR_INZ; simpl; lra]|].
  split; [apply ex_nearest; [lia|rewrite INR_IZR_INZ; simpl; lra]|].
  split; [apply ex_nearest; [lia|rewrite INR_IZR_INZ; simpl; lra]|].
  split; [rewrite ex_nth by lia; reflexivity|].
  split; [rewrite ex_nth by lia; reflexivity|].
  split; [rewrite ex_nth by lia; reflexivity|].
  intros i a Ea N1 N2 N3.
  assert (Hi : (i < 160)%nat).
  { replace 160%nat with (length exdata) by (unfold exdata; rewrite map_length, seq_length; reflexivity).
    apply nth_error_Some. congruence. }
  rewrite ex_nth in Ea by exact Hi. injection Ea as <-. unfold exsample.
  rewrite (proj2 (Nat.eqb_neq i 37)), (proj2 (Nat.eqb_neq i 73)), (proj2 (Nat.eqb_neq i 100)) by assumption.
  destruct (Nat.eqb i 10); apply Rabs_def1; lra.
Qed.

Lemma ex_covered h k : In h exH -> In k exK ->
  covered (1 / 5) 160 2 (t_Ps exVp exp_ h k) /\ covered (1 / 5) 160 2 (t_PpPs exVp exp_ h k) /\
  covered (1 / 5) 160 2 (t_PsPs exVp exp_ h k).
Proof.
  assert (E : INR (160 - 1) = 159) by (rewrite INR_IZR_INZ; reflexivity).
  unfold covered. rewrite E. unfold t_Ps, t_PpPs, t_PsPs. rewrite ex_qp.
  intros [<-|[<-|[<-|[]]]] [<-|[<-|[<-|[]]]]; rewrite ?ex_qs1, ?ex_qs2, ?ex_qs3; lra.
Qed.

Lemma ex_resolved h k : In h exH -> In k exK -> (h, k) <> (40, 17 / 10) -> resolved (1 / 5) exVp exp_ 40 (17 / 10) h k.
Proof.
  assert (M : forall x y, x < y \/ x < - y -> x < Rabs y) by (intros x y [?|?]; [pose proof (Rle_abs y)|pose proof (Rle_abs (- y)) as B; rewrite Rabs_Ropp in B]; lra).
  unfold resolved. rewrite ex_qp, ex_qs2.
  intros [<-|[<-|[<-|[]]]] [<-|[<-|[<-|[]]]] Hne; try (exfalso; apply Hne; reflexivity);
    rewrite ?ex_qs1, ?ex_qs2, ?ex_qs3;
    first [ right; apply M; lra
          | left; replace (30 - 40) with (-10) by ring; rewrite Rabs_left by lra; lra
          | left; replace (50 - 40) with 10 by ring; rewrite Rabs_right by lra; lra ].
Qed.

Definition exstack (s : stream RN) : res (list (trace RN)) := Ok s.
Definition exdraw : list (row RN) -> res unit := @pyplot RN.
Lemma ex_draws : draws exdraw exK exH.
Proof. apply (pyplot_draws_R exK exH 30 40 (4 / 3) (17 / 10)); try (simpl; auto; fail); lra. Qed.

(** Two traces, nine nodes: hk returns, and returns the true crust. *)
Theorem C78_hk_example : exists r,
  @hk RN 1 exstack exdraw exrf 2 exH exK (Some exVp) (Some (6 / 10)) (Some (3 / 10)) (Some (1 / 10)) None (Some false) = Ok r /\
  nth_error (hr_stk r) (hr_best r) = Some (@mkRow RN 40 (17 / 10) 2).
Proof.
  assert (Hp : forall tr, In tr exrf -> 1 * tr_slow tr = exp_) by (intros tr [<-|[<-|[]]]; simpl; ring).
  assert (HD : forall tr, In tr exrf -> tr_data tr = exdata) by (intros tr [<-|[<-|[]]]; reflexivity).
  assert (Len : length exdata = 160%nat) by (unfold exdata; rewrite map_length, seq_length; reflexivity).
  match goal with |- exists r, ?c = Ok r /\ _ => assert (exists r, c = Ok r) as [r E] end.
  { eapply (drawn_R exdraw exK exH _ hr_stk ex_draws). eapply (C77_hk_completes RN 1 exstack exdraw exrf 2 exH exK (Some exVp) (Some (6 / 10)) (Some (3 / 10)) (Some (1 / 10)) None (Some false)
     (extr "A") [extr "B"%string] (extr "A")); try reflexivity; try discriminate.
    - change (1 <= length exdata)%nat. rewrite Len. lia.
    - intros _ tr Htr. rewrite (HD tr Htr). apply le_n.
    - cbn [dflt]. simpl. unfold Reqb. destruct (Req_EM_T exVp 0) as [C|]; [unfold exVp in C; lra|reflexivity]. }
  - exists r. split; [exact E|].
    pose proof (C78_hk_recovers 1 exstack exdraw exrf 2 exH exK exVp (6 / 10) (3 / 10) (1 / 10) None r (extr "A") 40 (17 / 10) 1 E eq_refl) as G.
    cbn zeta in G. replace (length (tr_data (extr "A"))) with 160%nat in G by (symmetry; exact Len). change (tr_delta (extr "A")) with (1 / 5) in G.
    rewrite G; [| lra | lia | lra | lra | lra | lra | right; left; reflexivity | right; left; reflexivity
      | intros h [<-|[<-|[<-|[]]]]; lra | intros k [<-|[<-|[<-|[]]]]; lra | | | | |].
    + f_equal. f_equal. change (length exrf) with 2%nat. simpl. lra.
    + intros tr Htr. rewrite (Hp tr Htr). apply ex_precritical.
    + intros tr Htr. rewrite (Hp tr Htr), (HD tr Htr). apply ex_ideal.
    + intros tr h k Htr Hh Hk. rewrite (Hp tr Htr). apply ex_covered; assumption.
    + intros tr Htr. rewrite (Hp tr Htr), ex_qp. lra.
    + intros h k Hh Hk Hne. exists (extr "A"). split; [now left|]. rewrite (Hp (extr "A")) by now left. apply ex_resolved; assumption.
Qed.

(** The same crust as a synthetic. *)
Theorem C78_hkSynth_example : exists r,
  @hkSynth RN exdraw exdata (@uniform_axis RN (1 / 5) 160 2) exp_ NpF exH exK (Some exVp) (Some (6 / 10)) (Some (3 / 10)) (Some (1 / 10)) None = Ok r /\
  nth_error (hs_stk r) (hs_best r) = Some (@mkRow RN 40 (17 / 10) 1).
Proof.
  assert (Len : length exdata = 160%nat) by (unfold exdata; rewrite map_length, seq_length; reflexivity).
  match goal with |- exists r, ?c = Ok r /\ _ => assert (exists r, c = Ok r) as [r E] end.
  { eapply (drawn_R exdraw exK exH _ hs_stk ex_draws). eapply (C77_hkSynth_completes RN exdraw exdata (@uniform_axis RN (1 / 5) 160 2) exp_ NpF exH exK (Some exVp)
     (Some (6 / 10)) (Some (3 / 10)) (Some (1 / 10)) None); try reflexivity; try discriminate.
    cbn [dflt]. simpl. unfold Reqb. destruct (Req_EM_T exVp 0) as [C|]; [unfold exVp in C; lra|reflexivity]. }
  - exists r. split; [exact E|].
    rewrite (C78_hkSynth_recovers exdraw exdata (1 / 5) 2 160 exp_ NpF exH exK exVp (6 / 10) (3 / 10) (1 / 10) None r 40 (17 / 10) 1 E);
      [f_equal; f_equal; lra | lra | lia | lra | lra | lra | lra | right; left; reflexivity | right; left; reflexivity
      | intros h [<-|[<-|[<-|[]]]]; lra | intros k [<-|[<-|[<-|[]]]]; lra | apply ex_precritical | apply ex_ideal
      | apply ex_covered | rewrite ex_qp; lra | apply ex_resolved].
Qed.
