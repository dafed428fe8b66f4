(** * P_NoiseEx: a concrete case of C136, on the crust of P_HkEx: noise of +-1/100 in every sample. *)

From Coq Require Import Reals Lra.
From Verif Require Import Base Num NumPy Spec HkModel HkProofs HkReal HkFacts HkFacts2 HkFacts3 HkFacts4 P_Hk DrawSpec P_Hk2 P_Hk3 P_Hk4 P_Hk5 P_Hk6 P_HkEx P_HkEx2 P_MetaEx P_Noise.
Local Open Scope R_scope.

Definition exnoise (i : nat) : R := if Nat.even i then 1 / 100 else - (1 / 100).
Definition exndata : list R := map (fun i => exsample i + exnoise i) (seq 0 160).
Definition extrn (sta : string) : trace RN := @mkTrace RN exndata (1 / 5) exp_ PyF (-2) 0 60 sta "Q" None.
Lemma exn_len : length exndata = 160%nat.
Proof. unfold exndata. rewrite map_length, seq_length. reflexivity. Qed.
Lemma exn_noisy s : noisy (1 / 100) (extr s) (extrn s).
Proof.
  split; [|split; [reflexivity|split; reflexivity]]. split.
  - change (length exdata = length exndata). rewrite exn_len. unfold exdata. rewrite map_length, seq_length. reflexivity.
  - change (tr_data (extr s)) with exdata. change (tr_data (extrn s)) with exndata. intros i a b Ha Hb.
    assert (Hi : (i < 160)%nat) by (rewrite <- exn_len; apply nth_error_Some; congruence).
    rewrite ex_nth in Ha by exact Hi. injection Ha as <-.
    unfold exndata in Hb. rewrite nth_error_map, (nth_error_nth' (seq 0 160) 0%nat) in Hb by (rewrite seq_length; exact Hi).
    rewrite seq_nth in Hb by exact Hi. cbn [option_map Nat.add] in Hb.
    apply (f_equal (fun o => match o with Some v => v | None => 0 end)) in Hb. cbn beta iota in Hb. rewrite <- Hb.
    replace (exsample i + exnoise i - exsample i) with (exnoise i) by ring. unfold exnoise.
    destruct (Nat.even i); [rewrite Rabs_pos_eq by lra|rewrite Rabs_Ropp, Rabs_pos_eq by lra]; lra.
Qed.

(** Both runs return; the stack value 2 of the true crust moves by at most 2/100, and the model called best on
    the noisy records has a noise-free stack value of at least 2 - 4/100. *)
Theorem C136_example : exists r r' x y,
  exrun exrf 2 exH exK = Ok r /\ exrun [extrn "A"; extrn "B"] 2 exH exK = Ok r' /\
  stable (2 / 100) (hr_stk r) (hr_best r) (hr_stk r') (hr_best r') /\
  nth_error (hr_stk r') (hr_best r) = Some y /\ rH y = 40 /\ rK y = 17 / 10 /\ Rabs (rS y - 2) <= 2 / 100 /\
  nth_error (hr_stk r) (hr_best r') = Some x /\ 2 - 4 / 100 <= rS x.
Proof.
  destruct C78_hk_example as (r & E & B).
  assert (exists r', exrun [extrn "A"; extrn "B"] 2 exH exK = Ok r') as [r' E'].
  { eapply (drawn_R exdraw exK exH _ hr_stk ex_draws).
    eapply (C77_hk_completes RN 1 exstack exdraw [extrn "A"; extrn "B"] 2 exH exK (Some exVp) (Some (6 / 10)) (Some (3 / 10)) (Some (1 / 10)) None (Some false)
     (extrn "A") [extrn "B"%string] (extrn "A")); try reflexivity; try discriminate.
    - change (1 <= length exndata)%nat. rewrite exn_len. lia.
    - intros _ tr [<-|[<-|[]]]; apply le_n.
    - cbn [dflt]. apply ex_neq. unfold exVp. lra. }
  assert (St : stable (INR (length exrf) * (total (6 / 10) (3 / 10) (1 / 10) * (1 / 100))) (hr_stk r) (hr_best r) (hr_stk r') (hr_best r')).
  { refine (C136_hk 1 exstack exdraw exdraw exrf [extrn "A"; extrn "B"] 2 exH exK (Some exVp) (6 / 10) (3 / 10) (1 / 10) None false r r' (1 / 100)
      (extr "A") [extr "B"%string] (extrn "A") [extrn "B"%string] _ eq_refl eq_refl _ E E'); [|discriminate].
    exact (Forall2_cons _ _ (exn_noisy "A") (Forall2_cons _ _ (exn_noisy "B") (Forall2_nil _))). }
  replace (INR (length exrf) * (total (6 / 10) (3 / 10) (1 / 10) * (1 / 100))) with (2 / 100) in St
    by (unfold total; rewrite !Rabs_pos_eq by lra; change (length exrf) with 2%nat; simpl; lra).
  pose proof St as (Fo & (x & Hx & Top) & _).
  destruct (Forall2_nth _ _ _ _ _ Fo B) as (y & Hy & HH & HK & HS). cbn [rH rK rS] in HH, HK, HS.
  exists r, r', x, y. do 6 (split; [assumption|]). split; [exact HS|]. split; [exact Hx|].
  pose proof (Top _ (nth_error_In _ _ B)) as L. cbn [rS] in L. change (F RN) with R in *. lra.
Qed.
