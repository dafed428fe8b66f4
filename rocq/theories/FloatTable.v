(** * FloatTable: tables of stack values in binary64, for any program of the H-k family. *)

From Coq Require Import ZArith Reals Lra Lia Psatz Floats.SpecFloat.
From Flocq Require Import Core.
From Verif Require Import Base Num NumPy Spec HkModel HkProofs HkReal HkFacts HkFacts2 HkFacts4 P_Hk P_Hk6 Float64 FloatErr FloatHk FloatStack FloatSeq P_Float P_Float2.

Local Open Scope R_scope.

Section Core.
Context (rf : stream B64) (d q : R) (l : nat) (w1 w2 w3 : B64) (dat : trace B64 -> list B64).
Context (c : B64 -> B64 -> trace B64 -> res B64) (T1 T2 T3 : trace B64 -> B64 -> B64 -> R) (H K : list B64).

(** The exact arrivals of node (h,k) on trace [tr] are [T1], [T2], [T3]: three samples near them. *)
Definition reads_at (h k : B64) (amps : list (R * R * R)) : Prop :=
  Forall2 (fun tr '(a1, a2, a3) =>
     sample_near (dat tr) d q l (T1 tr h k) a1 /\ sample_near (dat tr) d q l (T2 tr h k) a2 /\
     sample_near (dat tr) d q l (T3 tr h k) a3) rf amps.

Context (Hn : (Z.of_nat (length rf) <= 2 ^ 20)%Z).
Context (Hc : forall h k tr y, In h H -> In k K -> In tr rf -> c k h tr = Ok y ->
   exists a1 a2 a3, (sample_near (dat tr) d q l (T1 tr h k) a1 /\ sample_near (dat tr) d q l (T2 tr h k) a2 /\
     sample_near (dat tr) d q l (T3 tr h k) a3) /\ fdouble y /\ 0 <= wabs (real w1) (real w2) (real w3) a1 a2 a3 <= 2 ^ 62 /\
     Rabs (wsum (real w1) (real w2) (real w3) a1 a2 a3) <= wabs (real w1) (real w2) (real w3) a1 a2 a3 /\
     Rabs (real y - wsum (real w1) (real w2) (real w3) a1 a2 a3) <= 4 * u * wabs (real w1) (real w2) (real w3) a1 a2 a3 + 4 * tiny).
Context (rows : list (row B64)) (ib : nat) (T : is_table (fun k h => sumM (c k h) rf) K H rows) (Am : argmax (map rS rows) = Ok ib).
Let V := value3 (real w1) (real w2) (real w3).
Let E := error3 (real w1) (real w2) (real w3).

Lemma row_b64 row : In row rows -> exists amps, fdouble (rS row) /\ In (rH row) H /\ In (rK row) K /\
     reads_at (rH row) (rK row) amps /\ Rabs (real (rS row) - V amps) <= E amps.
Proof using Hn Hc T.
  clear Am. unfold V, E. pose proof T as T'. apply mapM_Ok in T'. intro Hr.
  destruct (Forall2_in_r _ _ _ T' _ Hr) as ([k h] & Hin & Er). unfold mkrow_of in Er. cbn [fst snd] in Er.
  apply in_prod_iff in Hin. destruct Hin as [Hk Hh].
  apply bind_Ok_inv in Er. destruct Er as (v & Ev & Er). injection Er as <-. cbn [rH rK rS].
  destruct (sumM_b64 (c k h) (real w1) (real w2) (real w3) (fun tr '(a1, a2, a3) => sample_near (dat tr) d q l (T1 tr h k) a1 /\ sample_near (dat tr) d q l (T2 tr h k) a2 /\ sample_near (dat tr) d q l (T3 tr h k) a3) rf v (fun tr y Hi Hy => Hc h k tr y Hh Hk Hi Hy) Hn Ev) as (amps & F & Fv & Ev').
  exists amps. split; [exact Fv|]. split; [exact Hh|]. split; [exact Hk|]. split; [exact F|exact Ev'].
Qed.

Lemma best_b64 :
  exists As, Forall2 (fun row amps => In (rH row) H /\ In (rK row) K /\ finite (rS row) /\ reads_at (rH row) (rK row) amps /\
                        Rabs (real (rS row) - V amps) <= E amps) rows As /\
    exists best, nth_error As ib = Some best /\ forall amps, In amps As -> V amps <= V best + E best + E amps.
Proof using Hn Hc T Am.
  destruct (Forall2_choice _ _ row_b64) as [As FA]. exists As. split.
  { eapply Forall2_imp; [|exact FA]. intros x y ((_ & F) & A1 & A2 & A3 & A4). auto. }
  pose proof (best_first_of B64_laws _ _ Am) as (v & Hv & HB). rewrite nth_error_map in Hv.
  destruct (nth_error rows ib) as [rb|] eqn:Erb; [|discriminate]. injection Hv as <-.
  destruct (Forall2_nth _ _ _ _ _ FA Erb) as (best & Hbest & (Fb & _ & _ & _ & Bb)).
  exists best. split; [exact Hbest|]. intros amps Hin. destruct (Forall2_in_r _ _ _ FA _ Hin) as (row & Hrow & (Fr & _ & _ & _ & Br)).
  assert (Le : real (rS row) <= real (rS rb)).
  { destruct HB as [(Hnan & _)|(_ & Hmax & _)]; [rewrite (fd_notnan _ Fb) in Hnan; discriminate|].
    apply In_nth_error in Hrow. destruct Hrow as [n Hnn]. specialize (Hmax n (rS row)). rewrite nth_error_map, Hnn in Hmax.
    specialize (Hmax eq_refl). destruct Fr, Fb. apply leb_iff in Hmax; assumption. }
  apply abs_le_inv in Br, Bb. lra.
Qed.

(** The node whose pulses the traces carry wins. *)
Lemma recovers_b64 (H0 K0 : B64) (A B m : R) :
  0 < m -> m <= real w1 -> m <= real w2 -> m <= real w3 -> In H0 H -> In K0 K -> 0 <= B < A -> 0 < d ->
  let e := tol d q l in let n := INR (length rf) in let W := real w1 + real w2 + real w3 in
  (forall tr, In tr rf -> pulses A B (dat tr) d q l e (T1 tr H0 K0) (T2 tr H0 K0) (T3 tr H0 K0)) ->
  (forall tr h k, In tr rf -> In h H -> In k K -> T1 tr h k + T2 tr h k = T3 tr h k /\ T1 tr h k <= T2 tr h k) ->
  (forall tr, In tr rf -> 6 * e < T2 tr H0 K0 - T1 tr H0 K0) ->
  (forall h k, In h H -> In k K -> (h, k) <> (H0, K0) -> exists tr, In tr rf /\
     (2 * e < Rabs (T1 tr h k - T1 tr H0 K0) \/ 2 * e < Rabs (T2 tr h k - T2 tr H0 K0) \/ 2 * e < Rabs (T3 tr h k - T3 tr H0 K0))) ->
  2 * ((n + 3) * / 2 ^ 52 * (n * (A * W)) + n * / 2 ^ 1000) < m * (A - B) ->
  exists s, nth_error rows ib = Some (@mkRow B64 H0 K0 s) /\ fdouble s /\
    Rabs (real s - n * (A * W)) <= (n + 3) * / 2 ^ 52 * (n * (A * W)) + n * / 2 ^ 1000.
Proof using Hn Hc T Am.
  intros Hm M1 M2 M3 HH0 HK0 HAB Hd e n W HP HT Hsep Hres Hgap.
  destruct best_b64 as (As & FA & best & Hbest & Hmax).
  assert (He : 0 < e) by (apply tol_pos; exact Hd).
  assert (HE : forall h k amps, reads_at h k amps -> E amps <= (n + 3) * / 2 ^ 52 * (n * (A * W)) + n * / 2 ^ 1000).
  { intros h k amps Hr. eapply (error_le rf _ (real w1) (real w2) (real w3) amps A Hr); try lra.
    intros tr a1 a2 a3 Htr (S1 & S2 & S3). specialize (HP tr Htr).
    repeat split; first [apply (near_any A B _ _ _ _ _ _ _ HAB HP _ _ S1)|apply (near_any A B _ _ _ _ _ _ _ HAB HP _ _ S2)|apply (near_any A B _ _ _ _ _ _ _ HAB HP _ _ S3)]. }
  assert (HV : forall amps, reads_at H0 K0 amps -> V amps = n * (A * W)).
  { intros amps Hr. unfold V. apply (value_eq rf _ _ _ _ _ (A * W) Hr). intros tr a1 a2 a3 Htr (S1 & S2 & S3). specialize (HP tr Htr).
    rewrite (near_T1 A B _ _ _ _ _ _ _ HP _ S1), (near_T2 A B _ _ _ _ _ _ _ HP _ S2), (near_T3 A B _ _ _ _ _ _ _ HP _ S3). unfold wsum, W. ring. }
  pose proof HK0 as HK0'. pose proof HH0 as HH0'.
  apply In_nth_error in HK0'. destruct HK0' as [i0 Ei0]. apply In_nth_error in HH0'. destruct HH0' as [j0 Ej0].
  destruct (table_node _ _ _ _ i0 j0 K0 H0 T Ei0 Ej0) as (s0 & Es0 & _).
  destruct (Forall2_nth _ _ _ _ _ FA Es0) as (amps0 & Ha0 & (_ & _ & _ & R0 & B0)). cbn [rH rK rS] in R0, B0.
  pose proof (HV _ R0) as V0.
  destruct (Forall2_nth_r _ _ _ _ _ FA Hbest) as (rb & Hrb & (Ih & Ik & _ & Rb & Bb)).
  assert (Eq : (rH rb, rK rb) = (H0, K0)).
  { destruct (sf_eq_dec (rH rb) H0) as [Eh|Nh]; [destruct (sf_eq_dec (rK rb) K0) as [Ek|Nk]; [rewrite Eh, Ek; reflexivity|]|].
    all: exfalso; destruct (Hres (rH rb) (rK rb) Ih Ik) as (trx & Hx & Rx); [congruence|].
    all: assert (Hlt : V best <= n * (A * W) - m * (A - B)).
    all: try (eapply (value_lt rf _ _ _ _ best (A * W) (m * (A - B)) trx Rb); [| exact Hx |];
      [ intros tr a1 a2 a3 Htr (S1 & S2 & S3); exact (proj1 (misses A B _ _ _ _ _ _ _ HAB (HP tr Htr) _ _ _ m _ _ _ _ _ _ Hm M1 M2 M3 S1 S2 S3))
      | intros a1 a2 a3 (S1 & S2 & S3);
        apply (proj2 (misses A B _ _ _ _ _ _ _ HAB (HP trx Hx) _ _ _ m _ _ _ _ _ _ Hm M1 M2 M3 S1 S2 S3));
        [ apply (HT trx (rH rb) (rK rb) Hx Ih Ik) | apply (HT trx H0 K0 Hx HH0 HK0) | apply (HT trx (rH rb) (rK rb) Hx Ih Ik)
        | exact (Hsep trx Hx) | exact Rx ] ]).
    all: pose proof (Hmax amps0 ltac:(eapply nth_error_In; exact Ha0)) as Hm0; pose proof (HE _ _ _ Rb); pose proof (HE _ _ _ R0); lra. }
  injection Eq as Eh Ek. exists (rS rb). split; [rewrite Hrb; destruct rb as [hh kk ss]; cbn in *; subst; reflexivity|].
  split. { destruct (row_b64 rb ltac:(eapply nth_error_In; exact Hrb)) as (_ & F & _). exact F. }
  rewrite Eh, Ek in Rb. rewrite <- (HV _ Rb). eapply Rle_trans; [exact Bb|]. rewrite (HV _ Rb). exact (HE _ _ _ Rb).
Qed.
End Core.
