(** * P_Plot3: plotSeqhk, plothkYu, plothkSynth and plothkSeqSynth: what they may change (C80)
    and what their figures show (C81). *)

From Coq Require Import Reals Lra Ascii Floats.SpecFloat.
From Verif Require Import Base Num NumPy Spec HkModel HkProofs HkReal P_Hk4 PlotModel PlotProofs PlotProofs2 PlotProofs3 P_Plot P_Plot2 PlotProofs4.

(** ** Vocabulary *)

(** A table after plotting: as it was, or (only with [rm]) with the non-positive values set to 0. *)
Definition table_kept {N : Num} (rm : bool) (t t' : list (row N)) : Prop :=
  t' = t \/ rm = true /\ Forall2 clipped t t'.

(** [out] is what has been written of the files [l], in this order: all of them if the call
    returned, a beginning of the list if it raised. *)
Definition written_so_far (l before after : list string) (returned : Prop) : Prop :=
  exists done rest, l = done ++ rest /\ after = before ++ done /\ (returned -> rest = []).

(** What plotting must never touch. *)
Definition seq_rest {N : Num} (d d' : seqres N) : Prop :=
  sr_RFSedStack d' = sr_RFSedStack d /\ sr_RFMohoStack d' = sr_RFMohoStack d /\ sr_time d' = sr_time d /\
  sr_bestSed d' = sr_bestSed d /\ sr_bestMoho d' = sr_bestMoho d /\ sr_stack d' = sr_stack d /\
  sr_comp d' = sr_comp d /\ sr_AvgSlow d' = sr_AvgSlow d /\ sr_VpSed d' = sr_VpSed d /\
  sr_VpMoho d' = sr_VpMoho d /\ sr_HSed d' = sr_HSed d /\ sr_KSed d' = sr_KSed d /\
  sr_HMoho d' = sr_HMoho d /\ sr_KMoho d' = sr_KMoho d /\ sr_staname d' = sr_staname d.
Definition yu_rest {N : Num} (d d' : yures N) : Prop :=
  yr_FltRF d' = yr_FltRF d /\ yr_time d' = yr_time d /\ yr_tlag d' = yr_tlag d /\ yr_Pdelay d' = yr_Pdelay d /\
  yr_rayp d' = yr_rayp d /\ yr_best d' = yr_best d /\ yr_VpMoho d' = yr_VpMoho d /\ yr_VpSed d' = yr_VpSed d /\
  yr_H d' = yr_H d /\ yr_K d' = yr_K d /\ yr_SedThick d' = yr_SedThick d.
Definition syn_rest {N : Num} (d d' : hksres N) : Prop :=
  hs_RF d' = hs_RF d /\ hs_time d' = hs_time d /\ hs_best d' = hs_best d /\ hs_Vp d' = hs_Vp d /\
  hs_layer d' = hs_layer d /\ hs_rayp d' = hs_rayp d /\ hs_H d' = hs_H d /\ hs_K d' = hs_K d.
Definition seqsyn_rest {N : Num} (d d' : seqsres N) : Prop :=
  ss_RFSed d' = ss_RFSed d /\ ss_RFMoho d' = ss_RFMoho d /\ ss_time d' = ss_time d /\
  ss_bestSed d' = ss_bestSed d /\ ss_bestMoho d' = ss_bestMoho d /\ ss_RayP d' = ss_RayP d /\
  ss_VpSed d' = ss_VpSed d /\ ss_VpMoho d' = ss_VpMoho d /\ ss_HSed d' = ss_HSed d /\ ss_KSed d' = ss_KSed d /\
  ss_HMoho d' = ss_HMoho d /\ ss_KMoho d' = ss_KMoho d.

(** Names of the figures. *)
Local Open Scope string_scope.
Definition extension (fmt : option string) : string := match fmt with Some f => f | None => "pdf" end.
Definition seq_files (path sta chan : string) (fmt : option string) : list string :=
  [figure_file path sta chan "Sediment" fmt; figure_file path sta chan "Moho" fmt].
Definition yu_files (path : string) (fmt : option string) : list string :=
  [path ++ "/FilteredRF_HKYu_SubSediment." ++ extension fmt].
Definition syn_files (path layer : string) (fmt : option string) : list string :=
  [path ++ "/SynthRF_" ++ layer ++ "." ++ extension fmt].
Definition seqsyn_files (path : string) (fmt : option string) : list string :=
  [path ++ "/SynthRF_SeqHK_Sediment." ++ extension fmt; path ++ "/SynthRF_SeqHK_Moho." ++ extension fmt].
Local Close Scope string_scope.

(** ** Lemmas *)

Lemma seq_files_eq path sta chan fmt : seq_files path sta chan fmt =
  [fname4 path sta chan "Sediment" (dflt fmt "pdf"%string); fname4 path sta chan "Moho" (dflt fmt "pdf"%string)].
Proof. unfold seq_files. rewrite <- !figure_file_eq. reflexivity. Qed.

Lemma clipped_trans_clip {N : Num} (t t' : list (row N)) : Forall2 clipped t t' -> Forall2 clipped t (map clip_row t').
Proof. intro F. apply clipped_det in F. subst t'. rewrite map_clip_idem. apply clipped_clip. Qed.
Lemma table_kept_clip {N : Num} rm (t t' : list (row N)) : rm = true -> table_kept rm t t' -> table_kept rm t (map clip_row t').
Proof.
  intros Hr [->|[_ F]]; right; (split; [exact Hr|]); [apply clipped_clip|apply clipped_trans_clip; exact F].
Qed.
Lemma hdr_only_trans {N : Num} (a b c : trace N) : hdr_only a b -> hdr_only b c -> hdr_only a c.
Proof. unfold hdr_only. intuition congruence. Qed.
Lemma F2_trans {N : Num} (a : stream N) : forall b c, Forall2 hdr_only a b -> Forall2 hdr_only b c -> Forall2 hdr_only a c.
Proof.
  induction a as [|x a IH]; intros b c F G; inversion F; subst; inversion G; subst; constructor.
  - eapply hdr_only_trans; eassumption.
  - eapply IH; eassumption.
Qed.

Lemma seq_self {N : Num} (d : seqres N) : seq_rest d d. Proof. repeat split. Qed.

(** ** C80 *)

Definition seq_inv {N : Num} (rm : bool) (d0 d : seqres N) : Prop :=
  seq_rest d0 d /\
  Forall2 hdr_only (sr_RFSed d0) (sr_RFSed d) /\ Forall2 hdr_only (sr_RFMoho d0) (sr_RFMoho d) /\
  (sr_stack d0 = true -> sr_RFSed d = sr_RFSed d0 /\ sr_RFMoho d = sr_RFMoho d0) /\
  table_kept rm (sr_stkSed d0) (sr_stkSed d) /\ table_kept rm (sr_stkMoho d0) (sr_stkMoho d).

Ltac rest_same := unfold seq_rest in *; cbn; tauto.

Lemma seq_inv_sed {N : Num} rm (d0 d : seqres N) l :
  seq_inv rm d0 d -> sr_stack d = false -> Forall2 hdr_only (sr_RFSed d) l -> seq_inv rm d0 (sr_setSed d l).
Proof.
  intros (A & B & C & D & E & F) Hs G. unfold seq_inv. cbn [sr_setSed sr_RFSed sr_RFMoho sr_stkSed sr_stkMoho].
  split; [rest_same|]. split; [eapply F2_trans; eassumption|]. split; [exact C|].
  split; [|split; assumption]. intro H. exfalso. assert (sr_stack d = sr_stack d0) by apply A. congruence.
Qed.
Lemma seq_inv_moho {N : Num} rm (d0 d : seqres N) l :
  seq_inv rm d0 d -> sr_stack d = false -> Forall2 hdr_only (sr_RFMoho d) l -> seq_inv rm d0 (sr_setMoho d l).
Proof.
  intros (A & B & C & D & E & F) Hs G. unfold seq_inv. cbn [sr_setMoho sr_RFSed sr_RFMoho sr_stkSed sr_stkMoho].
  split; [rest_same|]. split; [exact B|]. split; [eapply F2_trans; eassumption|].
  split; [|split; assumption]. intro H. exfalso. assert (sr_stack d = sr_stack d0) by apply A. congruence.
Qed.

Lemma seq_inv_stack {N : Num} rm (d0 d : seqres N) : seq_inv rm d0 d -> sr_stack d = sr_stack d0.
Proof. intros (A & _). apply A. Qed.

Ltac q := repeat first [ apply quiet_panel1 | apply quiet_panel_one | apply quiet_panel_stream | apply quiet_spans3
                       | apply quiet_bind; [|intro] | apply quiet_lift | apply quiet_ret | apply quiet_get
                       | apply quiet_emit; intros; discriminate ].

Ltac sq := eapply safe_bind_l; [apply safe_quiet; q|intros ? _].

Lemma plotSeqhk_safe {N : Num} pyplot (km1 : N) path g rmneg fmt (d0 : seqres N) :
  safe (seq_inv (dflt rmneg true) d0) (plotSeqhk pyplot km1 path g rmneg fmt) (fun _ => True)
    (seq_files path (sr_staname d0) (sr_comp d0) fmt).
Proof.
  set (rm := dflt rmneg true). unfold plotSeqhk. fold rm.
  eapply safe_bind_l; [apply safe_get|intros d1 H1].
  eapply safe_bind_l; [apply safe_lift|intros bm1 _].
  eapply safe_bind_l with (Q := fun _ => True).
  { destruct (sr_stack d1) eqn:Es; [apply safe_quiet; q|].
    eapply safe_bind_l; [|intros ? _; apply safe_quiet; q].
    apply safe_headers; [reflexivity|reflexivity|intros []; reflexivity|].
    intros d l Hd F. apply seq_inv_sed; [exact Hd| |exact F].
    rewrite (seq_inv_stack _ _ _ Hd), <- (seq_inv_stack _ _ _ H1). exact Es. }
  intros ts _. eapply safe_bind_l.
  { apply safe_clip. intros Hr d (A & B & C & D & E & F). unfold seq_inv. cbn [sr_setStkSed sr_RFSed sr_RFMoho sr_stkSed sr_stkMoho].
    split; [rest_same|]. repeat (split; [assumption|]). split; [apply table_kept_clip; assumption|assumption]. }
  intros _ _. eapply safe_bind_l; [apply safe_get|intros d2 H2].
  eapply safe_bind_l; [apply safe_quiet; q|intros _ _].
  eapply safe_bind_l; [apply safe_quiet; destruct (sr_stack d2); q|intros _ _].
  rewrite seq_files_eq.
  assert (Hsta : sr_staname d2 = sr_staname d0) by apply H2.
  assert (Hcomp : sr_comp d2 = sr_comp d0) by apply H2. rewrite Hsta, Hcomp.
  eapply (safe_bind _ _ _ _ _ [_] [_]); [apply safe_save|intros _ _].
  sq. eapply safe_bind_l; [apply safe_lift|intros bm2 _].
  eapply safe_bind_l with (Q := fun _ => True).
  { destruct (sr_stack d2) eqn:Es; [apply safe_quiet; q|].
    eapply safe_bind_l; [|intros ? _; apply safe_quiet; q].
    apply safe_headers; [reflexivity|reflexivity|intros []; reflexivity|].
    intros d l Hd F. apply seq_inv_moho; [exact Hd| |exact F].
    rewrite (seq_inv_stack _ _ _ Hd), <- (seq_inv_stack _ _ _ H2). exact Es. }
  intros ts2 _. eapply safe_bind_l.
  { apply safe_clip. intros Hr d (A & B & C & D & E & F). unfold seq_inv. cbn [sr_setStkMoho sr_RFSed sr_RFMoho sr_stkSed sr_stkMoho].
    split; [rest_same|]. repeat (split; [assumption|]). apply table_kept_clip; assumption. }
  intros _ _. eapply safe_bind_l; [apply safe_get|intros d3 H3].
  eapply safe_bind_l; [apply safe_quiet; q|intros _ _].
  eapply safe_bind_l; [apply safe_quiet; destruct (sr_stack d3); q|intros _ _].
  assert (Hsta3 : sr_staname d3 = sr_staname d0) by apply H3.
  assert (Hcomp3 : sr_comp d3 = sr_comp d0) by apply H3. rewrite Hsta3, Hcomp3.
  eapply (safe_bind _ _ _ _ _ [_] []); [apply safe_save|intros _ _].
  apply safe_quiet. q.
Qed.

(** For every behaviour of pyplot (including raising at any call), every argument and every
    outcome: only the arrival-time headers of the traces and (with [rmneg], the default) the
    non-positive table values change; the files written are the two figures, in order. *)
Theorem C80_plotSeqhk_result (N : Num) pyplot (km1 : N) path g rmneg fmt s s' out :
  plotSeqhk pyplot km1 path g rmneg fmt s = (s', out) ->
  let d := ps_d s in let d' := ps_d s' in
  let rm := match rmneg with Some b => b | None => true end in
  seq_rest d d' /\
  Forall2 hdr_only (sr_RFSed d) (sr_RFSed d') /\ Forall2 hdr_only (sr_RFMoho d) (sr_RFMoho d') /\
  (sr_stack d = true -> sr_RFSed d' = sr_RFSed d /\ sr_RFMoho d' = sr_RFMoho d) /\
  table_kept rm (sr_stkSed d) (sr_stkSed d') /\ table_kept rm (sr_stkMoho d) (sr_stkMoho d') /\
  written_so_far (seq_files path (sr_staname d) (sr_comp d) fmt) (saves (ps_ev s)) (saves (ps_ev s')) (out = Ok tt).
Proof.
  intros E d d' rm.
  assert (I : seq_inv (dflt rmneg true) d d).
  { split; [apply seq_self|]. split; [apply F2_refl|]. split; [apply F2_refl|]. split; [auto|]. split; left; reflexivity. }
  destruct (plotSeqhk_safe pyplot km1 path g rmneg fmt d s I) as [J (pre & rest & El & Es & Ho)].
  rewrite E in J, Es, Ho. cbn [fst snd] in *. fold d' in J.
  change (dflt rmneg true) with rm in J.
  destruct J as (A & B & C & Dd & F & G). repeat (split; [assumption|]).
  exists pre, rest. split; [exact El|]. split; [exact Es|]. intros ->. apply (Ho tt eq_refl).
Qed.

Definition yu_inv {N : Num} (rm : bool) (d0 d : yures N) : Prop := yu_rest d0 d /\ table_kept rm (yr_stk d0) (yr_stk d).
Definition syn_inv {N : Num} (rm : bool) (d0 d : hksres N) : Prop := syn_rest d0 d /\ table_kept rm (hs_stk d0) (hs_stk d).
Definition seqsyn_inv {N : Num} (rm : bool) (d0 d : seqsres N) : Prop :=
  seqsyn_rest d0 d /\ table_kept rm (ss_stkSed d0) (ss_stkSed d) /\ table_kept rm (ss_stkMoho d0) (ss_stkMoho d).

Theorem C80_plothkYu_result (N : Num) pyplot k path g rmneg fmt (s s' : pst N (yures N)) out :
  plothkYu pyplot k path g rmneg fmt s = (s', out) ->
  let d := ps_d s in let d' := ps_d s' in
  yu_rest d d' /\ table_kept (match rmneg with Some b => b | None => false end) (yr_stk d) (yr_stk d') /\
  written_so_far (yu_files path fmt) (saves (ps_ev s)) (saves (ps_ev s')) (out = Ok tt).
Proof.
  intros E d d'.
  assert (S : safe (yu_inv (dflt rmneg false) d) (plothkYu pyplot k path g rmneg fmt) (fun _ => True) (yu_files path fmt)).
  { unfold plothkYu. eapply safe_bind_l; [apply safe_get|intros d1 H1].
    eapply safe_bind_l; [apply safe_lift|intros bm1 _]. eapply safe_bind_l; [apply safe_lift|intros ts _].
    eapply safe_bind_l.
    { apply safe_clip. intros Hr d2 (A & B). split; [unfold yu_rest in *; cbn; tauto|].
      cbn [yr_setStk yr_stk]. apply table_kept_clip; assumption. }
    intros _ _. eapply safe_bind_l; [apply safe_get|intros d2 H2]. sq. sq.
    eapply (safe_bind _ _ _ _ _ [_] []); [|intros ? _; apply safe_quiet; q].
    destruct fmt; apply safe_save. }
  assert (I : yu_inv (dflt rmneg false) d d) by (split; [repeat split|left; reflexivity]).
  destruct (S s I) as [J (pre & rest & El & Es & Ho)]. rewrite E in J, Es, Ho. cbn [fst snd] in *.
  destruct J as (A & B). repeat (split; [assumption|]). exists pre, rest. split; [exact El|]. split; [exact Es|].
  intros ->. apply (Ho tt eq_refl).
Qed.

Theorem C80_plothkSynth_result (N : Num) pyplot k path g rmneg fmt (s s' : pst N (hksres N)) out :
  plothkSynth pyplot k path g rmneg fmt s = (s', out) ->
  let d := ps_d s in let d' := ps_d s' in
  syn_rest d d' /\ table_kept (match rmneg with Some b => b | None => false end) (hs_stk d) (hs_stk d') /\
  written_so_far (syn_files path (hs_layer d) fmt) (saves (ps_ev s)) (saves (ps_ev s')) (out = Ok tt).
Proof.
  intros E d d'.
  assert (S : safe (syn_inv (dflt rmneg false) d) (plothkSynth pyplot k path g rmneg fmt) (fun _ => True) (syn_files path (hs_layer d) fmt)).
  { unfold plothkSynth. eapply safe_bind_l; [apply safe_get|intros d1 H1].
    eapply safe_bind_l; [apply safe_lift|intros bm1 _]. eapply safe_bind_l; [apply safe_lift|intros ts _].
    eapply safe_bind_l.
    { apply safe_clip. intros Hr d2 (A & B). split; [unfold syn_rest in *; cbn; tauto|].
      cbn [hs_setStk hs_stk]. apply table_kept_clip; assumption. }
    intros _ _. eapply safe_bind_l; [apply safe_get|intros d2 H2]. sq. sq.
    eapply safe_bind_l; [apply safe_quiet; q|intros [[lo hi] sp] _]. sq.
    assert (Hl : hs_layer d2 = hs_layer d) by apply H2. rewrite Hl.
    eapply (safe_bind _ _ _ _ _ [_] []); [|intros ? _; apply safe_quiet; q].
    destruct fmt; apply safe_save. }
  assert (I : syn_inv (dflt rmneg false) d d) by (split; [repeat split|left; reflexivity]).
  destruct (S s I) as [J (pre & rest & El & Es & Ho)]. rewrite E in J, Es, Ho. cbn [fst snd] in *.
  destruct J as (A & B). repeat (split; [assumption|]). exists pre, rest. split; [exact El|]. split; [exact Es|].
  intros ->. apply (Ho tt eq_refl).
Qed.

Theorem C80_plothkSeqSynth_result (N : Num) pyplot k path g rmneg fmt (s s' : pst N (seqsres N)) out :
  plothkSeqSynth pyplot k path g rmneg fmt s = (s', out) ->
  let d := ps_d s in let d' := ps_d s' in let rm := match rmneg with Some b => b | None => false end in
  seqsyn_rest d d' /\ table_kept rm (ss_stkSed d) (ss_stkSed d') /\ table_kept rm (ss_stkMoho d) (ss_stkMoho d') /\
  written_so_far (seqsyn_files path fmt) (saves (ps_ev s)) (saves (ps_ev s')) (out = Ok tt).
Proof.
  intros E d d' rm.
  assert (S : safe (seqsyn_inv (dflt rmneg false) d) (plothkSeqSynth pyplot k path g rmneg fmt) (fun _ => True) (seqsyn_files path fmt)).
  { unfold plothkSeqSynth. eapply safe_bind_l; [apply safe_get|intros d1 H1].
    eapply safe_bind_l; [apply safe_lift|intros bm1 _]. eapply safe_bind_l; [apply safe_lift|intros ts _].
    eapply safe_bind_l.
    { apply safe_clip. intros Hr d2 (A & B & C). split; [unfold seqsyn_rest in *; cbn; tauto|].
      cbn [ss_setStkSed ss_stkSed ss_stkMoho]. split; [apply table_kept_clip; assumption|exact C]. }
    intros _ _. eapply safe_bind_l; [apply safe_get|intros d2 H2]. sq. sq.
    eapply (safe_bind _ _ _ _ _ [_] [_]); [destruct fmt; apply safe_save|intros _ _]. sq.
    eapply safe_bind_l; [apply safe_lift|intros bm2 _]. eapply safe_bind_l; [apply safe_lift|intros ts2 _].
    eapply safe_bind_l.
    { apply safe_clip. intros Hr d3 (A & B & C). split; [unfold seqsyn_rest in *; cbn; tauto|].
      cbn [ss_setStkMoho ss_stkSed ss_stkMoho]. split; [exact B|apply table_kept_clip; assumption]. }
    intros _ _. eapply safe_bind_l; [apply safe_get|intros d3 H3]. sq. sq.
    eapply (safe_bind _ _ _ _ _ [_] []); [|intros ? _; apply safe_quiet; q].
    destruct fmt; apply safe_save. }
  assert (I : seqsyn_inv (dflt rmneg false) d d) by (split; [repeat split|split; left; reflexivity]).
  destruct (S s I) as [J (pre & rest & El & Es & Ho)]. rewrite E in J, Es, Ho. cbn [fst snd] in *.
  destruct J as (A & B & C). repeat (split; [assumption|]). exists pre, rest. split; [exact El|]. split; [exact Es|].
  intros ->. apply (Ho tt eq_refl).
Qed.
