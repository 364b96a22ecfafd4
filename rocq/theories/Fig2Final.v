(** The statements about `recreate_fig2`. *)

From Coq Require Import Reals List ZArith Bool Lia Lra.
From Coquelicot Require Import Coquelicot.
From Verif Require Import Prelude SpectraModel GenModel GenSpec GenProofs DftModel DftSpec DftCov LowModel LowSpec LowProofs LowMore LowSpectrum LowCov LossModel EstSpec EstProofs EstLimit StudyModel StudySpec StudyProofs StudyResults StudyFinal Fig2Model Fig2Spec Fig2Proofs.
Import ListNotations.
Open Scope R_scope.

Lemma tol_small : forall L, 0 < L -> L <= 10^9 -> 0 < / 10^9 < 2 * PI / L.
Proof.
  intros L H0 H1. split; [apply Rinv_0_lt_compat; lra|]. apply Rlt_le_trans with (2 * PI / 10^9).
  - pose proof PI2_3_2. pose proof PI_RGT_0. assert (0 < / 10^9) by (apply Rinv_0_lt_compat; lra). unfold Rdiv. nra.
  - unfold Rdiv. apply Rmult_le_compat_l; [pose proof PI_RGT_0; lra|]. apply Rinv_le_contravar; assumption.
Qed.

Lemma usable_estimate : forall G (gauss : G -> R * G) quad cfg w g, usable quad cfg w ->
  exists F1 F2, spectra_at gauss w g = (waves w, F1, F2) /\ length (waves w) = (2 ^ lc_e1 cfg / 2)%nat /\ length F1 = length (waves w) /\ length F2 = length (waves w)
  /\ (forall a, (1 <= a <= 2 ^ lc_e1 cfg / 2)%nat -> nth (a - 1) (waves w) 0 = 2 * PI * INR a / asked_L1 cfg)
  /\ nth (2 ^ lc_e1 cfg / 2 - 1) F1 0 = 0 /\ nth (2 ^ lc_e1 cfg / 2 - 1) F2 0 = 0.
Proof.
  intros G gauss quad cfg w g (HP & HC & He & HL). destruct (low_constructed quad cfg w HC HP) as (EC & F & _).
  destruct (realisation G gauss cfg w w g HP EC F eq_refl eq_refl eq_refl) as (u1 & u2 & EG & _).
  assert (ES : exists F1 F2, spectra_at gauss w g = (waves w, F1, F2) /\ compute_spectrum (LowGen (lw_cfg w) (lw_c w) (lw_grid w) (Some (u1, u2))) (/ 10^9) = Ok (waves w, F1, F2)).
  { unfold spectra_at. rewrite EG. unfold compute_spectrum. cbn [lw_u lw_grid]. do 2 eexists. split; reflexivity. }
  destruct ES as (F1 & F2 & ES & EC1). exists F1, F2. split; [exact ES|].
  assert (P1 : 0 < asked_L1 cfg) by (unfold asked_L1; destruct HP as (A & B & _); apply Rmult_lt_0_compat; assumption).
  assert (P2 : (2 <= 2 ^ lc_e1 cfg)%nat) by (apply pow2_ge; exact He).
  destruct (compute_spectrum_spec (LowGen (lw_cfg w) (lw_c w) (lw_grid w) (Some (u1, u2))) u1 u2 (/ 10^9) eq_refl) as (ks & G1 & G2 & EK & L1 & L2 & L3 & HA); cbn [lw_grid] in *.
  { rewrite (gf_L1 _ _ F). exact P1. } { rewrite (gf_N1 _ _ F). lia. } { rewrite (gf_dx _ _ F), (gf_L1 _ _ F), (gf_N1 _ _ F). unfold asked_dx. rewrite ?EstProofs.pow2_INR. reflexivity. }
  { rewrite (gf_L1 _ _ F). apply tol_small; assumption. }
  rewrite EC1 in EK. injection EK as <- <- <-. rewrite (gf_N1 _ _ F) in *. rewrite (gf_L1 _ _ F) in *.
  split; [exact L1|]. split; [lia|]. split; [lia|]. split; [intros a Ha; apply HA; lia|].
  assert (E2 : (2 * (2 ^ lc_e1 cfg / 2) = 2 ^ lc_e1 cfg)%nat). { destruct (lc_e1 cfg) as [|e]; [lia|]. cbn [Nat.pow]. rewrite Nat.mul_comm at 1. rewrite (Nat.mul_comm 2 (2 ^ e)), Nat.div_mul by lia. lia. }
  destruct (HA (2 ^ lc_e1 cfg / 2)%nat) as (_ & V1 & V2); [lia|lia|].
  assert (EB : (2 * (2 ^ lc_e1 cfg / 2) <? 2 ^ lc_e1 cfg)%nat = false) by (apply Nat.ltb_ge; lia). rewrite EB in V1, V2. split; assumption.
Qed.

Lemma half_pos : forall e, (1 <= e)%nat -> (0 < 2 ^ e / 2)%nat.
Proof. intros e He. apply Nat.div_str_pos. split; [lia|]. apply pow2_ge. exact He. Qed.

Section Figure.

Variables (G : Type) (gauss : G -> R * G) (quad2 : R -> R -> (R -> R) -> R) (qa qb : (R -> R) -> R) (cfga cfgb : low_config) (wa wb : low_gen) (n : nat).
Hypothesis UA : usable qa cfga wa.
Hypothesis UB : usable qb cfgb wb.
Hypothesis Hn : (1 <= n)%nat.
Let M := (draws wa + draws wb)%nat.

(** The numerical curve of one generator. *)
Lemma curve_of : forall quad cfg w (s : nat -> G), usable quad cfg w ->
  exists c, numerical_curve w (map (fun r => spectra_at gauss w (s r)) (seq 0 n)) = Ok c /\ has_points c (2 ^ lc_e1 cfg / 2)
  /\ forall ks F1 F2, (forall r, (r < n)%nat -> estimated gauss w (/ 10^9) (s r) ks (F1 r) (F2 r)) ->
     length ks = (2 ^ lc_e1 cfg / 2)%nat /\
     forall i, (i < length ks)%nat -> curve_point c i (nth i ks 0 * lc_L cfg) (nth i ks 0 * (Rsum (map (fun r => nth i (F1 r) 0) (seq 0 n)) / INR n))
       (nth i ks 0 * (Rsum (map (fun r => nth i (F2 r) 0) (seq 0 n)) / INR n)).
Proof.
  intros quad cfg w s HU. pose proof HU as (HP & HC & He & HL). destruct (low_constructed quad cfg w HC HP) as (EC & F & _).
  set (F1 := fun r => snd (fst (spectra_at gauss w (s r)))). set (F2 := fun r => snd (spectra_at gauss w (s r))).
  assert (HS : forall r, spectra_at gauss w (s r) = (waves w, F1 r, F2 r) /\ length (F1 r) = length (waves w) /\ length (F2 r) = length (waves w) /\ length (waves w) = (2 ^ lc_e1 cfg / 2)%nat).
  { intros r. destruct (usable_estimate G gauss quad cfg w (s r) HU) as (f1 & f2 & E & L1 & L2 & L3 & _). unfold F1, F2. rewrite E. cbn. tauto. }
  rewrite (map_ext _ (fun r => (waves w, F1 r, F2 r))) by (intros r; apply HS).
  destruct (numerical_spec n w (waves w) F1 F2) as (c & E & HPt & HCv); [lia|intros r _; destruct (HS r); tauto|].
  exists c. split; [exact E|]. assert (LW : length (waves w) = (2 ^ lc_e1 cfg / 2)%nat) by (destruct (HS 0%nat); tauto). rewrite LW in HPt. split; [exact HPt|].
  intros ks G1 G2 HE.
  assert (HEQ : forall r, (r < n)%nat -> ks = waves w /\ G1 r = F1 r /\ G2 r = F2 r).
  { intros r Hr. specialize (HE r Hr). apply (estimated_spectra G gauss quad cfg w (s r) ks (G1 r) (G2 r) HP HC) in HE. destruct (HS r) as (ER & _). rewrite ER in HE. injection HE as -> -> ->. tauto. }
  assert (EK : ks = waves w) by (destruct (HEQ 0%nat); [lia|assumption]). subst ks. split; [exact LW|]. intros i Hi. specialize (HCv i Hi). rewrite EC in HCv.
  rewrite (Rsum_ext _ (seq 0 n) (fun r => nth i (G1 r) 0) (fun r => nth i (F1 r) 0)) by (intros r Hr; apply in_seq in Hr; destruct (HEQ r) as (_ & -> & _); [lia|reflexivity]).
  rewrite (Rsum_ext _ (seq 0 n) (fun r => nth i (G2 r) 0) (fun r => nth i (F2 r) 0)) by (intros r Hr; apply in_seq in Hr; destruct (HEQ r) as (_ & _ & ->); [lia|reflexivity]).
  exact HCv.
Qed.


Lemma figure_spec : forall g, exists ra rb, recreate_fig2 gauss quad2 wa wb n g = (Ok (Some (ra, rb)), after gauss g (n * M))
  /\ cr_target ra = target_curve quad2 (-1) 3 wa /\ cr_target rb = target_curve quad2 (1/2) (9/2) wb
  /\ numerical_curve wa (map (fun r => spectra_at gauss wa (after gauss g (r * M))) (seq 0 n)) = Ok (cr_numerical ra)
  /\ numerical_curve wb (map (fun r => spectra_at gauss wb (after gauss g (r * M + draws wa))) (seq 0 n)) = Ok (cr_numerical rb)
  /\ has_points (cr_numerical ra) (2 ^ lc_e1 cfga / 2) /\ has_points (cr_numerical rb) (2 ^ lc_e1 cfgb / 2)
  /\ printed_values ra [/ 10; 1; 10] /\ printed_values rb [10; 100; 1000].
Proof.
  intros g. unfold recreate_fig2. pose proof UA as (HPa & HCa & Hea & HLa). pose proof UB as (HPb & HCb & Heb & HLb).
  rewrite (realisations_list G gauss qa cfga wa qb cfgb wb HPa HCa HPb HCb n wa wb g eq_refl eq_refl eq_refl eq_refl eq_refl eq_refl). cbn [bind]. fold M.
  set (l := map _ (seq 0 n)). assert (HNE : exists p t, l = p :: t) by (unfold l; destruct n; [lia|]; cbn [seq map]; eauto).
  destruct HNE as (p & t & EL). rewrite EL. cbn [bind]. rewrite <- EL. unfold l. rewrite !map_map. cbn [fst snd].
  destruct (curve_of qa cfga wa (fun r => after gauss g (r * M)) UA) as (ca & Ea & Pa & _). destruct (curve_of qb cfgb wb (fun r => after gauss g (r * M + draws wa)) UB) as (cb & Eb & Pb & _).
  rewrite Ea. cbn [bind]. rewrite Eb. cbn [bind].
  destruct (low_constructed qa cfga wa HCa HPa) as (ECa & _). destruct (low_constructed qb cfgb wb HCb HPb) as (ECb & _).
  assert (La : 0 < lc_L (lw_cfg wa)) by (rewrite ECa; apply HPa). assert (Lb : 0 < lc_L (lw_cfg wb)) by (rewrite ECb; apply HPb).
  destruct (target_spec quad2 (-1) 3 wa La) as (Ta & _). destruct (target_spec quad2 (1/2) (9/2) wb Lb) as (Tb & _).
  assert (H500 : (0 < 500)%nat) by (apply Nat.ltb_lt; reflexivity).
  destruct (report_spec _ ca 500 _ [/ 10; 1; 10] Ta Pa H500 (half_pos _ Hea)) as (ra & Ra & Ra1 & Ra2 & Ra3). destruct (report_spec _ cb 500 _ [10; 100; 1000] Tb Pb H500 (half_pos _ Heb)) as (rb & Rb & Rb1 & Rb2 & Rb3).
  rewrite Ra. cbn [bind]. rewrite Rb. cbn [bind]. exists ra, rb. split; [reflexivity|]. rewrite Ra2, Rb2. tauto.
Qed.

Lemma figure_curves : forall g, exists ra rb, recreate_fig2 gauss quad2 wa wb n g = (Ok (Some (ra, rb)), after gauss g (n * M))
  /\ has_points (cr_target ra) 500 /\ has_points (cr_target rb) 500
  /\ (forall i, (i < 500)%nat -> let x := Rpower 10 (-1 + 4 * INR i / 499) in let k := x / lc_L cfga in
        curve_point (cr_target ra) i x (k * fst (analytical quad2 wa 5 k)) (k * snd (analytical quad2 wa 5 k)))
  /\ (forall i, (i < 500)%nat -> let x := Rpower 10 (1/2 + 4 * INR i / 499) in let k := x / lc_L cfgb in
        curve_point (cr_target rb) i x (k * fst (analytical quad2 wb 5 k)) (k * snd (analytical quad2 wb 5 k)))
  /\ has_points (cr_numerical ra) (2 ^ lc_e1 cfga / 2) /\ has_points (cr_numerical rb) (2 ^ lc_e1 cfgb / 2)
  /\ (forall ks F1 F2, (forall r, (r < n)%nat -> estimated gauss wa (/ 10^9) (after gauss g (r * M)) ks (F1 r) (F2 r)) ->
        forall i, (i < 2 ^ lc_e1 cfga / 2)%nat -> curve_point (cr_numerical ra) i (nth i ks 0 * lc_L cfga)
          (nth i ks 0 * (Rsum (map (fun r => nth i (F1 r) 0) (seq 0 n)) / INR n)) (nth i ks 0 * (Rsum (map (fun r => nth i (F2 r) 0) (seq 0 n)) / INR n)))
  /\ (forall ks F1 F2, (forall r, (r < n)%nat -> estimated gauss wb (/ 10^9) (after gauss g (r * M + draws wa)) ks (F1 r) (F2 r)) ->
        forall i, (i < 2 ^ lc_e1 cfgb / 2)%nat -> curve_point (cr_numerical rb) i (nth i ks 0 * lc_L cfgb)
          (nth i ks 0 * (Rsum (map (fun r => nth i (F1 r) 0) (seq 0 n)) / INR n)) (nth i ks 0 * (Rsum (map (fun r => nth i (F2 r) 0) (seq 0 n)) / INR n))).
Proof.
  intros g. destruct (figure_spec g) as (ra & rb & E & Ta & Tb & Na & Nb & Pa & Pb & _). exists ra, rb. split; [exact E|].
  pose proof UA as (HPa & HCa & Hea & HLa). pose proof UB as (HPb & HCb & Heb & HLb).
  destruct (low_constructed qa cfga wa HCa HPa) as (ECa & _). destruct (low_constructed qb cfgb wb HCb HPb) as (ECb & _).
  assert (La : 0 < lc_L (lw_cfg wa)) by (rewrite ECa; apply HPa). assert (Lb : 0 < lc_L (lw_cfg wb)) by (rewrite ECb; apply HPb).
  destruct (target_spec quad2 (-1) 3 wa La) as (Pta & Va). destruct (target_spec quad2 (1/2) (9/2) wb Lb) as (Ptb & Vb). rewrite Ta, Tb.
  split; [exact Pta|]. split; [exact Ptb|].
  split. { intros i Hi. specialize (Va i Hi). rewrite ECa in Va. replace (3 - -1) with 4 in Va by lra. exact Va. }
  split. { intros i Hi. specialize (Vb i Hi). rewrite ECb in Vb. replace (9/2 - 1/2) with 4 in Vb by lra. exact Vb. }
  split; [exact Pa|]. split; [exact Pb|]. split.
  - intros ks F1 F2 HE i Hi. destruct (curve_of qa cfga wa (fun r => after gauss g (r * M)) UA) as (c & Ec & _ & Hc). rewrite Na in Ec. injection Ec as <-.
    destruct (Hc ks F1 F2 HE) as (LK & HV). apply HV. lia.
  - intros ks F1 F2 HE i Hi. destruct (curve_of qb cfgb wb (fun r => after gauss g (r * M + draws wa)) UB) as (c & Ec & _ & Hc). rewrite Nb in Ec. injection Ec as <-.
    destruct (Hc ks F1 F2 HE) as (LK & HV). apply HV. lia.
Qed.

Lemma figure_printed : forall g ra rb g', recreate_fig2 gauss quad2 wa wb n g = (Ok (Some (ra, rb)), g') -> printed_values ra [/ 10; 1; 10] /\ printed_values rb [10; 100; 1000].
Proof. intros g ra rb g' E. destruct (figure_spec g) as (ra' & rb' & E' & H). rewrite E in E'. injection E' as -> -> _. tauto. Qed.

Lemma figure_highest : forall g ra rb g', recreate_fig2 gauss quad2 wa wb n g = (Ok (Some (ra, rb)), g') ->
  curve_point (cr_numerical ra) (2 ^ lc_e1 cfga / 2 - 1) (PI * 2 ^ lc_e1 cfga / lc_f1 cfga) 0 0
  /\ curve_point (cr_numerical rb) (2 ^ lc_e1 cfgb / 2 - 1) (PI * 2 ^ lc_e1 cfgb / lc_f1 cfgb) 0 0.
Proof.
  intros g ra rb g' E. destruct (figure_spec g) as (ra' & rb' & E' & _ & _ & Na & Nb & _). rewrite E in E'. injection E' as <- <- _.
  assert (HG : forall quad cfg w (s : nat -> G) c, usable quad cfg w -> numerical_curve w (map (fun r => spectra_at gauss w (s r)) (seq 0 n)) = Ok c ->
    curve_point c (2 ^ lc_e1 cfg / 2 - 1) (PI * 2 ^ lc_e1 cfg / lc_f1 cfg) 0 0).
  { intros quad cfg w s c HU Ec. pose proof HU as (HP & HC & He & HL). destruct (curve_of quad cfg w s HU) as (c' & Ec' & _ & Hc). rewrite Ec in Ec'. injection Ec' as <-.
    assert (HE : forall r, spectra_at gauss w (s r) = (waves w, snd (fst (spectra_at gauss w (s r))), snd (spectra_at gauss w (s r)))
              /\ nth (2 ^ lc_e1 cfg / 2 - 1) (snd (fst (spectra_at gauss w (s r)))) 0 = 0 /\ nth (2 ^ lc_e1 cfg / 2 - 1) (snd (spectra_at gauss w (s r))) 0 = 0).
    { intros r. destruct (usable_estimate G gauss quad cfg w (s r) HU) as (F1 & F2 & E0 & _ & _ & _ & _ & Z1 & Z2). rewrite E0. cbn [fst snd]. tauto. }
    destruct (Hc (waves w) (fun r => snd (fst (spectra_at gauss w (s r)))) (fun r => snd (spectra_at gauss w (s r)))) as (LK & HV).
    { intros r _. apply (estimated_spectra G gauss quad cfg w (s r) _ _ _ HP HC). apply HE. }
    pose proof (half_pos _ He) as HH. specialize (HV (2 ^ lc_e1 cfg / 2 - 1)%nat). rewrite LK in HV. specialize (HV ltac:(lia)).
    destruct (usable_estimate G gauss quad cfg w (s 0%nat) HU) as (_ & _ & _ & _ & _ & _ & KW & _). rewrite (KW (2 ^ lc_e1 cfg / 2)%nat) in HV by lia.
    rewrite (Rsum_ext _ (seq 0 n) _ (fun _ => 0)), Rsum_zero in HV by (intros r _; apply HE). rewrite (Rsum_ext _ (seq 0 n) _ (fun _ => 0)), Rsum_zero in HV by (intros r _; apply HE).
    assert (Hx : 2 * PI * INR (2 ^ lc_e1 cfg / 2) / asked_L1 cfg * lc_L cfg = PI * 2 ^ lc_e1 cfg / lc_f1 cfg).
    { assert (E2 : 2 * INR (2 ^ lc_e1 cfg / 2) = 2 ^ lc_e1 cfg). { rewrite <- (EstProofs.pow2_INR (lc_e1 cfg)). change 2 with (INR 2) at 1. rewrite <- mult_INR. f_equal. destruct (lc_e1 cfg) as [|e]; [lia|]. cbn [Nat.pow]. rewrite (Nat.mul_comm 2 (2 ^ e)), Nat.div_mul by lia. lia. }
      rewrite <- E2. unfold asked_L1. destruct HP as (A & B & _). field. lra. }
    rewrite Hx in HV. replace (0 / INR n) with 0 in HV by (unfold Rdiv; ring). rewrite Rmult_0_r in HV. exact HV. }
  split; [exact (HG qa cfga wa _ _ UA Na)|exact (HG qb cfgb wb _ _ UB Nb)].
Qed.

End Figure.

Lemma figure_none : forall G (gauss : G -> R * G) quad2 wa wb g, recreate_fig2 gauss quad2 wa wb 0 g = (Ok None, g).
Proof. reflexivity. Qed.

Lemma nearest_empty : forall t m v vs, cu_x m = [] -> forall p, nearest t v = Ok p -> comparisons t m (v :: vs) = Err ValueError.
Proof. intros t m v vs H p E. cbn [comparisons]. rewrite E. cbn [bind]. unfold nearest. rewrite H. reflexivity. Qed.

Lemma waves_single : forall quad cfg w, positive_lengths cfg -> low_construct quad cfg = Ok w -> lc_e1 cfg = 0%nat -> waves w = [].
Proof.
  intros quad cfg w HP HC He. destruct (low_constructed quad cfg w HC HP) as (_ & F & _). unfold waves, k1_positive. rewrite (gf_N1 _ _ F), He. cbn [Nat.pow Nat.div Nat.divmod fst seq map Nat.add].
  cbn [filter]. assert (E : Rltb default_tol (Rabs (low_wave 1 (lg_dx (lw_grid w)) 0)) = false).
  { apply Rltb_false. unfold low_wave. change (signed_mode 1 0) with 0%Z. replace (2 * PI * (0 / (INR 1 * lg_dx (lw_grid w)))) with 0 by (unfold Rdiv; ring). rewrite Rabs_R0. unfold default_tol. left. apply Rinv_0_lt_compat. lra. }
  rewrite E. reflexivity.
Qed.

Lemma curve_length : forall G (gauss : G -> R * G) quad cfg w n (s : nat -> G), positive_lengths cfg -> low_construct quad cfg = Ok w -> (1 <= n)%nat ->
  exists c, numerical_curve w (map (fun r => spectra_at gauss w (s r)) (seq 0 n)) = Ok c /\ has_points c (length (waves w)).
Proof.
  intros G gauss quad cfg w n s HP HC Hn. set (F1 := fun r => snd (fst (spectra_at gauss w (s r)))). set (F2 := fun r => snd (spectra_at gauss w (s r))).
  assert (HS : forall r, spectra_at gauss w (s r) = (waves w, F1 r, F2 r) /\ length (F1 r) = length (waves w) /\ length (F2 r) = length (waves w)).
  { intros r. destruct (generate_spectra G gauss quad cfg w w (s r) HP HC eq_refl eq_refl eq_refl) as (_ & _ & _ & _ & _ & _ & f1 & f2 & E & L1 & L2). unfold F1, F2. rewrite E. cbn. tauto. }
  rewrite (map_ext _ (fun r => (waves w, F1 r, F2 r))) by (intros r; apply HS).
  destruct (numerical_spec n w (waves w) F1 F2) as (c & E & HPt & _); [lia|intros r _; destruct (HS r); tauto|]. exists c. tauto.
Qed.

Lemma figure_single : forall G (gauss : G -> R * G) quad2 qa cfga wa qb cfgb wb n g, positive_lengths cfga -> low_construct qa cfga = Ok wa ->
  positive_lengths cfgb -> low_construct qb cfgb = Ok wb -> (1 <= n)%nat -> lc_e1 cfga = 0%nat \/ lc_e1 cfgb = 0%nat ->
  fst (recreate_fig2 gauss quad2 wa wb n g) = Err ValueError.
Proof.
  intros G gauss quad2 qa cfga wa qb cfgb wb n g HPa HCa HPb HCb Hn H0. unfold recreate_fig2.
  rewrite (realisations_list G gauss qa cfga wa qb cfgb wb HPa HCa HPb HCb n wa wb g eq_refl eq_refl eq_refl eq_refl eq_refl eq_refl). cbn [bind fst].
  set (l := map _ (seq 0 n)). assert (HNE : exists p t, l = p :: t) by (unfold l; destruct n; [lia|]; cbn [seq map]; eauto).
  destruct HNE as (p & t & EL). rewrite EL. cbn [bind]. rewrite <- EL. unfold l. rewrite !map_map. cbn [fst snd].
  destruct (curve_length G gauss qa cfga wa n (fun r => after gauss g (r * (draws wa + draws wb))) HPa HCa Hn) as (ca & Ea & Pa).
  destruct (curve_length G gauss qb cfgb wb n (fun r => after gauss g (r * (draws wa + draws wb) + draws wa)) HPb HCb Hn) as (cb & Eb & Pb).
  rewrite Ea. cbn [bind]. rewrite Eb. cbn [bind].
  destruct (low_constructed qa cfga wa HCa HPa) as (ECa & _). destruct (low_constructed qb cfgb wb HCb HPb) as (ECb & _).
  assert (La : 0 < lc_L (lw_cfg wa)) by (rewrite ECa; apply HPa). assert (Lb : 0 < lc_L (lw_cfg wb)) by (rewrite ECb; apply HPb).
  destruct (target_spec quad2 (-1) 3 wa La) as (Ta & _). destruct (target_spec quad2 (1/2) (9/2) wb Lb) as (Tb & _).
  assert (H500 : (0 < 500)%nat) by (apply Nat.ltb_lt; reflexivity).
  assert (HE : forall t' c v vs, has_points t' 500 -> has_points c 0 -> report t' c (v :: vs) = Err ValueError).
  { intros t' c v vs HT (HX & _). destruct (nearest_spec t' v 500 HT H500) as (q & Eq & _). unfold report. rewrite (nearest_empty t' c v vs) with (p := q); [reflexivity| |exact Eq]. destruct (cu_x c); [reflexivity|discriminate]. }
  destruct (Nat.eq_dec (length (waves wa)) 0) as [Z|NZ].
  - rewrite Z in Pa. rewrite (HE _ ca (/ 10) [1; 10] Ta Pa). reflexivity.
  - destruct (report_spec _ ca 500 _ [/ 10; 1; 10] Ta Pa H500) as (ra & Ra & _); [lia|]. rewrite Ra. cbn [bind].
    assert (ZB : waves wb = []). { destruct H0 as [H0|H0]; [|exact (waves_single qb cfgb wb HPb HCb H0)]. rewrite (waves_single qa cfga wa HPa HCa H0) in NZ. cbn in NZ. lia. }
    rewrite ZB in Pb. rewrite (HE _ cb 10 [100; 1000] Tb Pb). reflexivity.
Qed.

(** ** Averages over seeds *)

(** A family of states after drawing some numbers. *)
Definition shifted {G : Type} (gauss : G -> R * G) (m : nat) (ens : list (R * G)) : list (R * G) := map (fun s => (fst s, after gauss (snd s) m)) ens.

Lemma shifted_mean : forall G (gauss : G -> R * G) m ens f, mean (shifted gauss m ens) f = mean ens (fun g => f (after gauss g m)).
Proof. intros G gauss m ens f. unfold mean, shifted. rewrite map_map. reflexivity. Qed.

Lemma shifted_white : forall G (gauss : G -> R * G) m k N ens, white gauss N ens -> (m + k <= N)%nat -> white gauss k (shifted gauss m ens).
Proof.
  intros G gauss m k N ens HW HN i j Hi Hj. rewrite shifted_mean. rewrite (mean_ext _ ens _ (fun g => stream gauss g (m + i) * stream gauss g (m + j))) by (intros g; rewrite !stream_after; reflexivity).
  rewrite HW by lia. destruct (i =? j)%nat eqn:E.
  - apply Nat.eqb_eq in E. subst. rewrite Nat.eqb_refl. reflexivity.
  - apply Nat.eqb_neq in E. destruct (m + i =? m + j)%nat eqn:E2; [apply Nat.eqb_eq in E2; lia|reflexivity].
Qed.

Section Unbiased.

Variables (G : Type) (gauss : G -> R * G) (ens : list (R * G)) (quad : (R -> R) -> R) (cfg : low_config) (w : low_gen) (n : nat) (M off : nat).
Hypothesis HU : usable quad cfg w.
Hypothesis HD : plain_domain cfg.
Hypothesis Hs : 0 <= lc_sigma2 cfg.
Hypothesis HL : lc_L cfg <= 10^6.
Hypothesis H1 : asked_L1 cfg <= 10^8.
Hypothesis Hd : / 10^8 <= asked_dx cfg.
Hypothesis Hp : / 100 <= Rabs (cos (lc_psi cfg)).
Hypothesis Hn : (1 <= n)%nat.
Hypothesis HM : (off + draws w <= M)%nat.
Hypothesis HW : white gauss (n * M) ens.

Lemma unbiased_curve : forall y1 y2 a, (1 <= a)%nat -> (2 * a < 2 ^ lc_e1 cfg)%nat ->
  (forall g, exists c x, numerical_curve w (map (fun r => spectra_at gauss w (after gauss g (r * M + off))) (seq 0 n)) = Ok c /\ curve_point c (a - 1) x (y1 g) (y2 g)) ->
  let N2 := (2 ^ lc_e2 cfg)%nat in
  let k1 := 2 * PI * INR a / asked_L1 cfg in
  let dk := 2 * PI / asked_L2 cfg in
  mean ens y1 = k1 * Rsum (map (fun j => integrand11 (lw_c w) (lc_L cfg) (lc_psi cfg) (lc_zi cfg) k1 (dk * (INR j - INR N2 / 2)) * dk) (seq 1 (N2 - 1)))
  /\ mean ens y2 = k1 * Rsum (map (fun j => integrand22 (lw_c w) (lc_L cfg) (lc_psi cfg) (lc_zi cfg) k1 (dk * (INR j - INR N2 / 2)) * dk) (seq 0 N2)).
Proof.
  intros y1 y2 a Ha1 Ha2 HY N2 k1 dk. pose proof HU as (HP & HC & He & HL1). destruct (low_constructed quad cfg w HC HP) as (EC & F & _).
  destruct (plain_counts cfg (lw_grid w) HP HD F) as (C1 & C2 & _).
  assert (P1 : 0 < asked_L1 cfg) by (unfold asked_L1; destruct HP as (A & B & _); apply Rmult_lt_0_compat; assumption).
  pose proof (tol_small (asked_L1 cfg) P1 HL1) as HT.
  set (e1 := fun g => nth (a - 1) (snd (fst (spectra_at gauss w g))) 0). set (e2 := fun g => nth (a - 1) (snd (spectra_at gauss w g)) 0).
  assert (Hh : (a - 1 < 2 ^ lc_e1 cfg / 2)%nat). { assert (a <= 2 ^ lc_e1 cfg / 2)%nat by (apply Nat.div_le_lower_bound; lia). lia. }
  assert (HE : forall g, exists ks F1 F2, estimated gauss w (/ 10^9) g ks F1 F2 /\ nth_error F1 (a - 1) = Some (e1 g) /\ nth_error F2 (a - 1) = Some (e2 g)).
  { intros g. destruct (usable_estimate G gauss quad cfg w g HU) as (F1 & F2 & E & L0 & L1 & L2 & _). exists (waves w), F1, F2. split; [apply (estimated_spectra G gauss quad cfg w g _ _ _ HP HC); exact E|].
    unfold e1, e2. rewrite E. cbn [fst snd]. rewrite !nth_error_some_nth by lia. split; reflexivity. }
  assert (HR : forall r, (r < n)%nat -> let m := (r * M + off)%nat in
    mean ens (fun g => e1 (after gauss g m)) = Rsum (map (fun j => integrand11 (lw_c w) (lc_L cfg) (lc_psi cfg) (lc_zi cfg) k1 (dk * (INR j - INR N2 / 2)) * dk) (seq 1 (N2 - 1)))
    /\ mean ens (fun g => e2 (after gauss g m)) = Rsum (map (fun j => integrand22 (lw_c w) (lc_L cfg) (lc_psi cfg) (lc_zi cfg) k1 (dk * (INR j - INR N2 / 2)) * dk) (seq 0 N2))).
  { intros r Hr m. assert (HWs : white gauss (2 ^ lc_e1 cfg * 2 ^ lc_e2 cfg) (shifted gauss m ens)).
    { apply (shifted_white G gauss m _ (n * M) ens HW). unfold draws in HM. rewrite C1, C2 in HM. unfold m. nia. }
    rewrite <- (shifted_mean G gauss m ens e1), <- (shifted_mean G gauss m ens e2).
    exact (@mean_estimates G gauss quad cfg w (shifted gauss m ens) (/ 10^9) HP HC HD Hs HL H1 Hd Hp HT HWs e1 e2 a Ha1 Ha2 HE). }
  assert (HV : forall g, y1 g = k1 * (Rsum (map (fun r => e1 (after gauss g (r * M + off))) (seq 0 n)) / INR n) /\ y2 g = k1 * (Rsum (map (fun r => e2 (after gauss g (r * M + off))) (seq 0 n)) / INR n)).
  { intros g. destruct (HY g) as (c & x & Ec & HCP).
    set (s := fun r => after gauss g (r * M + off)). change (fun r => spectra_at gauss w (after gauss g (r * M + off))) with (fun r => spectra_at gauss w (s r)) in Ec.
    destruct (curve_of G gauss w w n Hn quad cfg w s HU) as (c' & Ec' & _ & Hc). rewrite Ec in Ec'. injection Ec' as <-.
    destruct (Hc (waves w) (fun r => snd (fst (spectra_at gauss w (s r)))) (fun r => snd (spectra_at gauss w (s r)))) as (LK & HVV).
    { intros r _. apply (estimated_spectra G gauss quad cfg w (s r) _ _ _ HP HC). destruct (usable_estimate G gauss quad cfg w (s r) HU) as (F1 & F2 & E0 & _). rewrite E0. reflexivity. }
    specialize (HVV (a - 1)%nat). rewrite LK in HVV. specialize (HVV Hh).
    destruct (usable_estimate G gauss quad cfg w (s 0%nat) HU) as (_ & _ & _ & _ & _ & _ & KW & _). rewrite (KW a) in HVV by lia. fold k1 in HVV.
    destruct HCP as (_ & A & B). destruct HVV as (_ & A' & B'). rewrite A in A'. rewrite B in B'. injection A' as ->. injection B' as ->. split; reflexivity. }
  assert (Hn0 : INR n <> 0) by (apply not_0_INR; lia).
  assert (HA : forall e V, (forall r, (r < n)%nat -> mean ens (fun g => e (after gauss g (r * M + off))) = V) ->
    mean ens (fun g => k1 * (Rsum (map (fun r => e (after gauss g (r * M + off))) (seq 0 n)) / INR n)) = k1 * V).
  { intros e V HV'. rewrite mean_scal. f_equal. unfold Rdiv. rewrite (mean_ext _ ens _ (fun g => / INR n * Rsum (map (fun r => e (after gauss g (r * M + off))) (seq 0 n)))) by (intros; ring).
    rewrite mean_scal. rewrite (mean_Rsum G ens nat (seq 0 n) (fun g r => e (after gauss g (r * M + off)))).
    rewrite (Rsum_ext _ (seq 0 n) _ (fun _ => V * 1)) by (intros r Hr; apply in_seq in Hr; rewrite HV' by lia; ring). rewrite Rsum_scal, Rsum_one, seq_length. field. exact Hn0. }
  split.
  - rewrite (mean_ext _ ens y1 _ (fun g => proj1 (HV g))). apply HA. intros r Hr. apply (HR r Hr).
  - rewrite (mean_ext _ ens y2 _ (fun g => proj2 (HV g))). apply HA. intros r Hr. apply (HR r Hr).
Qed.

End Unbiased.

Lemma figure_unbiased : forall G (gauss : G -> R * G) ens quad2 qa cfga wa qb cfgb wb n, usable qa cfga wa -> usable qb cfgb wb -> (1 <= n)%nat ->
  white gauss (n * (draws wa + draws wb)) ens ->
  forall (fig : G -> case_report * case_report), (forall g, fst (recreate_fig2 gauss quad2 wa wb n g) = Ok (Some (fig g))) ->
  (plain_domain cfga -> guarded cfga -> forall a y1 y2, (1 <= a)%nat -> (2 * a < 2 ^ lc_e1 cfga)%nat ->
     let N2 := (2 ^ lc_e2 cfga)%nat in let k1 := 2 * PI * INR a / asked_L1 cfga in let dk := 2 * PI / asked_L2 cfga in
     (forall g, exists x, curve_point (cr_numerical (fst (fig g))) (a - 1) x (y1 g) (y2 g)) ->
     mean ens y1 = k1 * Rsum (map (fun j => integrand11 (lw_c wa) (lc_L cfga) (lc_psi cfga) (lc_zi cfga) k1 (dk * (INR j - INR N2 / 2)) * dk) (seq 1 (N2 - 1)))
     /\ mean ens y2 = k1 * Rsum (map (fun j => integrand22 (lw_c wa) (lc_L cfga) (lc_psi cfga) (lc_zi cfga) k1 (dk * (INR j - INR N2 / 2)) * dk) (seq 0 N2)))
  /\ (plain_domain cfgb -> guarded cfgb -> forall a y1 y2, (1 <= a)%nat -> (2 * a < 2 ^ lc_e1 cfgb)%nat ->
     let N2 := (2 ^ lc_e2 cfgb)%nat in let k1 := 2 * PI * INR a / asked_L1 cfgb in let dk := 2 * PI / asked_L2 cfgb in
     (forall g, exists x, curve_point (cr_numerical (snd (fig g))) (a - 1) x (y1 g) (y2 g)) ->
     mean ens y1 = k1 * Rsum (map (fun j => integrand11 (lw_c wb) (lc_L cfgb) (lc_psi cfgb) (lc_zi cfgb) k1 (dk * (INR j - INR N2 / 2)) * dk) (seq 1 (N2 - 1)))
     /\ mean ens y2 = k1 * Rsum (map (fun j => integrand22 (lw_c wb) (lc_L cfgb) (lc_psi cfgb) (lc_zi cfgb) k1 (dk * (INR j - INR N2 / 2)) * dk) (seq 0 N2))).
Proof.
  intros G gauss ens quad2 qa cfga wa qb cfgb wb n UA UB Hn HW fig HF. set (M := (draws wa + draws wb)%nat) in *.
  assert (HN : forall g, numerical_curve wa (map (fun r => spectra_at gauss wa (after gauss g (r * M))) (seq 0 n)) = Ok (cr_numerical (fst (fig g)))
            /\ numerical_curve wb (map (fun r => spectra_at gauss wb (after gauss g (r * M + draws wa))) (seq 0 n)) = Ok (cr_numerical (snd (fig g)))).
  { intros g. destruct (figure_spec G gauss quad2 qa qb cfga cfgb wa wb n UA UB Hn g) as (ra & rb & E & _ & _ & Na & Nb & _). specialize (HF g). rewrite E in HF. cbn [fst] in HF. injection HF as HF. rewrite <- HF. cbn [fst snd]. split; assumption. }
  split; intros HD (Hs & HL & H1 & Hd & Hp) a y1 y2 Ha1 Ha2 N2 k1 dk HY.
  - apply (unbiased_curve G gauss ens qa cfga wa n M 0 UA HD Hs HL H1 Hd Hp Hn); [unfold M; lia|exact HW|exact Ha1|exact Ha2|].
    intros g. destruct (HY g) as (x & Hx). exists (cr_numerical (fst (fig g))), x. split; [|exact Hx]. rewrite <- (proj1 (HN g)). f_equal. apply map_ext. intros r. rewrite Nat.add_0_r. reflexivity.
  - apply (unbiased_curve G gauss ens qb cfgb wb n M (draws wa) UB HD Hs HL H1 Hd Hp Hn); [unfold M; lia|exact HW|exact Ha1|exact Ha2|].
    intros g. destruct (HY g) as (x & Hx). exists (cr_numerical (snd (fig g))), x. split; [exact (proj2 (HN g))|exact Hx].
Qed.

(** The target is positive at every wave number of the grid. *)
Lemma target_positive : forall quad cfg w a, positive_lengths cfg -> low_construct quad cfg = Ok w -> guarded cfg -> 0 < lc_sigma2 cfg -> (1 <= a)%nat ->
  let k1 := 2 * PI * INR a / asked_L1 cfg in 0 < k1 /\ 0 < snd (analytical exact_quad w 5 k1).
Proof.
  intros quad cfg w a HP HC (_ & HL & H1 & _ & Hp) Hs Ha k1. destruct (low_constructed quad cfg w HC HP) as (EC & F & HQ & Ec & _).
  assert (P1 : 0 < asked_L1 cfg) by (unfold asked_L1; destruct HP as (A & B & _); apply Rmult_lt_0_compat; assumption). assert (PL : 0 < lc_L cfg) by apply HP.
  assert (A1 : 1 <= INR a) by (apply (le_INR 1); exact Ha). pose proof PI_RGT_0 as PP. pose proof PI2_3_2 as P3.
  assert (Hc : 0 < lw_c w). { rewrite Ec. assert (0 < / 10^16) by (apply Rinv_0_lt_compat; lra). apply Rdiv_lt_0_compat; lra. }
  assert (Ek : physical_k (asked_L1 cfg) (2 * a + 1) a = k1) by (unfold physical_k, k1; destruct (Nat.ltb_spec (2 * a) (2 * a + 1)); [reflexivity|lia]).
  assert (HR : forall k2, / 10^20 <= k1^2 + k2^2 /\ / 10^20 <= low_kappa2 (lc_psi cfg) k1 k2).
  { intros k2. pose proof (resolved (asked_L1 cfg) (2 * a + 1) a (lc_psi cfg) k2) as HR. cbv zeta in HR. rewrite Ek in HR. apply HR; [lra|exact Ha|lia|exact Hp]. }
  assert (K : / 10^8 <= k1).
  { unfold k1, Rdiv. apply Rle_trans with (/ asked_L1 cfg); [apply Rinv_le_contravar; lra|]. rewrite <- (Rmult_1_l (/ asked_L1 cfg)) at 1.
    apply Rmult_le_compat_r; [left; apply Rinv_0_lt_compat; lra|]. apply Rle_trans with (2 * PI * 1); [lra|]. apply Rmult_le_compat_l; lra. }
  assert (P8 : 0 < / 10^8) by (apply Rinv_0_lt_compat; lra). split; [lra|].
  assert (K15 : / 10^15 <= k1). { apply Rle_trans with (/ 10^8); [apply Rinv_le_contravar; lra|exact K]. }
  unfold analytical. rewrite EC. rewrite (Rabs_pos_eq k1) by lra. rewrite (proj2 (Rltb_false k1 (/ 10^15)) K15). cbn [snd]. rewrite (Rabs_pos_eq 5) by lra. unfold exact_quad.
  assert (P20 : 0 < / 10^20) by (apply Rinv_0_lt_compat; lra).
  assert (K20 : / 10^20 <= k1^2). { destruct (HR 0) as (A & _). replace (k1^2 + 0^2) with (k1^2) in A by ring. exact A. }
  pose proof (integrand_continuous (lw_c w) (lc_L cfg) (lc_psi cfg) (lc_zi cfg) k1 PL HL K20 (fun k2 => proj2 (HR k2))) as HCt.
  apply RInt_gt_0; [lra| |intros x _; apply HCt].
  intros x _. pose proof tiny_order as TO. destruct (integrands_planar (lw_c w) (lc_L cfg) (lc_psi cfg) (lc_zi cfg) k1 x PL HL) as (_ & E2); [destruct (HR x); lra|destruct (HR x); lra|].
  rewrite E2. assert (KS : 0 < k1^2 + x^2) by (destruct (HR x); lra). assert (KK : 0 < kappa_of (lc_psi cfg) k1 x). { unfold kappa_of. apply sqrt_lt_R0. destruct (HR x) as (_ & B). unfold low_kappa2 in B. lra. }
  apply Rmult_lt_0_compat; [|apply Rdiv_lt_0_compat; [apply pow_lt; lra|exact KS]].
  unfold planar. apply Rdiv_lt_0_compat; [|apply Rmult_lt_0_compat; [exact PP|apply sqrt_lt_R0; exact KS]].
  unfold E_exact. apply Rdiv_lt_0_compat; [apply Rmult_lt_0_compat; [exact Hc|apply pow_lt; exact KK]|].
  apply Rmult_lt_0_compat; [unfold Rpower; apply exp_pos|]. pose proof (pow2_ge_0 (kappa_of (lc_psi cfg) k1 x)). pose proof (pow2_ge_0 (lc_zi cfg)). nra.
Qed.

(** The estimates which are averaged exist and share their wave numbers. *)
Lemma usable_waves : forall G (gauss : G -> R * G) quad cfg w, usable quad cfg w ->
  exists ks, length ks = (2 ^ lc_e1 cfg / 2)%nat /\ (forall a, (1 <= a <= 2 ^ lc_e1 cfg / 2)%nat -> nth (a - 1) ks 0 = 2 * PI * INR a / asked_L1 cfg)
  /\ forall g, exists F1 F2, estimated gauss w (/ 10^9) g ks F1 F2 /\ length F1 = length ks /\ length F2 = length ks.
Proof.
  intros G gauss quad cfg w HU. pose proof HU as (HP & HC & He & _). exists (waves w).
  destruct (low_constructed quad cfg w HC HP) as (EC & F & _).
  assert (HG : forall (g : G), exists F1 F2, estimated gauss w (/ 10^9) g (waves w) F1 F2 /\ length F1 = length (waves w) /\ length F2 = length (waves w)).
  { intros g. destruct (usable_estimate G gauss quad cfg w g HU) as (F1 & F2 & E & _ & L1 & L2 & _). exists F1, F2. split; [apply (estimated_spectra G gauss quad cfg w g _ _ _ HP HC); exact E|tauto]. }
  destruct (usable_estimate unit (fun _ => (0, tt)) quad cfg w tt HU) as (_ & _ & _ & L0 & _ & _ & KW & _). split; [exact L0|]. split; [exact KW|exact HG].
Qed.

Lemma figure_highest_target : forall G (gauss : G -> R * G) qa cfga wa qb cfgb wb n, usable qa cfga wa -> usable qb cfgb wb -> (1 <= n)%nat ->
  guarded cfga -> 0 < lc_sigma2 cfga -> forall g ra rb g', recreate_fig2 gauss exact_quad wa wb n g = (Ok (Some (ra, rb)), g') ->
  let k := PI * 2 ^ lc_e1 cfga / asked_L1 cfga in
  curve_point (cr_numerical ra) (2 ^ lc_e1 cfga / 2 - 1) (k * lc_L cfga) 0 0 /\ 0 < k * snd (analytical exact_quad wa 5 k).
Proof.
  intros G gauss qa cfga wa qb cfgb wb n UA UB Hn HG Hs g ra rb g' E k. destruct (figure_highest G gauss exact_quad qa qb cfga cfgb wa wb n UA UB Hn g ra rb g' E) as (HA & _).
  pose proof UA as (HP & HC & He & _). destruct HP as (A & B & B2). assert (Ek : k * lc_L cfga = PI * 2 ^ lc_e1 cfga / lc_f1 cfga) by (unfold k, asked_L1; field; lra). rewrite Ek. split; [exact HA|].
  pose proof (half_pos (lc_e1 cfga) He) as HH.
  assert (E2 : 2 * INR (2 ^ lc_e1 cfga / 2) = 2 ^ lc_e1 cfga). { rewrite <- (EstProofs.pow2_INR (lc_e1 cfga)). change 2 with (INR 2) at 1. rewrite <- mult_INR. f_equal. destruct (lc_e1 cfga) as [|e]; [lia|]. cbn [Nat.pow]. rewrite (Nat.mul_comm 2 (2 ^ e)), Nat.div_mul by lia. lia. }
  destruct (target_positive qa cfga wa (2 ^ lc_e1 cfga / 2) (conj A (conj B B2)) HC HG Hs) as (K & T); [lia|].
  replace (2 * PI * INR (2 ^ lc_e1 cfga / 2) / asked_L1 cfga) with k in K, T by (unfold k; rewrite <- E2; field; unfold asked_L1; nra). apply Rmult_lt_0_compat; assumption.
Qed.
