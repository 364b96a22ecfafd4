(** Proofs about the studies over domain sizes. *)

From Coq Require Import Reals List ZArith Bool Lia Lra.
From Coquelicot Require Import Coquelicot.
From Verif Require Import Prelude GenModel GenSpec GenProofs DftModel DftSpec LowModel LowSpec LowProofs LowMore LowSpectrum EstSpec EstProofs EstLimit StudyModel StudySpec StudyProofs StudyStats StudyAverages StudyResults StudyFinal Fig2Model Fig2Spec Fig2Proofs Fig2Final SizeSpec.
Import ListNotations.
Open Scope R_scope.

Lemma average_state : forall G (gauss : G -> R * G) quad cfg w n g, positive_lengths cfg -> low_construct quad cfg = Ok w ->
  exists v, average_variances gauss n w g = (Ok v, after gauss g (n * draws w)).
Proof.
  intros G gauss quad cfg w n g HP HC. destruct (low_constructed quad cfg w HC HP) as (EC & F & _). unfold average_variances.
  rewrite (realisation_list G gauss cfg w HP EC F n w g eq_refl eq_refl eq_refl). cbn [bind]. eexists. reflexivity.
Qed.

Lemma full_state : forall G (gauss : G -> R * G) quad cfg w n g, positive_lengths cfg -> low_construct quad cfg = Ok w ->
  exists v, average_full_variances gauss n w g = (Ok v, after gauss g (n * draws w)).
Proof.
  intros G gauss quad cfg w n g HP HC. destruct (low_constructed quad cfg w HC HP) as (EC & F & _). unfold average_full_variances.
  rewrite (full_list G gauss cfg w HP EC F n w g eq_refl eq_refl eq_refl). cbn [bind]. eexists. reflexivity.
Qed.

Lemma successive_app : forall G (gauss : G -> R * G) n ws1 vs1 ws2 vs2 g, successive gauss n g ws1 vs1 -> successive gauss n (after gauss g (all_draws n ws1)) ws2 vs2 ->
  successive gauss n g (ws1 ++ ws2) (vs1 ++ vs2).
Proof.
  intros G gauss n. induction ws1 as [|w ws1 IH]; intros [|v vs1] ws2 vs2 g H1 H2; try contradiction; [exact H2|].
  cbn [successive app] in *. destruct H1 as (A & B). split; [exact A|]. apply IH; [exact B|]. unfold all_draws in *. cbn [map list_sum fold_right] in H2. rewrite after_after. exact H2.
Qed.

Lemma all_draws_app : forall n ws1 ws2, all_draws n (ws1 ++ ws2) = (all_draws n ws1 + all_draws n ws2)%nat.
Proof. intros n ws1 ws2. unfold all_draws. rewrite map_app, list_sum_app. reflexivity. Qed.

Section Size.

Variables (G : Type) (gauss : G -> R * G) (quad : (R -> R) -> R) (n : nat) (base : low_config).
Hypothesis HL : 0 < lc_L base.
Hypothesis HQ : / 10^16 <= quad (low_shape (lc_L base) (lc_zi base)).

Lemma construct_resized : forall f1 f2 e1 e2, 0 < f1 -> 0 < f2 -> positive_lengths (resized base f1 f2 e1 e2) /\ exists w, low_construct quad (resized base f1 f2 e1 e2) = Ok w.
Proof.
  intros f1 f2 e1 e2 H1 H2. assert (HP : positive_lengths (resized base f1 f2 e1 e2)) by (unfold positive_lengths; cbn; tauto). split; [exact HP|].
  apply low_construct_ok; [exact HP|exact HQ].
Qed.

Lemma row_spec : forall e fs, List.Forall (fun f => 0 < f) fs ->
  exists ws, Forall2 (fun f w => low_construct quad (resized base f f e e) = Ok w) fs ws
  /\ forall g, exists vs, size_row gauss quad n base e fs g = (Ok vs, after gauss g (all_draws n ws)) /\ successive gauss n g ws vs /\ length vs = length fs.
Proof.
  intros e. induction fs as [|f fs IH]; intros HF.
  - exists []. split; [constructor|]. intros g. exists []. split; [reflexivity|]. split; [exact I|reflexivity].
  - inversion HF as [|x l Hf HF']; subst. destruct (IH HF') as (ws & W & HS). destruct (construct_resized f f e e Hf Hf) as (HP & w & HC).
    exists (w :: ws). split; [constructor; assumption|]. intros g. destruct (average_state G gauss quad _ w n g HP HC) as (v & EV). destruct (HS (after gauss g (n * draws w))) as (vs & EVs & SV & LV).
    exists (v :: vs). cbn [size_row]. change (with_square e f base) with (resized base f f e e). rewrite HC, EV, EVs. cbn [bind]. rewrite after_after.
    split; [reflexivity|]. cbn [successive length]. rewrite EV. split; [split; [reflexivity|exact SV]|lia].
Qed.

Lemma table_spec : forall es fs, List.Forall (fun f => 0 < f) fs ->
  exists ws, Forall2 (fun ef w => low_construct quad (resized base (snd ef) (snd ef) (fst ef) (fst ef)) = Ok w) (list_prod es fs) ws
  /\ forall g, exists t, size_table gauss quad n base es fs g = (Ok t, after gauss g (all_draws n ws)) /\ successive gauss n g ws (concat t)
     /\ length t = length es /\ List.Forall (fun r => length r = length fs) t.
Proof.
  induction es as [|e es IH]; intros fs HF.
  - exists []. split; [constructor|]. intros g. exists []. split; [reflexivity|]. split; [exact I|]. split; [reflexivity|constructor].
  - destruct (IH fs HF) as (ws & W & HS). destruct (row_spec e fs HF) as (ws1 & W1 & HS1). exists (ws1 ++ ws). split.
    + cbn [list_prod]. apply Forall2_app; [|exact W]. clear -W1. induction W1; [constructor|]. cbn [map]. constructor; [exact H|exact IHW1].
    + intros g. destruct (HS1 g) as (vs & E1 & S1 & L1). destruct (HS (after gauss g (all_draws n ws1))) as (t & E2 & S2 & L2 & L3).
      exists (vs :: t). cbn [size_table]. rewrite E1, E2. cbn [bind]. rewrite after_after, all_draws_app. split; [reflexivity|]. cbn [concat length]. split; [apply successive_app; assumption|]. split; [lia|constructor; assumption].
Qed.

End Size.

Lemma factors_positive : List.Forall (fun f => 0 < f) domain_factors.
Proof. unfold domain_factors. apply Forall_forall. intros x Hx. apply in_map_iff in Hx. destruct Hx as (m & <- & Hm). apply lt_0_INR. cbn in Hm. lia. Qed.

Lemma study_spec : forall G (gauss : G -> R * G) quad base n, 0 < lc_L base -> / 10^16 <= quad (low_shape (lc_L base) (lc_zi base)) ->
  exists ws, Forall2 (fun ef w => low_construct quad (resized base (snd ef) (snd ef) (fst ef) (fst ef)) = Ok w) (list_prod [7; 8; 9; 10; 11]%nat (map INR [2; 4; 6; 8; 10; 12; 14; 16; 18; 20]%nat)) ws
  /\ forall (plot : bool) g, exists t maps, size_study gauss quad base plot n g = (Ok (map (map (fun v => (fst v, snd v, fst v + snd v))) t, maps), after gauss g (all_draws n ws))
     /\ successive gauss n g ws (concat t) /\ length t = 5%nat /\ List.Forall (fun r => length r = 10%nat) t
     /\ (plot = false -> maps = None)
     /\ (plot = true -> exists m1 m2 m3, maps = Some (m1, m2, m3) /\ hm_data m1 = map (map fst) t /\ hm_data m2 = map (map snd) t /\ hm_data m3 = map (map (fun v => fst v + snd v)) t
         /\ List.Forall (fun m => hm_x m = map INR [2; 4; 6; 8; 10; 12; 14; 16; 18; 20]%nat /\ map fst (hm_y m) = [7; 8; 9; 10; 11]%nat /\ List.Forall (fun y => snd y = (2 ^ fst y)%nat) (hm_y m)
              /\ hm_clim m = (0, 3 / 2 * lc_sigma2 base)
              /\ map (map (fun l => match l with LSci v => v | LFixed v => v end)) (hm_text m) = hm_data m
              /\ List.Forall (List.Forall (fun l => match l with LSci v => 0 < Rabs v < 1/1000 | LFixed v => v = 0 \/ 1/1000 <= Rabs v end)) (hm_text m)) [m1; m2; m3]).
Proof.
  intros G gauss quad base n HL HQ. destruct (table_spec G gauss quad n base HL HQ grid_exponents domain_factors factors_positive) as (ws & W & HS).
  exists ws. split; [exact W|]. intros plot g. destruct (HS g) as (t & E & S & L1 & L2). exists t. unfold size_study. rewrite E. cbn [bind]. eexists. split; [reflexivity|].
  split; [exact S|]. split; [exact L1|]. split; [exact L2|]. split; [intros ->; reflexivity|]. intros ->. do 3 eexists. split; [reflexivity|].
  assert (HM : forall d, let m := heat grid_exponents domain_factors (lc_sigma2 base * (3/2)) d in
     hm_data m = d /\ (hm_x m = map INR [2; 4; 6; 8; 10; 12; 14; 16; 18; 20]%nat /\ map fst (hm_y m) = [7; 8; 9; 10; 11]%nat /\ List.Forall (fun y => snd y = (2 ^ fst y)%nat) (hm_y m)
              /\ hm_clim m = (0, 3 / 2 * lc_sigma2 base)
              /\ map (map (fun l => match l with LSci v => v | LFixed v => v end)) (hm_text m) = hm_data m
              /\ List.Forall (List.Forall (fun l => match l with LSci v => 0 < Rabs v < 1/1000 | LFixed v => v = 0 \/ 1/1000 <= Rabs v end)) (hm_text m))).
  { intros d m. unfold m, heat. cbn [hm_data hm_x hm_y hm_clim hm_text]. split; [reflexivity|]. split; [reflexivity|]. split; [reflexivity|].
    split. { apply Forall_forall. intros y Hy. apply in_map_iff in Hy. destruct Hy as (e & <- & _). reflexivity. }
    split; [f_equal; ring|]. split.
    - rewrite map_map. rewrite <- (map_id d) at 2. apply map_ext. intros r. rewrite map_map. rewrite <- (map_id r) at 2. apply map_ext. intros v. unfold cell_label. destruct (_ && _); reflexivity.
    - apply Forall_forall. intros r Hr. apply in_map_iff in Hr. destruct Hr as (r0 & <- & _). apply Forall_forall. intros l Hl. apply in_map_iff in Hl. destruct Hl as (v & <- & _). unfold cell_label.
      destruct (Rltb (Rabs v) (1/1000)) eqn:E1; [apply Rltb_true in E1|apply Rltb_false in E1; right; exact E1]. unfold Reqb. destruct (Req_EM_T v 0) as [E2|E2]; cbn [negb andb]; [left; exact E2|]. split; [apply Rabs_pos_lt; exact E2|exact E1]. }
  split; [reflexivity|]. split; [reflexivity|]. split; [reflexivity|]. constructor; [apply HM|]. constructor; [apply HM|]. constructor; [apply HM|constructor].
Qed.

(** ** Averages over seeds *)

Lemma successive_at : forall G (gauss : G -> R * G) n ws vs g, successive gauss n g ws vs ->
  length vs = length ws /\ forall p w, nth_error ws p = Some w -> exists v, nth_error vs p = Some v /\ fst (average_variances gauss n w (after gauss g (all_draws n (firstn p ws)))) = Ok v.
Proof.
  intros G gauss n. induction ws as [|w ws IH]; intros [|v vs] g H; try contradiction; [split; [reflexivity|]; intros [|p] w H'; discriminate|].
  cbn [successive] in H. destruct H as (A & B). destruct (IH vs _ B) as (LN & HI). split; [cbn; lia|]. intros [|p] w' Hw.
  - cbn in Hw. injection Hw as <-. exists v. split; [reflexivity|]. exact A.
  - cbn [nth_error] in Hw. destruct (HI p w' Hw) as (v' & Hv & Ev). exists v'. split; [exact Hv|]. rewrite after_after in Ev. exact Ev.
Qed.

Lemma all_draws_firstn : forall n ws p w, nth_error ws p = Some w -> (all_draws n (firstn p ws) + n * draws w <= all_draws n ws)%nat.
Proof.
  intros n. induction ws as [|w ws IH]; intros [|p] w' H; try discriminate.
  - injection H as <-. change (firstn 0 (w :: ws)) with (@nil low_gen). change (all_draws n []) with 0%nat. change (all_draws n (w :: ws)) with (n * draws w + all_draws n ws)%nat. lia.
  - change (firstn (S p) (w :: ws)) with (w :: firstn p ws). change (all_draws n (w :: firstn p ws)) with (n * draws w + all_draws n (firstn p ws))%nat. change (all_draws n (w :: ws)) with (n * draws w + all_draws n ws)%nat.
    specialize (IH p w' H). lia.
Qed.

Lemma mean_shifted_average : forall G (gauss : G -> R * G) ens quad cfg w n m N (st : G -> R * R), positive_lengths cfg -> low_construct quad cfg = Ok w -> (1 <= n)%nat ->
  let g := lw_grid w in
  ordinary cfg (lg_cL1 g) (lg_cL2 g) (lg_cdx g) (lg_cdy g) -> white gauss N ens -> (m + n * draws w <= N)%nat ->
  (forall x, fst (average_variances gauss n w (after gauss x m)) = Ok (st x)) ->
  let V1 := carried1 (lw_c w) cfg (lg_cL1 g) (lg_cL2 g) (lg_cN1 g) (lg_cN2 g) in
  let V2 := carried2 (lw_c w) cfg (lg_cL1 g) (lg_cL2 g) (lg_cN1 g) (lg_cN2 g) in
  (mean ens (fun x => fst (st x)) <= V1 /\ mean ens (fun x => snd (st x)) <= V2)
  /\ (plain_domain cfg -> mean ens (fun x => fst (st x)) = V1 /\ mean ens (fun x => snd (st x)) = V2).
Proof.
  intros G gauss ens quad cfg w n m N st HP HC Hn g HO HW HN HS V1 V2.
  pose proof (shifted_white G gauss m (n * draws w) N ens HW HN) as HWs.
  assert (ES : exists st0, forall x, fst (average_variances gauss n w x) = Ok (st0 x)) by apply (reported_averages G gauss quad cfg w n HP HC). destruct ES as (st0 & HS0).
  pose proof (average_delivered G gauss (shifted gauss m ens) quad cfg w n HP HC Hn HO HWs st0 HS0) as HA. cbv zeta in HA. fold g in HA. fold V1 V2 in HA. rewrite !shifted_mean in HA.
  assert (HE : forall x, st x = st0 (after gauss x m)) by (intros x; pose proof (HS x) as A; rewrite HS0 in A; injection A as ->; reflexivity).
  rewrite (mean_ext _ ens (fun x => fst (st x)) (fun x => fst (st0 (after gauss x m)))) by (intros x; rewrite HE; reflexivity). rewrite (mean_ext _ ens (fun x => snd (st x)) (fun x => snd (st0 (after gauss x m)))) by (intros x; rewrite HE; reflexivity). exact HA.
Qed.

Lemma mean_shifted_full : forall G (gauss : G -> R * G) ens quad cfg w n m N (st : G -> R * R), positive_lengths cfg -> low_construct quad cfg = Ok w -> (1 <= n)%nat ->
  let g := lw_grid w in
  ordinary cfg (lg_cL1 g) (lg_cL2 g) (lg_cdx g) (lg_cdy g) -> white gauss N ens -> (m + n * draws w <= N)%nat ->
  (forall x, fst (average_full_variances gauss n w (after gauss x m)) = Ok (st x)) ->
  let V1 := carried1 (lw_c w) cfg (lg_cL1 g) (lg_cL2 g) (lg_cN1 g) (lg_cN2 g) in
  let V2 := carried2 (lw_c w) cfg (lg_cL1 g) (lg_cL2 g) (lg_cN1 g) (lg_cN2 g) in
  mean ens (fun x => fst (st x)) = V1 /\ mean ens (fun x => snd (st x)) = V2.
Proof.
  intros G gauss ens quad cfg w n m N st HP HC Hn g HO HW HN HS V1 V2.
  pose proof (shifted_white G gauss m (n * draws w) N ens HW HN) as HWs.
  assert (ES : exists st0, forall x, fst (average_full_variances gauss n w x) = Ok (st0 x)) by apply (reported_averages G gauss quad cfg w n HP HC). destruct ES as (st0 & HS0).
  pose proof (average_full G gauss (shifted gauss m ens) quad cfg w n HP HC Hn HO HWs st0 HS0) as HA. cbv zeta in HA. fold g in HA. fold V1 V2 in HA. rewrite !shifted_mean in HA.
  assert (HE : forall x, st x = st0 (after gauss x m)) by (intros x; pose proof (HS x) as A; rewrite HS0 in A; injection A as ->; reflexivity).
  rewrite (mean_ext _ ens (fun x => fst (st x)) (fun x => fst (st0 (after gauss x m)))) by (intros x; rewrite HE; reflexivity). rewrite (mean_ext _ ens (fun x => snd (st x)) (fun x => snd (st0 (after gauss x m)))) by (intros x; rewrite HE; reflexivity). exact HA.
Qed.
