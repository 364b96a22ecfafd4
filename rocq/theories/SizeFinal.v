(** The statements about the studies over domain sizes. *)

From Coq Require Import Reals List ZArith Bool Lia Lra.
From Coquelicot Require Import Coquelicot.
From Verif Require Import Prelude GenModel GenSpec GenProofs DftModel DftSpec LowModel LowSpec LowProofs LowMore LowSpectrum LowDemo EstSpec EstProofs EstLimit StudyModel StudySpec StudyProofs StudyStats StudyAverages StudyResults StudyFinal Fig2Model Fig2Spec Fig2Proofs Fig2Final SizeSpec SizeProofs.
Import ListNotations.
Open Scope R_scope.

Lemma nth_error_concat : forall A m (t : list (list A)) i j r, List.Forall (fun l => length l = m) t -> nth_error t i = Some r -> (j < m)%nat -> nth_error (concat t) (i * m + j) = nth_error r j.
Proof.
  intros A m. induction t as [|l t IH]; intros [|i] j r HF H Hj; try discriminate; inversion HF as [|x y Hl HF']; subst; cbn [concat].
  - injection H as <-. rewrite nth_error_app1 by (cbn; lia). reflexivity.
  - cbn [nth_error] in H. rewrite nth_error_app2 by (cbn [Nat.mul]; lia). replace (S i * length l + j - length l)%nat with (i * length l + j)%nat by (cbn [Nat.mul]; lia). apply IH; assumption.
Qed.

Lemma nth_error_prod : forall A B (es : list A) (fs : list B) i j e f, nth_error es i = Some e -> nth_error fs j = Some f -> nth_error (list_prod es fs) (i * length fs + j) = Some (e, f).
Proof.
  intros A B. induction es as [|a es IH]; intros fs [|i] j e f H1 H2; try discriminate; cbn [list_prod].
  - injection H1 as <-. assert (Hj : (j < length fs)%nat) by (apply nth_error_Some; rewrite H2; discriminate). rewrite nth_error_app1 by (rewrite map_length; cbn; lia). cbn [Nat.mul Nat.add]. rewrite nth_error_map, H2. reflexivity.
  - cbn [nth_error] in H1. rewrite nth_error_app2 by (rewrite map_length; cbn [Nat.mul]; lia). rewrite map_length. replace (S i * length fs + j - length fs)%nat with (i * length fs + j)%nat by (cbn [Nat.mul]; lia). apply IH; assumption.
Qed.

Lemma Forall2_at : forall A B (P : A -> B -> Prop) l m p a, List.Forall2 P l m -> nth_error l p = Some a -> exists b, nth_error m p = Some b /\ P a b.
Proof. intros A B P l m p a H. revert p. induction H as [|x y l m Hxy H IH]; intros [|p] E; try discriminate; [injection E as <-; exists y; split; [reflexivity|exact Hxy]|]. apply IH. exact E. Qed.

Lemma Forall2_same : forall A B (P : A -> B -> Prop) l m m', (forall a b b', P a b -> P a b' -> b = b') -> List.Forall2 P l m -> List.Forall2 P l m' -> m = m'.
Proof. intros A B P l m m' HD H. revert m'. induction H as [|x y l m Hxy H IH]; intros m' H'; inversion H'; subst; [reflexivity|]. f_equal; [eapply HD; eassumption|apply IH; assumption]. Qed.

Lemma table_expected : forall G (gauss : G -> R * G) ens quad base n plot ws (tab : G -> list (list (R * R * R))) maps, 0 < lc_L base -> / 10^16 <= quad (low_shape (lc_L base) (lc_zi base)) -> (1 <= n)%nat ->
  let es := [7; 8; 9; 10; 11]%nat in let fs := map INR [2; 4; 6; 8; 10; 12; 14; 16; 18; 20]%nat in
  List.Forall2 (fun ef w => low_construct quad (resized base (snd ef) (snd ef) (fst ef) (fst ef)) = Ok w) (list_prod es fs) ws ->
  white gauss (all_draws n ws) ens -> (forall g, fst (size_study gauss quad base plot n g) = Ok (tab g, maps g)) ->
  forall i j e f w (cell : G -> R * R * R), nth_error es i = Some e -> nth_error fs j = Some f -> low_construct quad (resized base f f e e) = Ok w ->
  (forall g, exists row, nth_error (tab g) i = Some row /\ nth_error row j = Some (cell g)) ->
  let gr := lw_grid w in let cfg := resized base f f e e in
  ordinary cfg (lg_cL1 gr) (lg_cL2 gr) (lg_cdx gr) (lg_cdy gr) ->
  let V1 := carried1 (lw_c w) cfg (lg_cL1 gr) (lg_cL2 gr) (lg_cN1 gr) (lg_cN2 gr) in
  let V2 := carried2 (lw_c w) cfg (lg_cL1 gr) (lg_cL2 gr) (lg_cN1 gr) (lg_cN2 gr) in
  (mean ens (fun g => fst (fst (cell g))) <= V1 /\ mean ens (fun g => snd (fst (cell g))) <= V2 /\ mean ens (fun g => snd (cell g)) <= V1 + V2)
  /\ (5 <= f -> mean ens (fun g => fst (fst (cell g))) = V1 /\ mean ens (fun g => snd (fst (cell g))) = V2 /\ mean ens (fun g => snd (cell g)) = V1 + V2).
Proof.
  intros G gauss ens quad base n plot ws tab maps HL HQ Hn es fs HWS HW HT i j e f w cell Hi Hj HC HCell gr cfg HO V1 V2.
  destruct (study_spec G gauss quad base n HL HQ) as (ws' & W' & HS). assert (ws' = ws) by (eapply Forall2_same; [|exact W'|exact HWS]; cbn; intros a b b' A B; rewrite A in B; injection B as ->; reflexivity). subst ws'.
  assert (Hf : 0 < f). { pose proof factors_positive as FP. rewrite Forall_forall in FP. apply FP. exact (nth_error_In _ _ Hj). }
  destruct (construct_resized quad base HL HQ f f e e Hf Hf) as (HP & _). fold cfg in HP, HC.
  assert (Hj10 : (j < 10)%nat) by (change 10%nat with (length fs); apply nth_error_Some; rewrite Hj; discriminate).
  set (p := (i * 10 + j)%nat). assert (HPr : nth_error (list_prod es fs) p = Some (e, f)) by (exact (nth_error_prod _ _ es fs i j e f Hi Hj)).
  destruct (Forall2_at _ _ _ _ _ _ _ HWS HPr) as (w' & Hw' & HC'). cbn [fst snd] in HC'. fold cfg in HC'. rewrite HC in HC'. injection HC' as <-.
  set (m := all_draws n (firstn p ws)).
  set (st := fun g => (fst (fst (cell g)), snd (fst (cell g)))).
  assert (HST : forall g, fst (average_variances gauss n w (after gauss g m)) = Ok (st g) /\ snd (cell g) = fst (st g) + snd (st g)).
  { intros g. destruct (HS plot g) as (t & mp & E & SU & L1 & L2 & _). specialize (HT g). rewrite E in HT. cbn [fst] in HT. injection HT as HT _. destruct (HCell g) as (row & R1 & R2).
    rewrite <- HT in R1. rewrite nth_error_map in R1. destruct (nth_error t i) as [r|] eqn:Er; [|discriminate]. cbn [option_map] in R1. injection R1 as <-.
    rewrite nth_error_map in R2. destruct (nth_error r j) as [v|] eqn:Ev; [|discriminate]. cbn [option_map] in R2. injection R2 as R2.
    destruct (successive_at G gauss n ws (concat t) g SU) as (_ & HA). destruct (HA p w Hw') as (v' & Hv' & EA). unfold p in Hv'. rewrite (nth_error_concat _ 10 t i j r L2 Er Hj10), Ev in Hv'. injection Hv' as <-.
    unfold st. rewrite <- R2. cbn [fst snd]. split; [|reflexivity]. fold m in EA. rewrite EA. destruct v; reflexivity. }
  pose proof (mean_shifted_average G gauss ens quad cfg w n m (all_draws n ws) st HP HC Hn HO HW (all_draws_firstn n ws p w Hw') (fun g => proj1 (HST g))) as HM. cbv zeta in HM. fold gr in HM. fold V1 V2 in HM.
  rewrite (mean_ext _ ens (fun g => snd (cell g)) (fun g => fst (st g) + snd (st g)) (fun g => proj2 (HST g))). rewrite mean_plus.
  change (fun g => fst (fst (cell g))) with (fun g => fst (st g)). change (fun g => snd (fst (cell g))) with (fun g => snd (st g)). destruct HM as ((A & B) & HE). split; [split; [exact A|]; split; [exact B|lra]|].
  intros H5. assert (HD : plain_domain cfg). { apply (square_plain cfg f e); try reflexivity; [|exact H5]. assert (HI : In e es) by exact (nth_error_In _ _ Hi). cbn in HI. lia. }
  destruct (HE HD) as (E1 & E2). split; [exact E1|]. split; [exact E2|lra].
Qed.

(** ** Rectangles *)

Lemma rectangle_list : forall G (gauss : G -> R * G) n w g l1 l2 s s', realisation_variances gauss n w g = (Ok l1, s) -> full_variances gauss n w g = (Ok l2, s') ->
  rectangle_variances gauss n w g = (Ok (combine l1 l2), s) /\ length l1 = length l2.
Proof.
  intros G gauss. induction n as [|n IH]; intros w g l1 l2 s s' H1 H2; cbn [realisation_variances full_variances rectangle_variances] in *.
  - injection H1 as <- <-. injection H2 as <- _. split; reflexivity.
  - destruct (low_full w _) as [f1 f2]. destruct (low_generate gauss w g) as [[w1|x] g1]; [|discriminate]. destruct (lw_u w1) as [[u1 u2]|]; [|discriminate].
    destruct (realisation_variances gauss n w1 g1) as [[r1|x1] g2] eqn:E1; [|discriminate]. destruct (full_variances gauss n w1 g1) as [[r2|x2] g3] eqn:E2; [|discriminate].
    cbn [bind] in H1, H2. injection H1 as <- <-. injection H2 as <- _. destruct (IH w1 g1 r1 r2 g2 g3 E1 E2) as (E3 & L). rewrite E3. cbn [bind combine length]. split; [reflexivity|lia].
Qed.

Lemma combine_fst : forall A B (l : list A) (m : list B), length l = length m -> map fst (combine l m) = l /\ map snd (combine l m) = m.
Proof. intros A B. induction l as [|a l IH]; intros [|b m] H; try discriminate; [split; reflexivity|]. cbn in H. destruct (IH m) as (E1 & E2); [lia|]. cbn. rewrite E1, E2. split; reflexivity. Qed.

Lemma averages_sum : forall l : list (R * R), averages l = (Rmean (map fst l), Rmean (map snd l), Rmean (map fst l) + Rmean (map snd l)).
Proof. intros l. unfold averages. f_equal. unfold Rmean. rewrite !map_length. rewrite Rsum_plus. unfold Rdiv. ring. Qed.

Lemma rectangle_one : forall G (gauss : G -> R * G) quad cfg w n g, positive_lengths cfg -> low_construct quad cfg = Ok w ->
  exists l v1 v2 f1 f2, rectangle_variances gauss n w g = (Ok l, after gauss g (n * draws w))
  /\ fst (average_variances gauss n w g) = Ok (v1, v2) /\ fst (average_full_variances gauss n w g) = Ok (f1, f2)
  /\ averages (map fst l) = (v1, v2, v1 + v2) /\ averages (map snd l) = (f1, f2, f1 + f2).
Proof.
  intros G gauss quad cfg w n g HP HC. destruct (low_constructed quad cfg w HC HP) as (EC & F & _).
  pose proof (realisation_list G gauss cfg w HP EC F n w g eq_refl eq_refl eq_refl) as E1. pose proof (full_list G gauss cfg w HP EC F n w g eq_refl eq_refl eq_refl) as E2.
  destruct (rectangle_list G gauss n w g _ _ _ _ E1 E2) as (E3 & L). unfold average_variances, average_full_variances. rewrite E1, E2. cbn [bind fst]. rewrite E3.
  do 5 eexists. split; [reflexivity|]. split; [reflexivity|]. split; [reflexivity|]. destruct (combine_fst _ _ _ _ L) as (C1 & C2). rewrite C1, C2. rewrite !averages_sum. split; reflexivity.
Qed.

Section Rect.

Variables (G : Type) (gauss : G -> R * G) (quad : (R -> R) -> R) (n : nat) (base : low_config).
Hypothesis HL : 0 < lc_L base.
Hypothesis HQ : / 10^16 <= quad (low_shape (lc_L base) (lc_zi base)).

Lemma rectangles_spec : forall pairs, List.Forall (fun p => (1 <= fst (fst p) /\ 1 <= snd (fst p))%nat) pairs ->
  exists ws, List.Forall2 (fun p w => low_construct quad (resized base (INR (fst (fst p))) (INR (snd (fst p))) (fst (snd p)) (snd (snd p))) = Ok w) pairs ws
  /\ forall g, exists rs, rectangle_study gauss quad pairs base n g = (Ok rs, after gauss g (all_draws n ws)) /\ successive_reports gauss n g (lc_sigma2 base) ws rs.
Proof.
  induction pairs as [|[f e] pairs IH]; intros HF.
  - exists []. split; [constructor|]. intros g. exists []. split; [reflexivity|exact I].
  - inversion HF as [|x l (Hf1 & Hf2) HF']; subst. cbn [fst snd] in Hf1, Hf2. destruct (IH HF') as (ws & W & HS).
    assert (P1 : 0 < INR (fst f)) by (apply lt_0_INR; lia). assert (P2 : 0 < INR (snd f)) by (apply lt_0_INR; lia).
    destruct (construct_resized quad base HL HQ (INR (fst f)) (INR (snd f)) (fst e) (snd e) P1 P2) as (HP & w & HC). exists (w :: ws). split; [constructor; [exact HC|exact W]|].
    intros g. destruct (rectangle_one G gauss quad _ w n g HP HC) as (l & v1 & v2 & f1 & f2 & E1 & A1 & A2 & V1 & V2). destruct (HS (after gauss g (n * draws w))) as (rs & E2 & S2).
    cbn [rectangle_study]. change (with_rectangle f e base) with (resized base (INR (fst f)) (INR (snd f)) (fst e) (snd e)). rewrite HC, E1, E2. cbn [bind]. rewrite after_after.
    eexists. split; [reflexivity|]. cbn [successive_reports]. split; [|exact S2]. exists v1, v2, f1, f2. split; [exact A1|]. split; [exact A2|]. rewrite V1, V2.
    destruct (low_constructed quad _ w HC HP) as (EC & _). rewrite EC. reflexivity.
Qed.

End Rect.

Lemma rectangular_spec : forall G (gauss : G -> R * G) quad base n, 0 < lc_L base -> / 10^16 <= quad (low_shape (lc_L base) (lc_zi base)) ->
  let fs := [(16, 8); (16, 4); (8, 4); (8, 2); (4, 2); (2, 4); (2, 8); (4, 8); (4, 16); (8, 16)]%nat in
  let es := [(11, 10); (11, 9); (11, 10); (12, 10); (11, 10); (10, 11); (10, 12); (10, 11); (10, 12); (10, 11)]%nat in
  exists ws, List.Forall2 (fun p w => low_construct quad (resized base (INR (fst (fst p))) (INR (snd (fst p))) (fst (snd p)) (snd (snd p))) = Ok w) (combine fs es) ws
  /\ forall g, exists rs, rectangular_study gauss quad base n g = (Ok rs, after gauss g (all_draws n ws)) /\ successive_reports gauss n g (lc_sigma2 base) ws rs.
Proof.
  intros G gauss quad base n HL HQ fs es. apply (rectangles_spec G gauss quad n base HL HQ (combine fs es)).
  apply Forall_forall. intros p Hp. unfold fs, es in Hp. cbn in Hp. repeat (destruct Hp as [<-|Hp]; [cbn; lia|]). contradiction.
Qed.

Lemma plain_same : forall G (gauss : G -> R * G) quad cfg w n g, positive_lengths cfg -> low_construct quad cfg = Ok w -> plain_domain cfg ->
  average_variances gauss n w g = average_full_variances gauss n w g.
Proof.
  intros G gauss quad cfg w n g HP HC HD. destruct (low_constructed quad cfg w HC HP) as (EC & F & _).
  destruct (plain_counts cfg (lw_grid w) HP HD F) as (C1 & C2 & _).
  unfold average_variances, average_full_variances. rewrite (realisation_list G gauss cfg w HP EC F n w g eq_refl eq_refl eq_refl), (full_list G gauss cfg w HP EC F n w g eq_refl eq_refl eq_refl).
  assert (ED : delivered (lw_grid w) = nodes_of (lg_cN1 (lw_grid w), lg_cN2 (lw_grid w), 1%nat)).
  { unfold delivered. rewrite (gf_N1 _ _ F), (gf_N2 _ _ F), C1, C2, !Nat.sub_diag. change (0 / 2)%nat with 0%nat. rewrite <- (map_id (nodes_of _)) at 2. apply map_ext. intros [[p q] r]. rewrite !Nat.add_0_r. reflexivity. }
  rewrite ED. reflexivity.
Qed.

(** The two rectangles which need no enlargement. *)
Lemma wide_plain : forall base f1 f2 e1 e2, (f1, f2, (e1, e2)) = (16, 8, (11, 10))%nat \/ (f1, f2, (e1, e2)) = (8, 16, (10, 11))%nat -> plain_domain (resized base (INR f1) (INR f2) e1 e2).
Proof.
  intros base f1 f2 e1 e2 [H|H]; injection H as -> -> -> ->; unfold plain_domain, asked_dx, asked_dy, asked_L1, asked_L2; cbn [resized lc_f1 lc_f2 lc_e1 lc_e2 lc_L]; rewrite !INR_IZR_INZ; cbn [Z.of_nat Pos.of_succ_nat Pos.succ]; split; try lra; repeat split; try lra; lia.
Qed.

Lemma reports_at : forall G (gauss : G -> R * G) n sigma2 ws rs g, successive_reports gauss n g sigma2 ws rs ->
  length rs = length ws /\ forall p w, nth_error ws p = Some w -> exists v1 v2 f1 f2, let m := all_draws n (firstn p ws) in
    fst (average_variances gauss n w (after gauss g m)) = Ok (v1, v2) /\ fst (average_full_variances gauss n w (after gauss g m)) = Ok (f1, f2)
    /\ nth_error rs p = Some (RectReport (v1, v2, v1 + v2) (f1, f2, f1 + f2) sigma2).
Proof.
  intros G gauss n sigma2. induction ws as [|w ws IH]; intros [|r rs] g H; try contradiction; [split; [reflexivity|]; intros [|p] w H'; discriminate|].
  cbn [successive_reports] in H. destruct H as ((v1 & v2 & f1 & f2 & A & B & C) & D). destruct (IH rs _ D) as (LN & HI). split; [cbn; lia|]. intros [|p] w' Hw.
  - cbn in Hw. injection Hw as <-. exists v1, v2, f1, f2. cbn [firstn nth_error]. change (all_draws n []) with 0%nat. cbn [after]. rewrite C. tauto.
  - cbn [nth_error] in Hw. destruct (HI p w' Hw) as (a1 & a2 & b1 & b2 & A' & B' & C'). exists a1, a2, b1, b2. cbn [firstn nth_error]. change (all_draws n (w :: firstn p ws)) with (n * draws w + all_draws n (firstn p ws))%nat.
    rewrite after_after in A', B'. tauto.
Qed.

Lemma rectangles_square : forall base p, In p (combine rectangles rectangle_exponents) ->
  let cfg := resized base (INR (fst (fst p))) (INR (snd (fst p))) (fst (snd p)) (snd (snd p)) in asked_dx cfg = asked_dy cfg.
Proof.
  intros base p Hp. unfold asked_dx, asked_dy, asked_L1, asked_L2, rectangles, rectangle_exponents in *. cbn [combine In] in Hp. cbv zeta. cbn [resized lc_f1 lc_f2 lc_e1 lc_e2 lc_L].
  repeat (destruct Hp as [<-|Hp]; [cbn [fst snd]; rewrite !INR_IZR_INZ; cbn [Z.of_nat Pos.of_succ_nat Pos.succ]; lra|]). contradiction.
Qed.

Lemma rectangles_expected : forall G (gauss : G -> R * G) ens quad base n ws (reps : G -> list rectangle_report), 0 < lc_L base -> / 10^16 <= quad (low_shape (lc_L base) (lc_zi base)) -> (1 <= n)%nat ->
  let fs := [(16, 8); (16, 4); (8, 4); (8, 2); (4, 2); (2, 4); (2, 8); (4, 8); (4, 16); (8, 16)]%nat in
  let es := [(11, 10); (11, 9); (11, 10); (12, 10); (11, 10); (10, 11); (10, 12); (10, 11); (10, 12); (10, 11)]%nat in
  List.Forall2 (fun p w => low_construct quad (resized base (INR (fst (fst p))) (INR (snd (fst p))) (fst (snd p)) (snd (snd p))) = Ok w) (combine fs es) ws ->
  white gauss (all_draws n ws) ens -> (forall g, fst (rectangular_study gauss quad base n g) = Ok (reps g)) ->
  forall i f1 f2 e1 e2 w (rep : G -> rectangle_report), nth_error (combine fs es) i = Some ((f1, f2), (e1, e2)) -> (forall g, nth_error (reps g) i = Some (rep g)) ->
  let cfg := resized base (INR f1) (INR f2) e1 e2 in low_construct quad cfg = Ok w ->
  let gr := lw_grid w in
  ordinary cfg (lg_cL1 gr) (lg_cL2 gr) (lg_cdx gr) (lg_cdy gr) ->
  let V1 := carried1 (lw_c w) cfg (lg_cL1 gr) (lg_cL2 gr) (lg_cN1 gr) (lg_cN2 gr) in
  let V2 := carried2 (lw_c w) cfg (lg_cL1 gr) (lg_cL2 gr) (lg_cN1 gr) (lg_cN2 gr) in
  let avg h := mean ens (fun g => h (rep g)) in
  avg (fun r => fst (fst (rr_full r))) = V1 /\ avg (fun r => snd (fst (rr_full r))) = V2 /\ avg (fun r => snd (rr_full r)) = V1 + V2
  /\ avg (fun r => fst (fst (rr_u r))) <= V1 /\ avg (fun r => snd (fst (rr_u r))) <= V2 /\ avg (fun r => snd (rr_u r)) <= V1 + V2.
Proof.
  intros G gauss ens quad base n ws reps HL HQ Hn fs es HWS HW HT i f1 f2 e1 e2 w rep Hi HR cfg HC gr HO V1 V2 avg.
  destruct (rectangular_spec G gauss quad base n HL HQ) as (ws' & W' & HS). assert (ws' = ws) by (eapply Forall2_same; [|exact W'|exact HWS]; cbn; intros a b b' A B; rewrite A in B; injection B as ->; reflexivity). subst ws'.
  destruct (Forall2_at _ _ _ _ _ _ _ HWS Hi) as (w' & Hw' & HC'). cbn [fst snd] in HC'. fold cfg in HC'. rewrite HC in HC'. injection HC' as <-.
  assert (HI : In ((f1, f2), (e1, e2)) (combine fs es)) by exact (nth_error_In _ _ Hi).
  assert (Hf : (1 <= f1 /\ 1 <= f2)%nat). { unfold fs, es in HI. cbn [combine In] in HI. repeat (destruct HI as [HI|HI]; [injection HI as <- <- <- <-; lia|]). contradiction. }
  assert (P1 : 0 < INR f1) by (apply lt_0_INR; lia). assert (P2 : 0 < INR f2) by (apply lt_0_INR; lia).
  destruct (construct_resized quad base HL HQ (INR f1) (INR f2) e1 e2 P1 P2) as (HP & _). fold cfg in HP.
  set (m := all_draws n (firstn i ws)). set (st := fun g => fst (rr_u (rep g))). set (fu := fun g => fst (rr_full (rep g))).
  assert (HST : forall g, fst (average_variances gauss n w (after gauss g m)) = Ok (st g) /\ fst (average_full_variances gauss n w (after gauss g m)) = Ok (fu g)
            /\ snd (rr_u (rep g)) = fst (st g) + snd (st g) /\ snd (rr_full (rep g)) = fst (fu g) + snd (fu g)).
  { intros g. destruct (HS g) as (rs & E & SU). specialize (HT g). rewrite E in HT. cbn [fst] in HT. injection HT as HT. destruct (reports_at G gauss n _ ws rs g SU) as (_ & HA).
    destruct (HA i w Hw') as (v1 & v2 & b1 & b2 & A & B & C). fold m in A, B. specialize (HR g). rewrite <- HT, C in HR. injection HR as HR. unfold st, fu. rewrite <- HR. cbn [rr_u rr_full fst snd]. tauto. }
  pose proof (mean_shifted_average G gauss ens quad cfg w n m (all_draws n ws) st HP HC Hn HO HW (all_draws_firstn n ws i w Hw') (fun g => proj1 (HST g))) as HM. cbv zeta in HM. fold gr in HM. fold V1 V2 in HM.
  pose proof (mean_shifted_full G gauss ens quad cfg w n m (all_draws n ws) fu HP HC Hn HO HW (all_draws_firstn n ws i w Hw') (fun g => proj1 (proj2 (HST g)))) as HMf. cbv zeta in HMf. fold gr in HMf. fold V1 V2 in HMf.
  unfold avg. rewrite (mean_ext _ ens (fun g => snd (rr_u (rep g))) (fun g => fst (st g) + snd (st g))) by (intros g; apply HST). rewrite (mean_ext _ ens (fun g => snd (rr_full (rep g))) (fun g => fst (fu g) + snd (fu g))) by (intros g; apply HST). rewrite !mean_plus.
  change (fun g => fst (fst (rr_u (rep g)))) with (fun g => fst (st g)). change (fun g => snd (fst (rr_u (rep g)))) with (fun g => snd (st g)).
  change (fun g => fst (fst (rr_full (rep g)))) with (fun g => fst (fu g)). change (fun g => snd (fst (rr_full (rep g)))) with (fun g => snd (fu g)).
  destruct HM as ((A & B) & _). destruct HMf as (C & D). rewrite C, D. repeat split; lra.
Qed.

Lemma rectangles_uncropped : forall G (gauss : G -> R * G) quad base n g rs g', 0 < lc_L base -> / 10^16 <= quad (low_shape (lc_L base) (lc_zi base)) ->
  rectangular_study gauss quad base n g = (Ok rs, g') -> forall r, nth_error rs 0 = Some r \/ nth_error rs 9 = Some r -> rr_u r = rr_full r.
Proof.
  intros G gauss quad base n g rs g' HL HQ E r Hr. destruct (rectangular_spec G gauss quad base n HL HQ) as (ws & W & HS). destruct (HS g) as (rs' & E' & SU). rewrite E in E'. injection E' as <- _.
  destruct (reports_at G gauss n _ ws rs g SU) as (LN & HA).
  assert (HG : forall i f1 f2 e1 e2, nth_error (combine rectangles rectangle_exponents) i = Some ((f1, f2), (e1, e2)) -> (f1, f2, (e1, e2)) = (16, 8, (11, 10))%nat \/ (f1, f2, (e1, e2)) = (8, 16, (10, 11))%nat -> nth_error rs i = Some r -> rr_u r = rr_full r).
  { intros i f1 f2 e1 e2 Hi HF Hri. destruct (Forall2_at _ _ _ _ _ _ _ W Hi) as (w & Hw & HC). cbn [fst snd] in HC. destruct (HA i w Hw) as (v1 & v2 & b1 & b2 & A & B & C). rewrite Hri in C. injection C as ->. cbn [rr_u rr_full].
    assert (P1 : 0 < INR f1) by (destruct HF as [HF|HF]; injection HF as -> -> -> ->; apply lt_0_INR; lia). assert (P2 : 0 < INR f2) by (destruct HF as [HF|HF]; injection HF as -> -> -> ->; apply lt_0_INR; lia).
    destruct (construct_resized quad base HL HQ (INR f1) (INR f2) e1 e2 P1 P2) as (HP & _). pose proof (plain_same G gauss quad _ w n (after gauss g (all_draws n (firstn i ws))) HP HC (wide_plain base f1 f2 e1 e2 HF)) as EQ. rewrite EQ in A. rewrite A in B. injection B as -> ->. reflexivity. }
  destruct Hr as [Hr|Hr]; [apply (HG 0%nat 16%nat 8%nat 11%nat 10%nat); [reflexivity|left; reflexivity|exact Hr]|apply (HG 9%nat 8%nat 16%nat 10%nat 11%nat); [reflexivity|right; reflexivity|exact Hr]].
Qed.

(** ** Concrete cases *)

Lemma plane_resized : forall f1 f2 e1 e2, (1 <= f1 <= 20)%nat -> (1 <= f2 <= 20)%nat -> plain_domain (resized plane_cfg (INR f1) (INR f2) e1 e2) -> / 10^4 <= asked_dx (resized plane_cfg (INR f1) (INR f2) e1 e2) ->
  exists w, low_construct unit_quad (resized plane_cfg (INR f1) (INR f2) e1 e2) = Ok w /\ (0 < draws w)%nat
  /\ ordinary (resized plane_cfg (INR f1) (INR f2) e1 e2) (lg_cL1 (lw_grid w)) (lg_cL2 (lw_grid w)) (lg_cdx (lw_grid w)) (lg_cdy (lw_grid w)).
Proof.
  intros f1 f2 e1 e2 H1 H2 HD HX. set (cfg := resized plane_cfg (INR f1) (INR f2) e1 e2) in *.
  assert (P1 : 1 <= INR f1 <= 20) by (split; [change 1 with (INR 1)|replace 20 with (INR 20) by (cbn; ring)]; apply le_INR; lia). assert (P2 : 1 <= INR f2 <= 20) by (split; [change 1 with (INR 1)|replace 20 with (INR 20) by (cbn; ring)]; apply le_INR; lia).
  destruct (construct_resized unit_quad plane_cfg ltac:(cbn; lra) (unit_quad_large _) (INR f1) (INR f2) e1 e2 ltac:(lra) ltac:(lra)) as (HP & w & HC). fold cfg in HP, HC. exists w. split; [exact HC|].
  destruct (low_constructed unit_quad cfg w HC HP) as (_ & F & _). destruct (plain_counts cfg (lw_grid w) HP HD F) as (C1 & C2 & C3 & C4 & C5 & C6 & _).
  split. { unfold draws. rewrite C1, C2. apply Nat.mul_pos_pos; apply Nat.neq_0_lt_0, Nat.pow_nonzero; discriminate. }
  rewrite C3, C4, C5, C6. destruct plane_ordinary as (A & B & _ & _ & _ & S1 & S2). unfold ordinary. change (lc_sigma2 cfg) with (lc_sigma2 plane_cfg). change (lc_L cfg) with (lc_L plane_cfg). change (lc_psi cfg) with (lc_psi plane_cfg).
  split; [exact A|]. split; [exact B|]. split; [unfold asked_L1, cfg, resized, plane_cfg; cbn [lc_f1 lc_L]; lra|]. split; [unfold asked_L2, cfg, resized, plane_cfg; cbn [lc_f2 lc_L]; lra|]. split; [|split; assumption].
  apply Rle_trans with (/ 10^4 * / 10^4); [rewrite <- Rinv_mult; apply Rinv_le_contravar; lra|]. apply Rmult_le_compat; try (left; apply Rinv_0_lt_compat; lra); assumption.
Qed.

Lemma size_case : 0 < lc_L plane_cfg /\ / 10^16 <= unit_quad (low_shape (lc_L plane_cfg) (lc_zi plane_cfg))
  /\ let cfg := resized plane_cfg (INR 6) (INR 6) 7 7 in
     exists ws w tab maps cell, List.Forall2 (fun ef w => low_construct unit_quad (resized plane_cfg (snd ef) (snd ef) (fst ef) (fst ef)) = Ok w) (list_prod [7; 8; 9; 10; 11]%nat (map INR [2; 4; 6; 8; 10; 12; 14; 16; 18; 20]%nat)) ws
     /\ white single_gauss (all_draws 2 ws) (single_family (all_draws 2 ws))
     /\ (forall g, fst (size_study single_gauss unit_quad plane_cfg true 2 g) = Ok (tab g, maps g))
     /\ low_construct unit_quad cfg = Ok w /\ (forall g, exists row, nth_error (tab g) 0 = Some row /\ nth_error row 2 = Some (cell g))
     /\ ordinary cfg (lg_cL1 (lw_grid w)) (lg_cL2 (lw_grid w)) (lg_cdx (lw_grid w)) (lg_cdy (lw_grid w)) /\ 5 <= INR 6.
Proof.
  split; [cbn; lra|]. split; [apply unit_quad_large|]. intros cfg.
  assert (H6 : INR 6 = 6) by (cbn; ring).
  assert (HD : plain_domain cfg) by (apply (square_plain cfg (INR 6) 7); try reflexivity; [lia|lra]).
  assert (HX : / 10^4 <= asked_dx cfg). { unfold asked_dx, asked_L1, cfg, resized, plane_cfg. cbn [lc_f1 lc_L lc_e1]. rewrite H6. replace (6 * 1 / 2 ^ 7) with (3 / 64) by (cbn; field). lra. }
  destruct (plane_resized 6 6 7 7 ltac:(lia) ltac:(lia) HD HX) as (w & HC & Hd & HO). fold cfg in HC, HO.
  destruct (study_spec _ single_gauss unit_quad plane_cfg 2 ltac:(cbn; lra) (unit_quad_large _)) as (ws & W & HS).
  assert (HPr : nth_error (list_prod [7; 8; 9; 10; 11]%nat (map INR [2; 4; 6; 8; 10; 12; 14; 16; 18; 20]%nat)) 2 = Some (7%nat, INR 6)) by reflexivity.
  destruct (Forall2_at _ _ _ _ _ _ _ W HPr) as (w' & Hw & HC'). cbn [fst snd] in HC'. fold cfg in HC'. rewrite HC in HC'. injection HC' as <-.
  pose proof (all_draws_firstn 2 ws 2 w Hw) as HN.
  set (res := fun g => match fst (size_study single_gauss unit_quad plane_cfg true 2 g) with Ok p => p | Err _ => ([], None) end).
  exists ws, w, (fun g => fst (res g)), (fun g => snd (res g)), (fun g => nth 2 (nth 0 (fst (res g)) []) (0, 0, 0)).
  split; [exact W|]. split; [apply single_white; lia|].
  split. { intros g. unfold res. destruct (HS true g) as (t & mp & E & _). rewrite E. reflexivity. }
  split; [exact HC|]. split; [|split; [exact HO|lra]].
  intros g. unfold res. destruct (HS true g) as (t & mp & E & _ & L1 & L2 & _). rewrite E. cbn [fst]. destruct t as [|r t]; [discriminate|]. inversion L2 as [|x y L3 L4]; subst.
  destruct r as [|a [|b [|c r]]]; try discriminate. cbn. eexists. split; reflexivity.
Qed.

Lemma rectangle_case : let cfg := resized plane_cfg (INR 16) (INR 8) 11 10 in
  exists ws w reps rep, List.Forall2 (fun p w => low_construct unit_quad (resized plane_cfg (INR (fst (fst p))) (INR (snd (fst p))) (fst (snd p)) (snd (snd p))) = Ok w) (combine rectangles rectangle_exponents) ws
  /\ white single_gauss (all_draws 2 ws) (single_family (all_draws 2 ws))
  /\ (forall g, fst (rectangular_study single_gauss unit_quad plane_cfg 2 g) = Ok (reps g))
  /\ low_construct unit_quad cfg = Ok w /\ (forall g, nth_error (reps g) 0 = Some (rep g))
  /\ ordinary cfg (lg_cL1 (lw_grid w)) (lg_cL2 (lw_grid w)) (lg_cdx (lw_grid w)) (lg_cdy (lw_grid w)).
Proof.
  intros cfg. assert (HD : plain_domain cfg) by (apply wide_plain; left; reflexivity).
  assert (HX : / 10^4 <= asked_dx cfg). { unfold asked_dx, asked_L1, cfg, resized, plane_cfg. cbn [lc_f1 lc_L lc_e1]. rewrite INR_IZR_INZ. cbn [Z.of_nat Pos.of_succ_nat Pos.succ]. lra. }
  destruct (plane_resized 16 8 11 10 ltac:(lia) ltac:(lia) HD HX) as (w & HC & Hd & HO). fold cfg in HC, HO.
  destruct (rectangular_spec _ single_gauss unit_quad plane_cfg 2 ltac:(cbn; lra) (unit_quad_large _)) as (ws & W & HS).
  assert (HPr : nth_error (combine rectangles rectangle_exponents) 0 = Some ((16, 8), (11, 10))%nat) by reflexivity.
  destruct (Forall2_at _ _ _ _ _ _ _ W HPr) as (w' & Hw & HC'). cbn [fst snd] in HC'. fold cfg in HC'. rewrite HC in HC'. injection HC' as <-.
  pose proof (all_draws_firstn 2 ws 0 w Hw) as HN.
  set (res := fun g => match fst (rectangular_study single_gauss unit_quad plane_cfg 2 g) with Ok p => p | Err _ => [] end).
  exists ws, w, res, (fun g => nth 0 (res g) (RectReport (0, 0, 0) (0, 0, 0) 0)).
  split; [exact W|]. split; [apply single_white; lia|].
  split. { intros g. unfold res. destruct (HS g) as (rs & E & _). rewrite E. reflexivity. }
  split; [exact HC|]. split; [|exact HO].
  intros g. unfold res. destruct (HS g) as (rs & E & SU). rewrite E. cbn [fst]. destruct (reports_at _ single_gauss 2 _ ws rs g SU) as (_ & HA). destruct (HA 0%nat w Hw) as (v1 & v2 & f1 & f2 & _ & _ & HE). rewrite HE. f_equal. symmetry. apply (nth_error_nth _ _ _ HE).
Qed.
