(** Proofs about `recreate_fig2`. *)

From Coq Require Import Reals List ZArith Bool Lia Lra.
From Coquelicot Require Import Coquelicot.
From Verif Require Import Prelude SpectraModel GenModel GenSpec GenProofs DftModel LowModel LowSpec LowProofs LowMore LowSpectrum LossModel EstSpec EstProofs StudyModel StudyProofs Fig2Model Fig2Spec.
Import ListNotations.
Open Scope R_scope.

(** ** Positions of extreme values *)

Lemma argmin_from_spec : forall l pre best v i, i = length pre -> nth_error pre best = Some v -> (forall j y, nth_error pre j = Some y -> v <= y) ->
  exists x, nth_error (pre ++ l) (argmin_from i best v l) = Some x /\ forall j y, nth_error (pre ++ l) j = Some y -> x <= y.
Proof.
  induction l as [|a l IH]; intros pre best v i Hi Hb Hm; cbn [argmin_from].
  - exists v. rewrite app_nil_r. split; assumption.
  - assert (HI : S i = length (pre ++ [a])) by (rewrite app_length; cbn; lia).
    destruct (Rltb a v) eqn:E.
    + apply Rltb_true in E. destruct (IH (pre ++ [a]) i a (S i) HI) as (x & Hx & HM).
      * rewrite nth_error_app2 by lia. subst i. rewrite Nat.sub_diag. reflexivity.
      * intros j y Hj. destruct (Nat.lt_ge_cases j (length pre)) as [H|H].
        -- rewrite nth_error_app1 in Hj by lia. specialize (Hm j y Hj). lra.
        -- rewrite nth_error_app2 in Hj by lia. destruct (j - length pre)%nat as [|k]; cbn in Hj; [injection Hj as <-; lra|destruct k; discriminate].
      * exists x. rewrite <- app_assoc in Hx, HM. split; assumption.
    + apply Rltb_false in E. destruct (IH (pre ++ [a]) best v (S i) HI) as (x & Hx & HM).
      * rewrite nth_error_app1; [exact Hb|]. apply nth_error_Some. rewrite Hb. discriminate.
      * intros j y Hj. destruct (Nat.lt_ge_cases j (length pre)) as [H|H].
        -- rewrite nth_error_app1 in Hj by lia. exact (Hm j y Hj).
        -- rewrite nth_error_app2 in Hj by lia. destruct (j - length pre)%nat as [|k]; cbn in Hj; [injection Hj as <-; lra|destruct k; discriminate].
      * exists x. rewrite <- app_assoc in Hx, HM. split; assumption.
Qed.

Lemma argmin_spec : forall l, l <> [] -> exists i x, argmin l = Ok i /\ nth_error l i = Some x /\ forall j y, nth_error l j = Some y -> x <= y.
Proof.
  intros [|a l] H; [contradiction|]. cbn [argmin].
  destruct (argmin_from_spec l [a] 0%nat a 1%nat eq_refl eq_refl) as (x & Hx & HM).
  - intros j y Hj. destruct j as [|j]; cbn in Hj; [injection Hj as <-; lra|destruct j; discriminate].
  - exists (argmin_from 1 0 a l), x. split; [reflexivity|]. split; assumption.
Qed.

Lemma argmax_spec : forall l, l <> [] -> exists i x, argmax l = Ok i /\ nth_error l i = Some x /\ forall j y, nth_error l j = Some y -> y <= x.
Proof.
  intros l H. unfold argmax. destruct (argmin_spec (map Ropp l)) as (i & x & E & Hx & HM); [destruct l; [contradiction|discriminate]|].
  rewrite nth_error_map in Hx. destruct (nth_error l i) as [z|] eqn:Ez; [|discriminate]. cbn in Hx. injection Hx as <-.
  exists i, z. split; [exact E|]. split; [exact Ez|]. intros j y Hj. specialize (HM j (- y)). rewrite nth_error_map, Hj in HM. specialize (HM eq_refl). lra.
Qed.

Lemma nth_error_some_nth : forall (l : list R) i, (i < length l)%nat -> nth_error l i = Some (nth i l 0).
Proof. intros l i H. apply nth_error_nth'. exact H. Qed.

Lemma length_pos : forall A (l : list A), l <> [] -> (0 < length l)%nat.
Proof. intros A [|a l] H; [contradiction|cbn; lia]. Qed.

Lemma nearest_spec : forall c v n, has_points c n -> (0 < n)%nat -> exists p, nearest c v = Ok p /\ nearest_point c v p.
Proof.
  intros c v n (H1 & H2 & H3) Hn. unfold nearest.
  destruct (argmin_spec (map (fun x => Rabs (x - v)) (cu_x c))) as (i & x & E & Hx & HM); [destruct (cu_x c); [cbn in H1; lia|discriminate]|].
  rewrite E. cbn [bind]. exists (point_at c i). split; [reflexivity|].
  assert (Hi : (i < n)%nat). { rewrite <- H1. rewrite <- (map_length (fun x => Rabs (x - v))). apply nth_error_Some. rewrite Hx. discriminate. }
  rewrite nth_error_map, (nth_error_some_nth (cu_x c)) in Hx by lia. cbn in Hx. injection Hx as <-.
  exists i. unfold point_at. cbn [fst snd]. split; [unfold curve_point; rewrite !nth_error_some_nth by lia; tauto|].
  intros j y Hj. apply (HM j). rewrite nth_error_map, Hj. reflexivity.
Qed.

Lemma peak_spec : forall xs ys, length xs = length ys -> (0 < length ys)%nat -> exists p, peak xs ys = Ok p /\ highest_point xs ys p.
Proof.
  intros xs ys HL Hn. unfold peak. destruct (argmax_spec ys) as (i & x & E & Hx & HM); [destruct ys; [cbn in Hn; lia|discriminate]|].
  rewrite E. cbn [bind]. exists (nth i ys 0, nth i xs 0). split; [reflexivity|]. assert (Hi : (i < length ys)%nat) by (apply nth_error_Some; rewrite Hx; discriminate).
  rewrite nth_error_some_nth in Hx by lia. injection Hx as <-. exists i. cbn [fst snd]. rewrite !nth_error_some_nth by lia. split; [reflexivity|]. split; [reflexivity|]. exact HM.
Qed.

Lemma comparisons_spec : forall t m nt nm, has_points t nt -> has_points m nm -> (0 < nt)%nat -> (0 < nm)%nat ->
  forall vs, exists l, comparisons t m vs = Ok l /\ Forall2 (fun v pq => nearest_point t v (fst pq) /\ nearest_point m v (snd pq)) vs l.
Proof.
  intros t m nt nm HT HM H1 H2. induction vs as [|v vs (l & EL & FL)]; [exists []; split; [reflexivity|constructor]|].
  cbn [comparisons]. destruct (nearest_spec t v nt HT H1) as (p & Ep & Hp). destruct (nearest_spec m v nm HM H2) as (q & Eq & Hq).
  rewrite Ep. cbn [bind]. rewrite Eq. cbn [bind]. rewrite EL. cbn [bind]. exists ((p, q) :: l). split; [reflexivity|]. constructor; [cbn; tauto|exact FL].
Qed.

Lemma report_spec : forall t m nt nm vs, has_points t nt -> has_points m nm -> (0 < nt)%nat -> (0 < nm)%nat ->
  exists r, report t m vs = Ok r /\ cr_target r = t /\ cr_numerical r = m /\ printed_values r vs.
Proof.
  intros t m nt nm vs HT HM H1 H2. unfold report. destruct (comparisons_spec t m nt nm HT HM H1 H2 vs) as (l & EL & FL). rewrite EL. cbn [bind].
  destruct HT as (T1 & T2 & T3). destruct HM as (M1 & M2 & M3). unfold peaks.
  destruct (peak_spec (cu_x t) (cu_11 t)) as (p1 & E1 & P1); [lia|lia|]. destruct (peak_spec (cu_x m) (cu_11 m)) as (p2 & E2 & P2); [lia|lia|].
  destruct (peak_spec (cu_x t) (cu_22 t)) as (p3 & E3 & P3); [lia|lia|]. destruct (peak_spec (cu_x m) (cu_22 m)) as (p4 & E4 & P4); [lia|lia|].
  rewrite E1. cbn [bind]. rewrite E2. cbn [bind]. rewrite E3. cbn [bind]. rewrite E4. cbn [bind].
  eexists. split; [reflexivity|]. cbn [cr_target cr_numerical]. split; [reflexivity|]. split; [reflexivity|]. split; [exact FL|].
  exists p1, p2, p3, p4. cbn. tauto.
Qed.

(** ** Realisations *)

(** The spectra obtained from one realisation. *)
Definition spectra_at {G : Type} (gauss : G -> R * G) (w : low_gen) (g : G) : spectra :=
  match low_generate gauss w g with
  | (Ok w', _) => match compute_spectrum w' default_tol with Ok s => s | Err _ => ([], [], []) end
  | (Err _, _) => ([], [], [])
  end.

(** The wave numbers of a generator. *)
Definition waves (w : low_gen) : list R := k1_positive (lg_N1 (lw_grid w)) (lg_dx (lw_grid w)) default_tol.

Lemma generate_spectra : forall G (gauss : G -> R * G) quad cfg w w0 g, positive_lengths cfg -> low_construct quad cfg = Ok w ->
  lw_cfg w0 = lw_cfg w -> lw_c w0 = lw_c w -> lw_grid w0 = lw_grid w ->
  exists w1, low_generate gauss w0 g = (Ok w1, after gauss g (draws w)) /\ lw_cfg w1 = lw_cfg w /\ lw_c w1 = lw_c w /\ lw_grid w1 = lw_grid w
  /\ compute_spectrum w1 default_tol = Ok (spectra_at gauss w g)
  /\ exists F1 F2, spectra_at gauss w g = (waves w, F1, F2) /\ length F1 = length (waves w) /\ length F2 = length (waves w).
Proof.
  intros G gauss quad cfg w w0 g HP HC E1 E2 E3. destruct (low_constructed quad cfg w HC HP) as (EC & F & _).
  destruct (realisation G gauss cfg w w0 g HP EC F E1 E2 E3) as (u1 & u2 & EG & _).
  assert (EG' : low_generate gauss w g = (Ok (LowGen (lw_cfg w) (lw_c w) (lw_grid w) (Some (u1, u2))), after gauss g (lg_cN1 (lw_grid w) * lg_cN2 (lw_grid w)))).
  { rewrite <- EG. symmetry. apply generate_same; assumption. }
  eexists. split; [exact EG|]. cbn [lw_cfg lw_c lw_grid]. do 3 (split; [reflexivity|]). unfold spectra_at. rewrite EG'. unfold compute_spectrum. cbn [lw_u lw_grid].
  split; [reflexivity|]. do 2 eexists. split; [reflexivity|]. rewrite !map_length. split; reflexivity.
Qed.

Lemma estimated_spectra : forall G (gauss : G -> R * G) quad cfg w g ks F1 F2, positive_lengths cfg -> low_construct quad cfg = Ok w ->
  estimated gauss w default_tol g ks F1 F2 <-> spectra_at gauss w g = (ks, F1, F2).
Proof.
  intros G gauss quad cfg w g ks F1 F2 HP HC. destruct (generate_spectra G gauss quad cfg w w g HP HC eq_refl eq_refl eq_refl) as (w1 & EG & _ & _ & _ & ES & _).
  unfold estimated. split.
  - intros (w' & g' & EG' & ES'). rewrite EG in EG'. injection EG' as <- <-. rewrite ES in ES'. injection ES' as ->. reflexivity.
  - intros E. exists w1, (after gauss g (draws w)). split; [exact EG|]. rewrite ES, E. reflexivity.
Qed.

Lemma realisations_list : forall G (gauss : G -> R * G) qa cfga wa qb cfgb wb, positive_lengths cfga -> low_construct qa cfga = Ok wa ->
  positive_lengths cfgb -> low_construct qb cfgb = Ok wb -> forall n w1 w2 g,
  lw_cfg w1 = lw_cfg wa -> lw_c w1 = lw_c wa -> lw_grid w1 = lw_grid wa -> lw_cfg w2 = lw_cfg wb -> lw_c w2 = lw_c wb -> lw_grid w2 = lw_grid wb ->
  fig2_realisations gauss n w1 w2 g
  = (Ok (map (fun r => (spectra_at gauss wa (after gauss g (r * (draws wa + draws wb))), spectra_at gauss wb (after gauss g (r * (draws wa + draws wb) + draws wa)))) (seq 0 n)),
     after gauss g (n * (draws wa + draws wb))).
Proof.
  intros G gauss qa cfga wa qb cfgb wb HPa HCa HPb HCb. induction n as [|n IH]; intros w1 w2 g A1 A2 A3 B1 B2 B3; [reflexivity|].
  cbn [fig2_realisations]. destruct (generate_spectra G gauss qa cfga wa w1 g HPa HCa A1 A2 A3) as (w1' & EG & A1' & A2' & A3' & ES & _). rewrite EG.
  destruct (generate_spectra G gauss qb cfgb wb w2 (after gauss g (draws wa)) HPb HCb B1 B2 B3) as (w2' & EG2 & B1' & B2' & B3' & ES2 & _). rewrite EG2, ES, ES2.
  rewrite (IH w1' w2' _ A1' A2' A3' B1' B2' B3'). cbn [bind]. rewrite !after_after.
  replace (draws wa + draws wb + n * (draws wa + draws wb))%nat with (S n * (draws wa + draws wb))%nat by (cbn [Nat.mul]; lia).
  apply (f_equal (fun l => (Ok l, after gauss g (S n * (draws wa + draws wb))))). cbn [seq map]. rewrite <- seq_shift, map_map. cbn [Nat.mul Nat.add after].
  apply (f_equal (cons (spectra_at gauss wa g, spectra_at gauss wb (after gauss g (draws wa))))).
  apply map_ext. intros r. rewrite !after_after. rewrite Nat.add_assoc. reflexivity.
Qed.

Lemma mean_rows_spec : forall n m (row : nat -> list R), (0 < n)%nat -> (forall r, (r < n)%nat -> length (row r) = m) ->
  exists F, mean_rows (map row (seq 0 n)) = Ok F /\ length F = m /\ forall i, (i < m)%nat -> nth i F 0 = Rsum (map (fun r => nth i (row r) 0) (seq 0 n)) / INR n.
Proof.
  intros n m row Hn HL. unfold mean_rows. assert (HH : length (hd [] (map row (seq 0 n))) = m) by (destruct n; [lia|]; cbn; apply HL; lia). rewrite HH.
  assert (HB : forallb (fun r => (length r =? m)%nat) (map row (seq 0 n)) = true).
  { apply forallb_forall. intros l Hl. apply in_map_iff in Hl. destruct Hl as (r & <- & Hr). apply in_seq in Hr. apply Nat.eqb_eq. apply HL. lia. }
  rewrite HB. eexists. split; [reflexivity|]. rewrite map_length, seq_length. split; [reflexivity|]. intros i Hi.
  rewrite (nth_indep _ 0 (Rmean (map (fun r => nth 0 r 0) (map row (seq 0 n))))) by (rewrite map_length, seq_length; exact Hi).
  rewrite (map_nth (fun j => Rmean (map (fun r => nth j r 0) (map row (seq 0 n)))) (seq 0 m) 0%nat i), seq_nth by exact Hi. unfold Rmean.
  rewrite !map_length, seq_length, map_map. reflexivity.
Qed.

Lemma times_spec : forall a b, length a = length b -> exists l, times a b = Ok l /\ length l = length b /\ forall i, (i < length b)%nat -> nth i l 0 = nth i a 0 * nth i b 0.
Proof.
  intros a b HL. unfold times. apply Nat.eqb_eq in HL. rewrite HL. apply Nat.eqb_eq in HL. eexists. split; [reflexivity|]. revert b HL.
  induction a as [|x a IH]; intros [|y b] HL; try discriminate; [split; [reflexivity|]; intros i Hi; cbn in Hi; lia|].
  cbn [zip_with length] in *. destruct (IH b) as (L & N); [lia|]. split; [lia|]. intros [|i] Hi; [reflexivity|]. cbn [nth]. apply N. lia.
Qed.

Lemma numerical_spec : forall n (w : low_gen) ks (F1 F2 : nat -> list R), (0 < n)%nat -> (forall r, (r < n)%nat -> length (F1 r) = length ks /\ length (F2 r) = length ks) ->
  exists c, numerical_curve w (map (fun r => (ks, F1 r, F2 r)) (seq 0 n)) = Ok c /\ has_points c (length ks)
  /\ forall i, (i < length ks)%nat -> curve_point c i (nth i ks 0 * lc_L (lw_cfg w)) (nth i ks 0 * (Rsum (map (fun r => nth i (F1 r) 0) (seq 0 n)) / INR n))
       (nth i ks 0 * (Rsum (map (fun r => nth i (F2 r) 0) (seq 0 n)) / INR n)).
Proof.
  intros n w ks F1 F2 Hn HL. unfold numerical_curve. rewrite !map_map. cbn [fst snd].
  replace (fst (fst (hd ([], [], []) (map (fun r => (ks, F1 r, F2 r)) (seq 0 n))))) with ks by (destruct n; [lia|reflexivity]).
  destruct (mean_rows_spec n (length ks) F1 Hn (fun r Hr => proj1 (HL r Hr))) as (M1 & E1 & L1 & N1). destruct (mean_rows_spec n (length ks) F2 Hn (fun r Hr => proj2 (HL r Hr))) as (M2 & E2 & L2 & N2).
  change (fun x : nat => F1 x) with F1. change (fun x : nat => F2 x) with F2. rewrite E1. cbn [bind]. rewrite E2. cbn [bind].
  destruct (times_spec ks M1) as (y1 & T1 & TL1 & TN1); [lia|]. destruct (times_spec ks M2) as (y2 & T2 & TL2 & TN2); [lia|]. rewrite T1. cbn [bind]. rewrite T2. cbn [bind].
  eexists. split; [reflexivity|]. unfold has_points, curve_point. cbn [cu_x cu_11 cu_22]. rewrite map_length, TL1, TL2. split; [lia|]. intros i Hi.
  rewrite nth_error_map, (nth_error_some_nth ks) by lia. rewrite (nth_error_some_nth y1), (nth_error_some_nth y2) by lia. rewrite TN1, TN2 by lia. rewrite N1, N2 by lia.
  repeat split; reflexivity.
Qed.

Lemma logspace_500 : forall a b, length (logspace a b 500) = 500%nat /\ forall i, (i < 500)%nat -> nth_error (logspace a b 500) i = Some (Rpower 10 (a + (b - a) * INR i / 499)).
Proof.
  intros a b. unfold logspace, linspace. set (m := 500%nat). assert (Hm : INR (m - 1) = 499) by (unfold m; rewrite INR_IZR_INZ; reflexivity). clearbody m. rewrite !map_length, seq_length. split; [reflexivity|].
  intros i Hi. rewrite !nth_error_map. rewrite (nth_error_nth' _ 0%nat) by (rewrite seq_length; exact Hi). rewrite seq_nth by exact Hi. cbn [option_map]. rewrite Hm. do 2 f_equal.
  rewrite Nat.add_0_l. field.
Qed.

Lemma target_spec : forall quad a b w, 0 < lc_L (lw_cfg w) -> has_points (target_curve quad a b w) 500
  /\ forall i, (i < 500)%nat -> let x := Rpower 10 (a + (b - a) * INR i / 499) in let k := x / lc_L (lw_cfg w) in
     curve_point (target_curve quad a b w) i x (k * fst (analytical quad w 5 k)) (k * snd (analytical quad w 5 k)).
Proof.
  intros quad a b w HL. destruct (logspace_500 a b) as (LL & LN). unfold target_curve, has_points, curve_point. cbn [cu_x cu_11 cu_22].
  rewrite !map_length, LL. split; [tauto|]. intros i Hi. cbv zeta. rewrite !nth_error_map, LN by exact Hi. cbn [option_map]. unfold default_limit.
  split; [|split; reflexivity]. f_equal. field. lra.
Qed.
