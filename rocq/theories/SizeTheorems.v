(** Property theorems about the studies over domain sizes (C160). *)

From Coq Require Import Reals List ZArith Bool Lia Lra.
From Coquelicot Require Import Coquelicot.
From Verif Require Import Prelude GenSpec DftModel DftSpec LowModel LowSpec LowProofs LowMore LowSpectrum LowDemo EstSpec EstProofs EstLimit StudyModel StudySpec StudyProofs StudyFinal Fig2Model Fig2Spec Fig2Proofs Fig2Final SizeSpec SizeProofs SizeFinal.
Import ListNotations.
Open Scope R_scope.

(** C160: every cell of the table and of the heat maps belongs to its own row and column: the
    cells are the averages of fifty generators, run one after the other row by row. *)
Theorem C160_table : forall G (gauss : G -> R * G) quad base n, 0 < lc_L base -> / 10^16 <= quad (low_shape (lc_L base) (lc_zi base)) ->
  exists ws, List.Forall2 (fun ef w => low_construct quad (resized base (snd ef) (snd ef) (fst ef) (fst ef)) = Ok w) (list_prod [7; 8; 9; 10; 11]%nat (map INR [2; 4; 6; 8; 10; 12; 14; 16; 18; 20]%nat)) ws
  /\ forall (plot : bool) g, exists t maps, size_study gauss quad base plot n g = (Ok (map (map (fun v => (fst v, snd v, fst v + snd v))) t, maps), after gauss g (all_draws n ws))
     /\ successive gauss n g ws (concat t) /\ length t = 5%nat /\ List.Forall (fun r => length r = 10%nat) t
     /\ (plot = false -> maps = None)
     /\ (plot = true -> exists m1 m2 m3, maps = Some (m1, m2, m3) /\ hm_data m1 = map (map fst) t /\ hm_data m2 = map (map snd) t /\ hm_data m3 = map (map (fun v => fst v + snd v)) t
         /\ List.Forall (fun m => hm_x m = map INR [2; 4; 6; 8; 10; 12; 14; 16; 18; 20]%nat /\ map fst (hm_y m) = [7; 8; 9; 10; 11]%nat /\ List.Forall (fun y => snd y = (2 ^ fst y)%nat) (hm_y m)
              /\ hm_clim m = (0, 3 / 2 * lc_sigma2 base)
              /\ map (map (fun l => match l with LSci v => v | LFixed v => v end)) (hm_text m) = hm_data m
              /\ List.Forall (List.Forall (fun l => match l with LSci v => 0 < Rabs v < 1/1000 | LFixed v => v = 0 \/ 1/1000 <= Rabs v end)) (hm_text m)) [m1; m2; m3]).
Proof. exact study_spec. Qed.
Print Assumptions C160_table.

(** C160: averaged over the seeds a cell is at most the variance carried by the wave numbers of
    its computational grid, with equality from five integral scales on. *)
Theorem C160_cells : forall G (gauss : G -> R * G) ens quad base n plot ws (tab : G -> list (list (R * R * R))) maps, 0 < lc_L base -> / 10^16 <= quad (low_shape (lc_L base) (lc_zi base)) -> (1 <= n)%nat ->
  let es := [7; 8; 9; 10; 11]%nat in let fs := map INR [2; 4; 6; 8; 10; 12; 14; 16; 18; 20]%nat in
  List.Forall2 (fun ef w => low_construct quad (resized base (snd ef) (snd ef) (fst ef) (fst ef)) = Ok w) (list_prod es fs) ws ->
  white gauss (all_draws n ws) ens -> (forall g, fst (size_study gauss quad base plot n g) = Ok (tab g, maps g)) ->
  forall i j e f w (cell : G -> R * R * R), nth_error es i = Some e -> nth_error fs j = Some f -> low_construct quad (resized base f f e e) = Ok w ->
  (forall g, exists row, nth_error (tab g) i = Some row /\ nth_error row j = Some (cell g)) ->
  let gr := lw_grid w in let cfg := resized base f f e e in
  ordinary cfg (lg_cL1 gr) (lg_cL2 gr) (lg_cdx gr) (lg_cdy gr) ->
  let V1 := carried1 (lw_c w) cfg (lg_cL1 gr) (lg_cL2 gr) (lg_cN1 gr) (lg_cN2 gr) in
  let V2 := carried2 (lw_c w) cfg (lg_cL1 gr) (lg_cL2 gr) (lg_cN1 gr) (lg_cN2 gr) in
  (mean ens (fun g => fst (fst (cell g))) <= V1 /\ mean ens (fun g => snd (fst (cell g))) <= V2 /\ mean ens (fun g => snd (cell g)) <= V1 + V2)
  /\ (5 <= f -> mean ens (fun g => fst (fst (cell g))) = V1 /\ mean ens (fun g => snd (fst (cell g))) = V2 /\ mean ens (fun g => snd (cell g)) = V1 + V2).
Proof. exact table_expected. Qed.
Print Assumptions C160_cells.

(** C160: the ten reports of the rectangular study, in order, for every base configuration. *)
Theorem C160_rectangles : forall G (gauss : G -> R * G) quad base n, 0 < lc_L base -> / 10^16 <= quad (low_shape (lc_L base) (lc_zi base)) ->
  let fs := [(16, 8); (16, 4); (8, 4); (8, 2); (4, 2); (2, 4); (2, 8); (4, 8); (4, 16); (8, 16)]%nat in
  let es := [(11, 10); (11, 9); (11, 10); (12, 10); (11, 10); (10, 11); (10, 12); (10, 11); (10, 12); (10, 11)]%nat in
  exists ws, List.Forall2 (fun p w => low_construct quad (resized base (INR (fst (fst p))) (INR (snd (fst p))) (fst (snd p)) (snd (snd p))) = Ok w) (combine fs es) ws
  /\ forall g, exists rs, rectangular_study gauss quad base n g = (Ok rs, after gauss g (all_draws n ws)) /\ successive_reports gauss n g (lc_sigma2 base) ws rs.
Proof. exact rectangular_spec. Qed.
Print Assumptions C160_rectangles.

(** C160: the ten rectangles have square cells. *)
Theorem C160_square_cells : forall base p, In p (combine rectangles rectangle_exponents) ->
  let cfg := resized base (INR (fst (fst p))) (INR (snd (fst p))) (fst (snd p)) (snd (snd p)) in asked_dx cfg = asked_dy cfg.
Proof. exact rectangles_square. Qed.
Print Assumptions C160_square_cells.

(** C160: averaged over the seeds the fields on the computational grids have the variance
    carried by their wave numbers, and the delivered ones at most this. *)
Theorem C160_reports : forall G (gauss : G -> R * G) ens quad base n ws (reps : G -> list rectangle_report), 0 < lc_L base -> / 10^16 <= quad (low_shape (lc_L base) (lc_zi base)) -> (1 <= n)%nat ->
  let fs := [(16, 8); (16, 4); (8, 4); (8, 2); (4, 2); (2, 4); (2, 8); (4, 8); (4, 16); (8, 16)]%nat in
  let es := [(11, 10); (11, 9); (11, 10); (12, 10); (11, 10); (10, 11); (10, 12); (10, 11); (10, 12); (10, 11)]%nat in
  List.Forall2 (fun p w => low_construct quad (resized base (INR (fst (fst p))) (INR (snd (fst p))) (fst (snd p)) (snd (snd p))) = Ok w) (combine fs es) ws ->
  white gauss (all_draws n ws) ens -> (forall g, fst (rectangular_study gauss quad base n g) = Ok (reps g)) ->
  forall i f1 f2 e1 e2 w (rep : G -> rectangle_report), nth_error (combine fs es) i = Some ((f1, f2), (e1, e2)) -> (forall g, nth_error (reps g) i = Some (rep g)) ->
  let cfg := resized base (INR f1) (INR f2) e1 e2 in low_construct quad cfg = Ok w ->
  let gr := lw_grid w in
  ordinary cfg (lg_cL1 gr) (lg_cL2 gr) (lg_cdx gr) (lg_cdy gr) ->
  let V1 := carried1 (lw_c w) cfg (lg_cL1 gr) (lg_cL2 gr) (lg_cN1 gr) (lg_cN2 gr) in
  let V2 := carried2 (lw_c w) cfg (lg_cL1 gr) (lg_cL2 gr) (lg_cN1 gr) (lg_cN2 gr) in
  let avg h := mean ens (fun g => h (rep g)) in
  avg (fun r => fst (fst (rr_full r))) = V1 /\ avg (fun r => snd (fst (rr_full r))) = V2 /\ avg (fun r => snd (rr_full r)) = V1 + V2
  /\ avg (fun r => fst (fst (rr_u r))) <= V1 /\ avg (fun r => snd (fst (rr_u r))) <= V2 /\ avg (fun r => snd (rr_u r)) <= V1 + V2.
Proof. exact rectangles_expected. Qed.
Print Assumptions C160_reports.

(** C160: in the first and last rectangle nothing is cut: both lines of the report are equal. *)
Theorem C160_uncropped : forall G (gauss : G -> R * G) quad base n g rs g', 0 < lc_L base -> / 10^16 <= quad (low_shape (lc_L base) (lc_zi base)) ->
  rectangular_study gauss quad base n g = (Ok rs, g') -> forall r, nth_error rs 0 = Some r \/ nth_error rs 9 = Some r -> rr_u r = rr_full r.
Proof. exact rectangles_uncropped. Qed.
Print Assumptions C160_uncropped.

Example C160_case : 0 < lc_L plane_cfg /\ / 10^16 <= unit_quad (low_shape (lc_L plane_cfg) (lc_zi plane_cfg))
  /\ let cfg := resized plane_cfg (INR 6) (INR 6) 7 7 in
     exists ws w tab maps cell, List.Forall2 (fun ef w => low_construct unit_quad (resized plane_cfg (snd ef) (snd ef) (fst ef) (fst ef)) = Ok w) (list_prod [7; 8; 9; 10; 11]%nat (map INR [2; 4; 6; 8; 10; 12; 14; 16; 18; 20]%nat)) ws
     /\ white single_gauss (all_draws 2 ws) (single_family (all_draws 2 ws))
     /\ (forall g, fst (size_study single_gauss unit_quad plane_cfg true 2 g) = Ok (tab g, maps g))
     /\ low_construct unit_quad cfg = Ok w /\ (forall g, exists row, nth_error (tab g) 0 = Some row /\ nth_error row 2 = Some (cell g))
     /\ ordinary cfg (lg_cL1 (lw_grid w)) (lg_cL2 (lw_grid w)) (lg_cdx (lw_grid w)) (lg_cdy (lw_grid w)) /\ 5 <= INR 6.
Proof. exact size_case. Qed.

Example C160_rectangle_case : let cfg := resized plane_cfg (INR 16) (INR 8) 11 10 in
  exists ws w reps rep, List.Forall2 (fun p w => low_construct unit_quad (resized plane_cfg (INR (fst (fst p))) (INR (snd (fst p))) (fst (snd p)) (snd (snd p))) = Ok w) (combine rectangles rectangle_exponents) ws
  /\ white single_gauss (all_draws 2 ws) (single_family (all_draws 2 ws))
  /\ (forall g, fst (rectangular_study single_gauss unit_quad plane_cfg 2 g) = Ok (reps g))
  /\ low_construct unit_quad cfg = Ok w /\ (forall g, nth_error (reps g) 0 = Some (rep g))
  /\ ordinary cfg (lg_cL1 (lw_grid w)) (lg_cL2 (lw_grid w)) (lg_cdx (lw_grid w)) (lg_cdy (lw_grid w)).
Proof. exact rectangle_case. Qed.
