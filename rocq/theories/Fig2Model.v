(** Model of `recreate_fig2`, `length_AND_grid_size_study` and `rectangular_domain_study` of
    drdmannturb/fluctuation_generation/low_frequency/large_plot.py: the values
    printed and handed to matplotlib.  Labels, colours and layout are not modelled. *)

From Coq Require Import Reals List ZArith Bool.
From Verif Require Import Prelude SpectraModel GenModel LowModel LossModel StudyModel.
Import ListNotations.
Open Scope R_scope.

(** Result of `compute_spectrum`: wave numbers and both spectra (large_plot.py L292-293). *)
Definition spectra : Type := (list R * list R * list R)%type.

(** Default tolerance of `compute_spectrum` (large_plot.py L292-293 give none) and default limit of
    `analytical_spectrum` (large_plot.py L269, L271 give none), fluctuation_field_generator.py of the same
    directory, L664 and L745. *)
Definition default_tol : R := / 10^9.
(** See [default_tol]. *)
Definition default_limit : R := 5.

Section Realisations.

  Variable G : Type.
  Variable gauss : G -> R * G.

  (** large_plot.py L282-307: the loop over realisations; both generators draw from the global random
      state.  Simplification: `gen_a` and `gen_b` are different objects. *)
  Fixpoint fig2_realisations (n : nat) (wa wb : low_gen) (g : G) : res (list (spectra * spectra)) * G :=
    match n with
    | O => (Ok [], g)
    | S n' =>
        match low_generate gauss wa g with
        | (Err e, g1) => (Err e, g1)
        | (Ok wa1, g1) =>
            match low_generate gauss wb g1 with
            | (Err e, g2) => (Err e, g2)
            | (Ok wb1, g2) =>
                match compute_spectrum wa1 default_tol with
                | Err e => (Err e, g2)
                | Ok sa =>
                    match compute_spectrum wb1 default_tol with
                    | Err e => (Err e, g2)
                    | Ok sb =>
                        let '(r, g3) := fig2_realisations n' wa1 wb1 g2 in
                        (bind r (fun l => Ok ((sa, sb) :: l)), g3)
                    end
                end
            end
        end
    end.

End Realisations.
Arguments fig2_realisations {G} gauss n wa wb g.

(** `np.mean(np.array(rows), axis=0)` (large_plot.py L311-314) of a non-empty list of rows; rows of
    different lengths make `np.array` raise. *)
Definition mean_rows (rows : list (list R)) : res (list R) :=
  let m := length (hd [] rows) in
  if forallb (fun r => (length r =? m)%nat) rows
  then Ok (map (fun j => Rmean (map (fun r => nth j r 0) rows)) (seq 0 m))
  else Err ValueError.

(** Product of two one-dimensional arrays (large_plot.py L333-339); different lengths raise (a length of one,
    which numpy would broadcast, does not occur for one of the factors only). *)
Definition times (a b : list R) : res (list R) :=
  if (length a =? length b)%nat then Ok (zip_with Rmult a b) else Err ValueError.

(** `np.argmin` (large_plot.py L348, L353): first position of the smallest value; an empty array raises. *)
Fixpoint argmin_from (i : nat) (best : nat) (v : R) (l : list R) : nat :=
  match l with
  | [] => best
  | x :: t => if Rltb x v then argmin_from (S i) i x t else argmin_from (S i) best v t
  end.
(** See [argmin_from] (large_plot.py L348, L353). *)
Definition argmin (l : list R) : res nat :=
  match l with
  | [] => Err ValueError
  | x :: t => Ok (argmin_from 1 0 x t)
  end.
(** `np.argmax` (large_plot.py L363-364, L377-378). *)
Definition argmax (l : list R) : res nat := argmin (map Ropp l).

(** A curve of the figure: abscissae and the two spectra (large_plot.py L318-339). *)
Record curve2 : Type := Curve2 { cu_x : list R; cu_11 : list R; cu_22 : list R }.

(** large_plot.py L268-271, L318-319, L331-332, L336-337: the target curve on 500 wave numbers between 10^a and
    10^b over the length scale; [quad] is `scipy.integrate.quad`. *)
Definition target_curve (quad : R -> R -> (R -> R) -> R) (a b : R) (w : low_gen) : curve2 :=
  let L := lc_L (lw_cfg w) in
  let ks := map (fun x => x / L) (logspace a b 500) in
  Curve2 (map (fun k => k * L) ks)
         (map (fun k => k * fst (analytical quad w default_limit k)) ks)
         (map (fun k => k * snd (analytical quad w default_limit k)) ks).

(** large_plot.py L298-314, L327-328, L333-334, L338-339: the curve of averaged estimates; the wave numbers are
    those of the first realisation. *)
Definition numerical_curve (w : low_gen) (l : list spectra) : res curve2 :=
  let ks := fst (fst (hd ([], [], []) l)) in
  bind (mean_rows (map (fun s => snd (fst s)) l)) (fun F1 =>
  bind (mean_rows (map (fun s => snd s) l)) (fun F2 =>
  bind (times ks F1) (fun y1 => bind (times ks F2) (fun y2 =>
    Ok (Curve2 (map (fun k => k * lc_L (lw_cfg w)) ks) y1 y2))))).

(** A printed point: abscissa and both ordinates (large_plot.py L351, L358). *)
Definition point_at (c : curve2) (i : nat) : R * R * R := (nth i (cu_x c) 0, nth i (cu_11 c) 0, nth i (cu_22 c) 0).

(** large_plot.py L348-351, L353-358: the point nearest to a value of k1 L. *)
Definition nearest (c : curve2) (v : R) : res (R * R * R) :=
  bind (argmin (map (fun x => Rabs (x - v)) (cu_x c))) (fun i => Ok (point_at c i)).

(** large_plot.py L343-360, L392-409: the comparisons printed for one generator: target and numerical point for
    every listed value. *)
Fixpoint comparisons (t m : curve2) (vs : list R) : res (list ((R * R * R) * (R * R * R))) :=
  match vs with
  | [] => Ok []
  | v :: vs' => bind (nearest t v) (fun p => bind (nearest m v) (fun q =>
                bind (comparisons t m vs') (fun l => Ok ((p, q) :: l))))
  end.

(** large_plot.py L362-389, L411-436: printed peaks of target and numerical curve, both components: ordinate
    and abscissa. *)
Definition peak (xs ys : list R) : res (R * R) :=
  bind (argmax ys) (fun i => Ok (nth i ys 0, nth i xs 0)).
(** See [peak] (large_plot.py L362-389, L411-436). *)
Definition peaks (t m : curve2) : res (list (R * R)) :=
  bind (peak (cu_x t) (cu_11 t)) (fun a => bind (peak (cu_x m) (cu_11 m)) (fun b =>
  bind (peak (cu_x t) (cu_22 t)) (fun c => bind (peak (cu_x m) (cu_22 m)) (fun d => Ok [a; b; c; d])))).

(** What is printed and shown for one of the two generators (large_plot.py L342-389 and upper row of the
    figure, L448-460; L391-436 and lower row, L467-478). *)
Record case_report : Type := CaseReport
  { cr_target : curve2; cr_numerical : curve2; cr_near : list ((R * R * R) * (R * R * R)); cr_peaks : list (R * R) }.

(** See [case_report] (large_plot.py L342-389, L391-436). *)
Definition report (t m : curve2) (vs : list R) : res case_report :=
  bind (comparisons t m vs) (fun l => bind (peaks t m) (fun p => Ok (CaseReport t m l p))).

(** large_plot.py L259-490: `recreate_fig2`; with no realisation nothing is shown (large_plot.py L322-324: the averages are
    NaN and are not used). *)
Definition recreate_fig2 {G : Type} (gauss : G -> R * G) (quad : R -> R -> (R -> R) -> R) (wa wb : low_gen) (n : nat) (g : G)
    : res (option (case_report * case_report)) * G :=
  let '(r, g1) := fig2_realisations gauss n wa wb g in
  (bind r (fun l =>
     match l with
     | [] => Ok None
     | _ =>
         bind (numerical_curve wa (map fst l)) (fun ma =>
         bind (numerical_curve wb (map snd l)) (fun mb =>
         bind (report (target_curve quad (-1) 3 wa) ma [/ 10; 1; 10]) (fun a =>
         bind (report (target_curve quad (1/2) (9/2) wb) mb [10; 100; 1000]) (fun b =>
           Ok (Some (a, b))))))
     end), g1).

(** large_plot.py L496-497: the exponents and the domain factors of `length_AND_grid_size_study`. *)
Definition grid_exponents : list nat := [7; 8; 9; 10; 11]%nat.
(** See [grid_exponents] (large_plot.py L497). *)
Definition domain_factors : list R := map INR [2; 4; 6; 8; 10; 12; 14; 16; 18; 20]%nat.

(** Row of a table of averages: both components (large_plot.py L540-541). *)
Definition row : Type := list (R * R).

Section SizeStudy.

  Variable G : Type.
  Variable gauss : G -> R * G.
  Variable quad : (R -> R) -> R.
  Variable n : nat.
  Variable base : low_config.

  (** large_plot.py L514-541: one row of the tables, all factors for one exponent.  A mean over no realisation
      is NaN in Python and is not modelled. *)
  Fixpoint size_row (e : nat) (fs : list R) (g : G) : res row * G :=
    match fs with
    | [] => (Ok [], g)
    | f :: fs' =>
        match low_construct quad (with_square e f base) with
        | Err x => (Err x, g)
        | Ok w =>
            match average_variances gauss n w g with
            | (Err x, g1) => (Err x, g1)
            | (Ok v, g1) =>
                let '(r, g2) := size_row e fs' g1 in
                (bind r (fun l => Ok (v :: l)), g2)
            end
        end
    end.

  (** large_plot.py L513-541: the tables. *)
  Fixpoint size_table (es : list nat) (fs : list R) (g : G) : res (list row) * G :=
    match es with
    | [] => (Ok [], g)
    | e :: es' =>
        match size_row e fs g with
        | (Err x, g1) => (Err x, g1)
        | (Ok r, g1) =>
            let '(t, g2) := size_table es' fs g1 in
            (bind t (fun l => Ok (r :: l)), g2)
        end
    end.

End SizeStudy.
Arguments size_row {G} gauss quad n base e fs g.
Arguments size_table {G} gauss quad n base es fs g.

(** large_plot.py L593-599: how a cell is labelled: in scientific notation or with three decimals. *)
Inductive label : Type := LSci (v : R) | LFixed (v : R).
(** See [label] (large_plot.py L593-599, without logarithmic scale: large_plot.py L619-628). *)
Definition cell_label (v : R) : label :=
  if Rltb (Rabs v) (1/1000) && negb (Reqb v 0) then LSci v else LFixed v.

(** large_plot.py L549-609, L619-631: a heat map: data, tick labels of both axes, cell labels and colour
    limits. *)
Record heatmap : Type := HeatMap
  { hm_data : list (list R); hm_x : list R; hm_y : list (nat * nat); hm_text : list (list label); hm_clim : R * R }.

(** See [heatmap]. *)
Definition heat (es : list nat) (fs : list R) (vmax : R) (d : list (list R)) : heatmap :=
  HeatMap d fs (map (fun e => (e, 2 ^ e)%nat) es) (map (map cell_label) d) (0, vmax).

(** large_plot.py L492-640: `length_AND_grid_size_study`: the table of printed averages with their sum
    (large_plot.py L543-545) and, with [plot], the three heat maps. *)
Definition size_study {G : Type} (gauss : G -> R * G) (quad : (R -> R) -> R) (base : low_config) (plot : bool) (n : nat) (g : G)
    : res (list (list (R * R * R)) * option (heatmap * heatmap * heatmap)) * G :=
  let '(t, g1) := size_table gauss quad n base grid_exponents domain_factors g in
  (bind t (fun t =>
     let vmax := lc_sigma2 base * (3/2) in
     let h := heat grid_exponents domain_factors vmax in
     Ok (map (map (fun v => (fst v, snd v, fst v + snd v))) t,
         if plot then Some (h (map (map fst) t), h (map (map snd) t), h (map (map (fun v => fst v + snd v)) t)) else None)), g1).

(** large_plot.py L645-669: factors and exponents of `rectangular_domain_study`. *)
Definition rectangles : list (nat * nat) := [(16, 8); (16, 4); (8, 4); (8, 2); (4, 2); (2, 4); (2, 8); (4, 8); (4, 16); (8, 16)]%nat.
(** See [rectangles] (large_plot.py L658-669). *)
Definition rectangle_exponents : list (nat * nat) :=
  [(11, 10); (11, 9); (11, 10); (12, 10); (11, 10); (10, 11); (10, 12); (10, 11); (10, 12); (10, 11)]%nat.

(** large_plot.py L678-682. *)
Definition with_rectangle (f e : nat * nat) (c : low_config) : low_config :=
  LowConfig (lc_sigma2 c) (lc_L c) (lc_psi c) (lc_zi c) (INR (fst f)) (INR (snd f)) (fst e) (snd e).

(** What is printed for one rectangle (large_plot.py L704-710): averages of the delivered fields, of the
    fields on the computational grid, and the target. *)
Record rectangle_report : Type := RectReport
  { rr_u : R * R * R; rr_full : R * R * R; rr_target : R }.

Section Rectangles.

  Variable G : Type.
  Variable gauss : G -> R * G.
  Variable quad : (R -> R) -> R.

  (** large_plot.py L693-702: variances of delivered and computed fields of successive realisations; `u1_full`
      and `u2_full` are the fields from which `generate` cuts the delivered ones. *)
  Fixpoint rectangle_variances (n : nat) (w : low_gen) (g : G) : res (list ((R * R) * (R * R))) * G :=
    match n with
    | O => (Ok [], g)
    | S n' =>
        let gr := lw_grid w in
        let '(f1, f2) := low_full w (fst (normal2 gauss (lg_cN1 gr) (lg_cN2 gr) g)) in
        match low_generate gauss w g with
        | (Err x, g1) => (Err x, g1)
        | (Ok w1, g1) =>
            match lw_u w1 with
            | None => (Err TypeError, g1)
            | Some (u1, u2) =>
                let '(r, g2) := rectangle_variances n' w1 g1 in
                (bind r (fun l => Ok (((var2 u1, var2 u2), (var2 f1, var2 f2)) :: l)), g2)
            end
        end
    end.

  (** Averages of two components and of their sum (large_plot.py L696-709). *)
  Definition averages (l : list (R * R)) : R * R * R :=
    (Rmean (map fst l), Rmean (map snd l), Rmean (map (fun v => fst v + snd v) l)).

  (** large_plot.py L673-711: all rectangles in turn. *)
  Fixpoint rectangle_study (pairs : list ((nat * nat) * (nat * nat))) (base : low_config) (n : nat) (g : G)
      : res (list rectangle_report) * G :=
    match pairs with
    | [] => (Ok [], g)
    | (f, e) :: pairs' =>
        match low_construct quad (with_rectangle f e base) with
        | Err x => (Err x, g)
        | Ok w =>
            match rectangle_variances n w g with
            | (Err x, g1) => (Err x, g1)
            | (Ok l, g1) =>
                let '(r, g2) := rectangle_study pairs' base n g1 in
                (bind r (fun rs => Ok (RectReport (averages (map fst l)) (averages (map snd l)) (lc_sigma2 (lw_cfg w)) :: rs)), g2)
            end
        end
    end.

End Rectangles.
Arguments rectangle_variances {G} gauss n w g.
Arguments rectangle_study {G} gauss quad pairs base n g.

(** large_plot.py L643-713: `rectangular_domain_study` (the assertion at L671 compares two literals). *)
Definition rectangular_study {G : Type} (gauss : G -> R * G) (quad : (R -> R) -> R) (base : low_config) (n : nat) (g : G)
    : res (list rectangle_report) * G :=
  rectangle_study gauss quad (combine rectangles rectangle_exponents) base n g.
