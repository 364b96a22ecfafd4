(** Model of drdmannturb/fluctuation_generation/low_frequency/large_plot.py: the
    numerical studies of the low-frequency generator.

    File names in the comments: LF stands for
    drdmannturb/fluctuation_generation/low_frequency/fluctuation_field_generator.py.
    Printed text and the appearance of the figures are not modelled; the data handed
    to the figures is. *)

From Coq Require Import String Reals List ZArith Bool Permutation.
From Coquelicot Require Import Complex.
From Verif Require Import Prelude DftModel LowModel.
Import ListNotations.
Open Scope R_scope.

(** A two-dimensional array (large_plot.py L23-24). *)
Definition plane : Type := list (list R).

(** large_plot.py L18-20: copy of a configuration with both exponents replaced. *)
Definition with_exponent (e : nat) (c : low_config) : low_config :=
  LowConfig (lc_sigma2 c) (lc_L c) (lc_psi c) (lc_zi c) (lc_f1 c) (lc_f2 c) e e.
(** large_plot.py L106-108: copy with both side factors replaced. *)
Definition with_factor (f : R) (c : low_config) : low_config :=
  LowConfig (lc_sigma2 c) (lc_L c) (lc_psi c) (lc_zi c) f f (lc_e1 c) (lc_e2 c).
(** `np.deg2rad` (large_plot.py L52, L734, L761). *)
Definition deg2rad (a : R) : R := a * PI / 180.
(** large_plot.py L733-734, L760-761: copy with the angle replaced, given in degrees. *)
Definition with_angle (a : R) (c : low_config) : low_config :=
  LowConfig (lc_sigma2 c) (lc_L c) (deg2rad a) (lc_zi c) (lc_f1 c) (lc_f2 c) (lc_e1 c) (lc_e2 c).
(** large_plot.py L524-527: configuration with exponents and factors replaced by one pair. *)
Definition with_square (e : nat) (f : R) (c : low_config) : low_config := with_factor f (with_exponent e c).

(** large_plot.py L49-58: `cfg_mesh_base`. *)
Definition mesh_base : low_config := LowConfig 2 15000 (deg2rad 45) 500 4 4 10 10.
(** large_plot.py L142-151: `cfg_base`. *)
Definition domain_base : low_config := LowConfig 2 15000 (deg2rad 45) 500 4 4 9 9.

(** `np.zeros_like` of an array of shape (n, m) (large_plot.py L23-24). *)
Definition zeros2 (n m : nat) : plane := tabulate2 n m (fun _ => 0).

(** In-place addition `a += b` of two-dimensional arrays (large_plot.py L28-29, L116-117): [b] is
    repeated along an axis of extent one, any other difference of shapes raises. *)
Definition iadd2 (a b : plane) : res plane :=
  let n := length a in let m := length (hd [] a) in
  let n' := length b in let m' := length (hd [] b) in
  if (((n' =? n) || (n' =? 1)) && ((m' =? m) || (m' =? 1)))%nat%bool then
    Ok (tabulate2 n m (fun x => let '(p, q, r) := x in
          at2 a (p, q, r) + at2 b ((if (n' =? 1)%nat then O else p), (if (m' =? 1)%nat then O else q), r)))
  else Err ValueError.

(** `u /= n` (large_plot.py L31-32).  The count is positive wherever it is used. *)
Definition div2 (u : plane) (n : nat) : plane := map (map (fun v => v / INR n)) u.

(** `np.sum(u**2)` (large_plot.py L35-36). *)
Definition sum_sq (u : plane) : R := Rsum (map (fun v => v^2) (concat u)).

(** `np.var` (large_plot.py L38-39): mean squared deviation from the mean of all entries. *)
Definition var2 (u : plane) : R :=
  let l := concat u in
  let mu := Rmean l in
  Rmean (map (fun v => (v - mu)^2) l).

(** Norms and variances of the two components (large_plot.py L44, L134). *)
Definition stats : Type := (R * R * R * R)%type.

Section Runs.

  Variable G : Type.
  Variable gauss : G -> R * G.
  Variable quad : (R -> R) -> R.

  (** large_plot.py L26-29, L114-117: the loop which adds up realisations.  The case of a
      generator without field after `generate` cannot occur. *)
  Fixpoint accumulate (n : nat) (w : low_gen) (s : plane * plane) (g : G) : res (plane * plane) * G :=
    match n with
    | O => (Ok s, g)
    | S n' =>
        match low_generate gauss w g with
        | (Err e, g1) => (Err e, g1)
        | (Ok w1, g1) =>
            match lw_u w1 with
            | None => (Err TypeError, g1)
            | Some (c1, c2) =>
                match iadd2 (fst s) c1 with
                | Err e => (Err e, g1)
                | Ok s1 =>
                    match iadd2 (snd s) c2 with
                    | Err e => (Err e, g1)
                    | Ok s2 => accumulate n' w1 (s1, s2) g1
                    end
                end
            end
        end
    end.

  (** large_plot.py L22-39, L110-129: the common part of a single run: construction, sums of
      realisations in arrays shaped like the wave numbers, averages, norms and
      variances. *)
  Definition run_single (cfg : low_config) (n : nat) (g : G) : res stats * G :=
    match low_construct quad cfg with
    | Err e => (Err e, g)
    | Ok w =>
        let gr := lw_grid w in
        let z := zeros2 (lg_cN1 gr) (lg_cN2 gr) in
        match accumulate n w (z, z) g with
        | (Err e, g1) => (Err e, g1)
        | (Ok (s1, s2), g1) =>
            let u1 := div2 s1 n in
            let u2 := div2 s2 n in
            (Ok (sum_sq u1 * lg_dx gr * lg_dy gr, sum_sq u2 * lg_dx gr * lg_dy gr, var2 u1, var2 u2), g1)
        end
    end.

  (** large_plot.py L12-44: `_run_single_mesh`. *)
  Definition run_single_mesh (e : nat) (cfg : low_config) (n : nat) (g : G) : res (nat * stats) * G :=
    let '(r, g1) := run_single (with_exponent e cfg) n g in (bind r (fun s => Ok (e, s)), g1).

  (** large_plot.py L100-134: `_run_single_domain_size`. *)
  Definition run_single_domain (f : R) (cfg : low_config) (n : nat) (g : G) : res (R * stats * R) * G :=
    let '(r, g1) := run_single (with_factor f cfg) n g in (bind r (fun s => Ok (f, s, lc_L cfg * f)), g1).

  (** large_plot.py L63-64, L154-155: tasks in the order of submission, each with the process
      which takes it; every process has its own copy of the global random state. *)
  Fixpoint pool {K A : Type} (task : K -> G -> res A * G) (st : nat -> G) (l : list (K * nat)) : list (res A) :=
    match l with
    | [] => []
    | (k, p) :: t => let '(r, g1) := task k (st p) in r :: pool task (fun q => if (q =? p)%nat then g1 else st q) t
    end.

End Runs.
Arguments accumulate {G} gauss n w s g.
Arguments run_single {G} gauss quad cfg n g.
Arguments run_single_mesh {G} gauss quad e cfg n g.
Arguments run_single_domain {G} gauss quad f cfg n g.
Arguments pool {G K A} task st l.

(** large_plot.py L66-70, L157-161: results of the tasks which did not raise, in the order of
    completion. *)
Fixpoint oks {A : Type} (l : list (res A)) : list A :=
  match l with
  | [] => []
  | Ok a :: t => a :: oks t
  | Err _ :: t => oks t
  end.

(** One step of a stable sort (large_plot.py L73, L164). *)
Fixpoint insert_by {A : Type} (le : A -> A -> bool) (x : A) (l : list A) : list A :=
  match l with
  | [] => [x]
  | y :: t => if le x y then x :: y :: t else y :: insert_by le x t
  end.
(** `list.sort(key=...)`, which is stable (large_plot.py L73, L164). *)
Definition sort_by {A : Type} (le : A -> A -> bool) (l : list A) : list A := fold_right (insert_by le) [] l.

(** The four curves of a figure (large_plot.py L82-89, L174-182). *)
Definition curves (X : Type) : Type := (list (X * R) * list (X * R) * list (X * R) * list (X * R))%type.
(** Curves over given abscissae (large_plot.py L74-89, L165-182). *)
Definition curves_of {X : Type} (xs : list X) (rs : list stats) : curves X :=
  (combine xs (map (fun s => fst (fst (fst s))) rs), combine xs (map (fun s => snd (fst (fst s))) rs),
   combine xs (map (fun s => snd (fst s)) rs), combine xs (map (fun s => snd s) rs)).

(** large_plot.py L60: `np.arange(low, high + 1)`. *)
Definition exponents (low high : nat) : list nat := seq low (high + 1 - low).

(** large_plot.py L72-94: the figure of the mesh study, if any; `plot` raises for coordinates of
    different lengths. *)
Definition mesh_figure (es : list nat) (done : list (res (nat * stats))) : res (option (curves nat)) :=
  match sort_by (fun a b => (fst a <=? fst b)%nat) (oks done) with
  | [] => Ok None
  | rs => if (length es =? length rs)%nat then Ok (Some (curves_of es (map snd rs))) else Err ValueError
  end.

(** large_plot.py L163-189: the figure of the domain study, if any; abscissae in km. *)
Definition domain_figure (done : list (res (R * stats * R))) : option (curves R) :=
  match sort_by (fun a b => Rleb (fst (fst a)) (fst (fst b))) (oks done) with
  | [] => None
  | rs => Some (curves_of (map (fun r => snd r / 1000) rs) (map (fun r => snd (fst r)) rs))
  end.

(** large_plot.py L139-140: default factors `np.arange(1, 17)`. *)
Definition default_factors : list R := map INR (seq 1 16).

(** large_plot.py L62-70: an execution of the mesh study.  [g] is the random state of the parent
    at the start, copied into every process; [ps] says which process takes which task,
    [done] is the order of completion.  Simplification: processes are forked before the
    first task runs, as on Linux. *)
Definition mesh_execution {G : Type} (gauss : G -> R * G) (quad : (R -> R) -> R) (low high : nat) (g : G) (ps : list nat)
    (done : list (res (nat * stats))) : Prop :=
  length ps = length (exponents low high) /\
  Permutation done (pool (fun e => run_single_mesh gauss quad e mesh_base 5) (fun _ => g) (combine (exponents low high) ps)).
(** large_plot.py L153-161: an execution of the domain study. *)
Definition domain_execution {G : Type} (gauss : G -> R * G) (quad : (R -> R) -> R) (factors : list R) (g : G) (ps : list nat)
    (done : list (res (R * stats * R))) : Prop :=
  length ps = length factors /\
  Permutation done (pool (fun f => run_single_domain gauss quad f domain_base 5) (fun _ => g) (combine factors ps)).

(** ** Comparison of spectra *)

(** large_plot.py L225: spacing of the wave numbers. *)
Definition dk1_of (ks : list R) : R := match ks with a :: b :: _ => b - a | _ => 0 end.
(** large_plot.py L226-227: variance from a spectrum. *)
Definition var_from_spectrum (ks F : list R) : R := if Rltb 0 (dk1_of ks) then Rsum F * dk1_of ks else 0.
(** large_plot.py L210, L225-234: the printed variances ((actual, from spectrum) of u1, the same of u2)
    for the tolerance [tol] of `compute_spectrum`. *)
Definition printed_variances (w : low_gen) (tol : R) : res (R * R * (R * R)) :=
  bind (compute_spectrum w tol) (fun s =>
    let '(ks, F1, F2) := s in
    match lw_u w with
    | None => Err RuntimeError
    | Some (u1, u2) => Ok (var2 u1, var_from_spectrum ks F1, (var2 u2, var_from_spectrum ks F2))
    end).

(** ** Averages over realisations *)

Section Averages.

  Variable G : Type.
  Variable gauss : G -> R * G.

  (** large_plot.py L532-537, L693-702, L765-771: variances of successive realisations. *)
  Fixpoint realisation_variances (n : nat) (w : low_gen) (g : G) : res (list (R * R)) * G :=
    match n with
    | O => (Ok [], g)
    | S n' =>
        match low_generate gauss w g with
        | (Err e, g1) => (Err e, g1)
        | (Ok w1, g1) =>
            match lw_u w1 with
            | None => (Err TypeError, g1)
            | Some (u1, u2) =>
                let '(r, g2) := realisation_variances n' w1 g1 in
                (bind r (fun l => Ok ((var2 u1, var2 u2) :: l)), g2)
            end
        end
    end.

  (** large_plot.py L540-541, L704-705, L774-775: averages of the variances. *)
  Definition average_variances (n : nat) (w : low_gen) (g : G) : res (R * R) * G :=
    let '(r, g1) := realisation_variances n w g in
    (bind r (fun l => Ok (Rmean (map fst l), Rmean (map snd l))), g1).

  (** large_plot.py L696-697: variances of successive fields on the computational grid. *)
  Fixpoint full_variances (n : nat) (w : low_gen) (g : G) : res (list (R * R)) * G :=
    match n with
    | O => (Ok [], g)
    | S n' =>
        let gr := lw_grid w in
        let '(f1, f2) := low_full w (fst (normal2 gauss (lg_cN1 gr) (lg_cN2 gr) g)) in
        match low_generate gauss w g with
        | (Err e, g1) => (Err e, g1)
        | (Ok w1, g1) =>
            let '(r, g2) := full_variances n' w1 g1 in
            (bind r (fun l => Ok ((var2 f1, var2 f2) :: l)), g2)
        end
    end.

  (** large_plot.py L707-708: averages of these. *)
  Definition average_full_variances (n : nat) (w : low_gen) (g : G) : res (R * R) * G :=
    let '(r, g1) := full_variances n w g in
    (bind r (fun l => Ok (Rmean (map fst l), Rmean (map snd l))), g1).

End Averages.
Arguments realisation_variances {G} gauss n w g.
Arguments average_variances {G} gauss n w g.
Arguments full_variances {G} gauss n w g.
Arguments average_full_variances {G} gauss n w g.

(** ** Anisotropy study *)

Section Angles.

  Variable G : Type.
  Variable gauss : G -> R * G.
  Variable quad : (R -> R) -> R.
  Variable base : low_config.

  (** large_plot.py L732-740: one field per angle. *)
  Fixpoint angle_fields (angles : list R) (g : G) : res (list (R * (plane * plane))) * G :=
    match angles with
    | [] => (Ok [], g)
    | a :: t =>
        match low_construct quad (with_angle a base) with
        | Err e => (Err e, g)
        | Ok w =>
            match low_generate gauss w g with
            | (Err e, g1) => (Err e, g1)
            | (Ok w1, g1) =>
                match lw_u w1 with
                | None => (Err TypeError, g1)
                | Some u => let '(r, g2) := angle_fields t g1 in (bind r (fun l => Ok ((a, u) :: l)), g2)
                end
            end
        end
    end.

  (** `np.min` / `np.max` of a list of fields (large_plot.py L743-744); an empty array raises. *)
  Definition extreme (f : R -> R -> R) (l : list plane) : res R :=
    match concat (concat l) with
    | [] => Err ValueError
    | v :: t => Ok (fold_right f v t)
    end.

  (** large_plot.py L743-746: limit of the colour scale. *)
  Definition colour_limit (fields : list (R * (plane * plane))) : res R :=
    let us := map (fun f => fst (snd f)) fields in
    let vs := map (fun f => snd (snd f)) fields in
    bind (extreme Rmin us) (fun a => bind (extreme Rmin vs) (fun b =>
    bind (extreme Rmax us) (fun c => bind (extreme Rmax vs) (fun d =>
      Ok (Rmax (Rabs (Rmin a b)) (Rabs (Rmax c d))))))).

  (** `d[key] = v` of a dictionary (large_plot.py L738, L782). *)
  Fixpoint dict_set {A : Type} (k : R) (v : A) (d : list (R * A)) : list (R * A) :=
    match d with
    | [] => [(k, v)]
    | (k', v') :: t => if Reqb k k' then (k, v) :: t else (k', v') :: dict_set k v t
    end.
  (** `d[key]` (large_plot.py L786). *)
  Fixpoint dict_get {A : Type} (k : R) (d : list (R * A)) : res A :=
    match d with
    | [] => Err KeyError
    | (k', v') :: t => if Reqb k k' then Ok v' else dict_get k t
    end.

  (** large_plot.py L738: `generated_fields` after the first loop. *)
  Definition generated_fields (fields : list (R * (plane * plane))) : list (R * (plane * plane)) :=
    fold_left (fun d f => dict_set (fst f) (snd f) d) fields [].

  (** large_plot.py L758-812: second loop: results and, with plotting, the rows of the figure
      (angle in the label, fields shown).  With a single angle `plt.subplots` returns
      one row of axes and indexing a panel of `axs[0]` raises. *)
  Fixpoint angle_results (n : nat) (plot single : bool) (stored : list (R * (plane * plane))) (angles : list R)
      (d : list (R * (R * R * R))) (rows : list (R * (plane * plane))) (g : G)
      : res (list (R * (R * R * R)) * list (R * (plane * plane))) * G :=
    match angles with
    | [] => (Ok (d, rows), g)
    | a :: t =>
        match low_construct quad (with_angle a base) with
        | Err e => (Err e, g)
        | Ok w =>
            match average_variances gauss n w g with
            | (Err e, g1) => (Err e, g1)
            | (Ok (v1, v2), g1) =>
                let d1 := dict_set a (v1, v2, v1 + v2) d in
                if plot then
                  match dict_get a stored with
                  | Err e => (Err e, g1)
                  | Ok u => if single then (Err TypeError, g1) else angle_results n plot single stored t d1 (rows ++ [(a, u)]) g1
                  end
                else angle_results n plot single stored t d1 rows g1
            end
        end
    end.

  (** large_plot.py L716-819: `anisotropy_study`: results, colour limit and rows of the figure.
      With zero realisations the averages are NaN, which is not modelled. *)
  Definition anisotropy_study (angles : list R) (n : nat) (plot : bool) (g : G)
      : res (list (R * (R * R * R)) * R * list (R * (plane * plane))) * G :=
    match angle_fields angles g with
    | (Err e, g1) => (Err e, g1)
    | (Ok fields, g1) =>
        match colour_limit fields with
        | Err e => (Err e, g1)
        | Ok v =>
            let '(r, g2) := angle_results n plot (length angles =? 1)%nat (generated_fields fields) angles [] [] g1 in
            (bind r (fun x => Ok (fst x, v, snd x)), g2)
        end
    end.

End Angles.
Arguments angle_fields {G} gauss quad base angles g.
Arguments angle_results {G} gauss quad base n plot single stored angles d rows g.
Arguments anisotropy_study {G} gauss quad base angles n plot g.
