(** Model of the data preparation in STORM_fitting/dry_run.py and
    STORM_fitting/script_fit_coh.py.  A file is given by its lines, each a list of numbers;
    comment lines, blank lines and text which is not a number are not modelled. *)

From Coq Require Import Reals List Arith.
From Verif Require Import Prelude.
Import ListNotations.
Open Scope R_scope.

(** `np.genfromtxt(file, skip_header=1, delimiter=",")` followed by the selections of columns
    0 to 5 (dry_run.py L25, L33-40; script_fit_coh.py L22, L34-41): lines of different lengths
    raise ValueError; with fewer than two lines the array is one-dimensional, so that `[:, 0]`
    raises IndexError, as does a selection beyond the last column. *)
Definition read_lines (lines : list (list R)) : res (list (list R)) :=
  let rows := tl lines in
  match rows with
  | r :: _ :: _ =>
      if forallb (fun q => (length q =? length r)%nat) rows then
        if (length r <? 6)%nat then Err IndexError else Ok rows
      else Err ValueError
  | _ => Err IndexError
  end.

(** One point of the data dictionary (dry_run.py L42-46; script_fit_coh.py L43-47). *)
Record datum : Type := Datum { d_k1 : R; d_ops : ix -> ix -> R }.

(** dry_run.py L34-40, script_fit_coh.py L35-41: the entries of one line. *)
Definition entries (row : list R) : ix -> ix -> R :=
  let c i := nth i row 0 in
  fun i j =>
    match i, j with
    | X1, X1 => c 1%nat
    | X2, X2 => c 2%nat
    | X3, X3 => c 3%nat
    | X1, X3 => -1 * c 4%nat
    | X2, X3 => c 5%nat
    | X1, X2 => c 5%nat
    | _, _ => 0
    end.

(** script_fit_coh.py L22-47: the data dictionary; [Uref] is L18. *)
Definition script_data (Uref : R) (lines : list (list R)) : res (list datum) :=
  bind (read_lines lines) (fun rows =>
    Ok (map (fun row => Datum (2 * PI * nth 0 row 0 / Uref) (entries row)) rows)).

(** dry_run.py L25-46: the data dictionary. *)
Definition dry_run_data (lines : list (list R)) : res (list datum) :=
  bind (read_lines lines) (fun rows => Ok (map (fun row => Datum (nth 0 row 0) (entries row)) rows)).

(** dry_run.py L25-101 up to the call of `calibrate`: L48-53 call `CustomDataLoader` with the
    keywords skip_header and delimiter, which its constructor (data_generator.py L116-121)
    does not have. *)
Definition dry_run (lines : list (list R)) : res (list datum) :=
  bind (dry_run_data lines) (fun _ => Err TypeError).
