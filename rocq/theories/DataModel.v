(** Model of drdmannturb/spectra_fitting/data_generator.py and of
    DomainParameters in drdmannturb/parameters.py. *)

From Coq Require Import String Reals List ZArith Bool.
From Verif Require Import Prelude.
Import ListNotations.
Open Scope R_scope.

(** ** Generated spectra *)

(** A 3x3 matrix of floats at one wave number (data_generator.py L37, L73). *)
Definition xmat : Type := ix -> ix -> xr.

(** data_generator.py L32-46: von Karman data at one k1.  `L ** (-2)` (L33) of a
    Python float raises for L = 0. *)
Definition von_karman_at (L C k1 : R) : res xmat :=
  if Reqb L 0 then Err ZeroDivisionError
  else
    let k1_squared := k1^2 in
    let L_inv_squared := / L^2 in
    let denominator := L_inv_squared + k1_squared in
    let uu := xdiv (Fin (9 / 55 * C)) (xpow denominator (5/6)) in
    let vv := xdiv (Fin (3 / 110 * C * (3 * L_inv_squared + 8 * k1_squared))) (xpow denominator (11/6)) in
    let ww := xdiv (Fin (3 / 110 * C * (3 * L_inv_squared + 8 * k1_squared))) (xpow denominator (11/6)) in
    Ok (fun i j =>
      xmul (match i, j with X1, X1 => uu | X2, X2 => vv | X3, X3 => ww | _, _ => Fin 0 end) (Fin k1)).

(** data_generator.py L16-50: the generated tensor (one matrix per wave number);
    L33 raises before anything is computed. *)
Definition von_karman (L C : R) (k1s : list R) : res (list xmat) :=
  if Reqb L 0 then Err ZeroDivisionError
  else fold_right (fun k1 acc => bind (von_karman_at L C k1) (fun m => bind acc (fun l => Ok (m :: l)))) (Ok []) k1s.

(** data_generator.py L71-86: Kaimal data at one k1. *)
Definition kaimal_at (zref ustar k1 : R) : xmat :=
  let n := 1 / (2 * PI) * k1 * zref in
  let uu := xdiv (Fin (525 / 10 * n)) (xpow (1 + 33 * n) (5/3)) in
  let vv := xdiv (Fin (85 / 10 * n)) (xpow (1 + 95 / 10 * n) (5/3)) in
  let ww := xdiv (Fin (105 / 100 * n)) (xadd (Fin 1) (xmul (Fin (53 / 10)) (xpow n (5/3)))) in
  let uw := xdiv (Fin (- 7 * n)) (xpow (1 + 96 / 10 * n) (12/5)) in
  fun i j =>
    xmul (match i, j with
          | X1, X1 => uu | X2, X2 => vv | X3, X3 => ww | X1, X3 => uw | _, _ => Fin 0 end) (Fin (ustar^2)).

(** data_generator.py L53-88: the generated tensor. *)
Definition kaimal (zref ustar : R) (k1s : list R) : list xmat := map (kaimal_at zref ustar) k1s.

(** ** Custom data files *)

(** What is found at a path (data_generator.py L138-143): nothing, a file that
    `read_csv` rejects, or a table with these columns. *)
Inductive data_file : Type :=
| Missing : data_file
| Malformed : data_file
| Table : list string -> data_file.

(** `name in df.columns` (data_generator.py L146-158). *)
Definition has_col (cols : list string) (name : string) : bool := existsb (String.eqb name) cols.

(** data_generator.py L116-171: constructor of the loader.  L164 reads
    `self.ops_k1_domain`, which is assigned nowhere. *)
Definition custom_loader (f : data_file) (components : Z) : res unit :=
  match f with
  | Missing => Err FileNotFoundError
  | Malformed => Err GenericException
  | Table cols =>
      if negb (has_col cols "uu") then Err ValueError
      else if negb (has_col cols "vv") then Err ValueError
      else if negb (has_col cols "ww") then Err ValueError
      else if andb (3 <? components)%Z (negb (has_col cols "uw")) then Err ValueError
      else if andb (components =? 6)%Z (negb (has_col cols "vw")) then Err ValueError
      else if andb (components =? 6)%Z (negb (has_col cols "uv")) then Err ValueError
      else Err AttributeError
  end.

(** ** Domain parameters *)

(** Kind of a sequence argument (parameters.py L217-218). *)
Inductive seq_kind : Type := KTuple | KList | KArray.

(** parameters.py L220-241: `__post_init__` of DomainParameters.  L232 reads the
    property `grid_levels`, hence `self._grid_levels`, which is assigned only
    afterwards (L235-238). *)
Definition domain_parameters (dims : seq_kind * list R) (levels : seq_kind * list Z) : res (list R * list Z) :=
  let checked k := match k with KTuple => false | KList | KArray => true end in
  if andb (checked (fst dims)) (negb (length (snd dims) =? 3)%nat) then Err ValueError
  else Err AttributeError.
