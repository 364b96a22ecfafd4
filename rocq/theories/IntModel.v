(** Arrays of integers given where arrays of wave numbers are expected. *)

From Coq Require Import String Reals List ZArith Bool.
From Verif Require Import Prelude DataModel LowModel.
Import ListNotations.
Open Scope R_scope.

(** The element types a caller may give: integers, as `torch.arange(1, 10)` or
    `np.array([1, 2])` make them, or floating-point numbers (data_generator.py L53,
    low_frequency/fluctuation_field_generator.py L744).  Simplified: integers have no largest
    value, and the precisions of floating-point numbers are in DevModel.v. *)
Inductive waves : Type :=
| Ints : list Z -> waves
| Floats : list R -> waves.

(** The wave numbers themselves (data_generator.py L71, fluctuation_field_generator.py L845). *)
Definition values (ks : waves) : list R :=
  match ks with Ints l => map IZR l | Floats l => l end.

(** Conversion of a floating-point number to an integer, towards zero; what becomes of
    infinities and NaN is left open ([odd]) (data_generator.py L75-78, L84;
    fluctuation_field_generator.py L863-889). *)
Definition truncate (x : R) : Z := if Rleb 0 x then Int_part x else (- Int_part (- x))%Z.

(** Assignment of [x] to an element of an array of the type of [ks] (data_generator.py L73-78:
    `torch.zeros(..., dtype=k1.dtype)`; fluctuation_field_generator.py L787-790:
    `np.zeros_like(k1_arr)`). *)
Definition stored (odd : Z) (ks : waves) (x : xr) : xr :=
  match ks with
  | Floats _ => x
  | Ints _ => match x with Fin r => Fin (IZR (truncate r)) | _ => Fin (IZR odd) end
  end.

(** data_generator.py L71-86: the four entries are stored in an array of the type of the wave
    numbers, and so is the square of the friction velocity (L84). *)
Definition kaimal_row (odd : Z) (ks : waves) (zref ustar k1 : R) : xmat :=
  fun i j => xmul (stored odd ks (kaimal_at zref 1 k1 i j)) (stored odd ks (Fin (ustar^2))).

(** data_generator.py L53-88: `generate_kaimal_spectra`. *)
Definition kaimal_data (odd : Z) (zref ustar : R) (ks : waves) : list xmat :=
  map (kaimal_row odd ks zref ustar) (values ks).

(** fluctuation_field_generator.py L744-892: `analytical_spectrum`; the two returned arrays
    (L787, L789) have the type of the given one. *)
Definition analytical_data (odd : Z) (quad : R -> R -> (R -> R) -> R) (w : low_gen) (k2_limit : R) (ks : waves) : list xr * list xr :=
  (map (fun k => stored odd ks (Fin (fst (analytical quad w k2_limit k)))) (values ks),
   map (fun k => stored odd ks (Fin (snd (analytical quad w k2_limit k)))) (values ks)).
