(** Vocabulary for environment variables and directories. *)

From Coq Require Import String Ascii List Arith ZArith Bool DecimalString.
From Verif Require Import Prelude SpectraModel CalModel EnvModel.
Import ListNotations.

(** Decimal numeral of a number, from the standard library. *)
Definition numeral (n : nat) : string := NilEmpty.string_of_uint (Nat.to_uint n).

(** Value of OMP_NUM_THREADS for nested levels of parallelism (OpenMP 5.0, section 6.2): a
    list of numbers separated by commas. *)
Definition omp_value (ns : list nat) : string := String.concat "," (map numeral ns).

(** ASCII white space as Python's `str.isspace` has it: tabulator, line feeds, form feed,
    carriage return, the four information separators and the blank. *)
Definition white (c : ascii) : Prop := In (nat_of_ascii c) [9; 10; 11; 12; 13; 28; 29; 30; 31; 32]%nat.

(** The character of a decimal digit. *)
Definition decimal (d : nat) : ascii := ascii_of_nat (48 + d).

(** Characters which occur in numbers. *)
Definition in_numbers (c : ascii) : Prop :=
  white c \/ (exists d, (d < 10)%nat /\ c = decimal d) \/ c = "_"%char \/ c = "+"%char \/ c = "-"%char.

(** A string of white space. *)
Definition blank (s : string) : Prop := Forall white (list_ascii_of_string s).

(** Text of a number: digits, with at most one underscore between two of them. *)
Inductive digits : list ascii -> nat -> Prop :=
| digits_first : forall d, (d < 10)%nat -> digits [decimal d] d
| digits_next : forall l n d, digits l n -> (d < 10)%nat -> digits (l ++ [decimal d]) (10 * n + d)
| digits_underscore : forall l n d, digits l n -> (d < 10)%nat -> digits (l ++ ["_"%char; decimal d]) (10 * n + d).

(** Text which stands for an integer. *)
Definition integer_text (s : string) (z : Z) : Prop :=
  exists pre sign body post n, s = (pre ++ sign ++ body ++ post)%string /\ blank pre /\ blank post
  /\ digits (list_ascii_of_string body) n
  /\ ((sign = ""%string \/ sign = "+"%string) /\ z = Z.of_nat n \/ sign = "-"%string /\ z = (- Z.of_nat n)%Z).

(** The file of the figure with the spectra below a directory. *)
Definition figure_file (dir name : string) : string := (dir ++ "/" ++ name ++ "_spectra.png")%string.

(** A name which starts with a slash. *)
Definition absolute (s : string) : Prop := exists s', s = String "/" s'.

(** A name which does not start with a slash. *)
Definition relative (s : string) : Prop := exists c s', s = String c s' /\ c <> "/"%char.

(** The file with the fitted model below a directory. *)
Definition model_file (dir : string) (t : eddy_type) : string := (dir ++ "/" ++ eddy_name t ++ ".pkl")%string.
