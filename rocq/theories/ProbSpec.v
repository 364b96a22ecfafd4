(** Independent vocabulary for the statements about problem objects, model files and
    loss plots. *)

From Coq Require Import String Reals List Arith ZArith Bool.
From Verif Require Import Prelude RdtModel SpectraModel OpsModel LossModel CalModel ProbModel.
Import ListNotations.
Open Scope R_scope.

(** In a session, every calibration raised. *)
Definition no_fit {D : Type} (l : list (op D)) (rs : list (res (list R))) : Prop :=
  Forall2 (fun p r => match p with Calibrate _ _ _ => exists e, r = Err e | _ => True end) l rs.

(** Printed values belong to a module: scales are the exponentials of the first three
    entries of its parameter vector; the exponents, when learnable, are the next two. *)
Definition describes (v : list R) (m : module_params) : Prop :=
  v = map exp (firstn 3 (get_parameters m))
      ++ match mp_pq m with Some _ => firstn 2 (skipn 3 (get_parameters m)) | None => [] end.

(** The optimiser proposes vectors of the right length only. *)
Fixpoint keeps_length (n : nat) (t : strategy) : Prop :=
  match t with
  | Finish v => length v = n
  | Ask v k => length v = n /\ forall l, keeps_length n (k l)
  end.

(** Number of entries of the parameter vector which are not network parameters. *)
Definition physical_count (m : module_params) : nat := match mp_pq m with Some _ => 5 | None => 3 end.

(** [l] is an interleaving of the steps [l1] (marked true) and [l2] (marked false). *)
Inductive interleaving {A : Type} : list A -> list A -> list (bool * A) -> Prop :=
| Ileave_nil : interleaving [] [] []
| Ileave_left : forall a l1 l2 l, interleaving l1 l2 l -> interleaving (a :: l1) l2 ((true, a) :: l)
| Ileave_right : forall a l1 l2 l, interleaving l1 l2 l -> interleaving l1 (a :: l2) ((false, a) :: l).

(** A decoder fails on every proper beginning of an encoded value. *)
Definition prefix_safe {B A : Type} (enc : A -> list B) (dec : list B -> option A) : Prop :=
  (forall a, dec (enc a) = Some a) /\ forall a n, (n < length (enc a))%nat -> dec (firstn n (enc a)) = None.

(** What a reader finds at a path: nothing, an unreadable file, or a value. *)
Definition read_file {B A : Type} (dec : list B -> option A) (f : fs (list B)) (p : string) : option A :=
  match fs_file f p with Some b => dec b | None => None end.
