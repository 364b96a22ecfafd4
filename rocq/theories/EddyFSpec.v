(** What torch documents for calling a module, written without reference to the class. *)

From Coq Require Import List.
From Verif Require Import Prelude.
Import ListNotations.

Set Implicit Arguments.

(** The pre-hooks run in order, each replacing the input if it returns one; the module is
    evaluated; if it did not raise, the hooks run in order, each replacing the output if it
    returns one.  The second component is the list of hooks which ran.  (Documentation of
    torch for `nn.Module.__call__`, which drdmannturb/spectra_fitting/eddy_lifetime.py L41-56
    replaces.) *)
Definition module_call {K V : Type} (f : K -> res V) (pre : list (nat * (K -> option K)))
  (post : list (nat * (K -> V -> option V))) (k : K) : res V * list nat :=
  let k' := fold_left (fun a h => match snd h a with Some b => b | None => a end) pre k in
  match f k' with
  | Err e => (Err e, map fst pre)
  | Ok v => (Ok (fold_left (fun a h => match snd h k' a with Some b => b | None => a end) post v), (map fst pre ++ map fst post)%list)
  end.
