(** Model of the memory behind parameter vectors
    (/repo/drdmannturb/spectra_fitting/calibration.py L149-207): which vectors share
    storage with which problems. *)

From Coq Require Import Reals List Arith.
From Verif Require Import Prelude.
Import ListNotations.
Open Scope R_scope.

(** Storage: numbered buffers.  The parameters of a problem are consecutive views of
    one buffer: the constructor ends by assigning `parameters` (calibration.py L129,
    L198-207), and `vector_to_parameters` (L196) makes every parameter a view of the
    vector it is given (documented implementation: `param.data = vec[...].view_as(
    param).data`).  [w_problems] holds the buffer of each problem.  Simplification: a
    tensor handed in owns its storage (it is not itself a strided view). *)
Record world : Type := World { w_buffers : list (list R); w_problems : list nat }.

(** Content of a buffer (read at calibration.py L164-169, L188-196); empty for a
    number never allocated. *)
Definition buffer (w : world) (b : nat) : list R := nth b (w_buffers w) [].

(** A new buffer: `torch.tensor(...)` (calibration.py L187), `parameters_to_vector`
    (L164) and arrays created by the user. *)
Definition alloc (w : world) (v : list R) : nat * world :=
  (length (w_buffers w), World (w_buffers w ++ [v]) (w_problems w)).

(** In-place change of a buffer (optimiser steps, calibration.py L493, and assignments
    of the user to elements of an array). *)
Fixpoint replace_at {A : Type} (l : list A) (i : nat) (v : A) : list A :=
  match l, i with
  | [], _ => []
  | _ :: l', O => v :: l'
  | a :: l', S i' => a :: replace_at l' i' v
  end.

(** In-place change, as above (calibration.py L493). *)
Definition store (w : world) (b : nat) (v : list R) : world := World (replace_at (w_buffers w) b v) (w_problems w).

(** Buffer of a problem (calibration.py L196); problems are numbered in order of
    construction. *)
Definition buffer_of (w : world) (p : nat) : option nat := nth_error (w_problems w) p.

(** A vector handed to the setter: a numpy array (or list), or a torch tensor
    (calibration.py L187: `torch.is_tensor`). *)
Inductive vector_arg : Type := NumpyVector (b : nat) | TorchVector (b : nat).

(** Steps of a session.  [New v]: the user creates an array or tensor.  [Construct v]:
    a problem is constructed, [v] are its initial parameters (calibration.py L57-132).
    [Read p]: `problem.parameters` (L149-171).  [Set p a]: `problem.parameters = a`
    (L173-196).  [Train p f]: one optimiser step on problem [p] (L493), [f] giving the
    new values.  [Write b f]: the user changes an array or tensor in place. *)
Inductive step : Type :=
| New (v : list R)
| Construct (v : list R)
| Read (p : nat)
| Set_ (p : nat) (a : vector_arg)
| Train (p : nat) (f : list R -> list R)
| Write (b : nat) (f : list R -> list R).

(** In-place changes keep the length (calibration.py L493); a function returning
    another length stands for no change. *)
Definition in_place (w : world) (b : nat) (f : list R -> list R) : world :=
  let v := f (buffer w b) in
  if (length v =? length (buffer w b))%nat then store w b v else w.

(** One step: outcome (number of the buffer handed to the user, if any) and new state
    (calibration.py L57-132, L149-207, L493; see [step]).  A problem that does not
    exist: AttributeError. *)
Definition do_step (s : step) (w : world) : res (option nat) * world :=
  match s with
  | New v => let '(b, w1) := alloc w v in (Ok (Some b), w1)
  | Construct v => let '(b, w1) := alloc w v in (Ok None, World (w_buffers w1) (w_problems w1 ++ [b]))
  | Read p =>
      match buffer_of w p with
      | None => (Err AttributeError, w)
      | Some b => let '(b1, w1) := alloc w (buffer w b) in (Ok (Some b1), w1)
      end
  | Set_ p a =>
      match buffer_of w p with
      | None => (Err AttributeError, w)
      | Some b =>
          match a with
          | NumpyVector c =>
              if (length (buffer w c) =? length (buffer w b))%nat then
                let '(d, w1) := alloc w (buffer w c) in (Ok None, World (w_buffers w1) (replace_at (w_problems w1) p d))
              else (Err ValueError, w)
          | TorchVector c =>
              if (length (buffer w c) =? length (buffer w b))%nat then (Ok None, World (w_buffers w) (replace_at (w_problems w) p c))
              else (Err ValueError, w)
          end
      end
  | Train p f =>
      match buffer_of w p with
      | None => (Err AttributeError, w)
      | Some b => (Ok None, in_place w b f)
      end
  | Write b f => (Ok None, in_place w b f)
  end.

(** A session (calibration.py L149-207, L493); exceptions are caught by the caller. *)
Fixpoint do_steps (l : list step) (w : world) : world :=
  match l with
  | [] => w
  | s :: l' => do_steps l' (snd (do_step s w))
  end.

(** The empty state, before any constructor (calibration.py L57) has run. *)
Definition empty_world : world := World [] [].
