(** Model of the graphs which torch records for `SpectralCoherence`
    (drdmannturb/spectra_fitting/one_point_spectra.py L261-330) of a module on which the
    caller runs `backward`.  Values are left out. *)

From Coq Require Import List Bool.
From Verif Require Import Prelude.
Import ListNotations.

(** The attributes `coh_grid_k2`, `coh_grid_k3` (one_point_spectra.py L127-136, L285-296): absent,
    without a graph, or with the graph which leads to the length scale; torch frees the
    buffers of a graph when `backward` has passed through it. *)
Inductive grid : Type := Missing | Plain | Tracked (freed : bool).

(** A result of `SpectralCoherence`: whether it has a graph, whether this has been freed, and
    whether it continues in the graph of the grid (one_point_spectra.py L299). *)
Record coherence : Type := Coherence { c_graph : bool; c_freed : bool; c_grid : bool }.

(** A module and the results its caller holds (one_point_spectra.py L261). *)
Record holder : Type := Holder { m_grid : grid; m_results : list coherence }.

(** one_point_spectra.py L127-138: construction; the given length scale is a float. *)
Definition construct (use_coherence : bool) : holder :=
  Holder (if use_coherence then Plain else Missing) [].

(** one_point_spectra.py L284-299: `SpectralCoherence` with or without recording of graphs; the
    missing grid is multiplied by the reciprocal of the length scale and kept. *)
Definition evaluate (recording : bool) (m : holder) : holder :=
  let g := match m_grid m with
           | Missing => if recording then Tracked false else Plain
           | g => g
           end in
  Holder g (m_results m ++ [Coherence recording false (recording && match g with Tracked _ => true | _ => false end)]).

(** Replaces one entry of a list, for the flag which torch sets on a graph (one_point_spectra.py
    L299). *)
Fixpoint update {A : Type} (l : list A) (i : nat) (x : A) : list A :=
  match l, i with
  | [], _ => []
  | _ :: l', O => x :: l'
  | a :: l', S i' => a :: update l' i' x
  end.

(** `result.sum().backward()` on the i-th result (of one_point_spectra.py L261): without a
    graph, and where buffers of the graph or of the graph of the grid have been freed, torch
    raises; otherwise all buffers are freed. *)
Definition backward (i : nat) (m : holder) : res unit * holder :=
  match nth_error (m_results m) i with
  | None => (Err IndexError, m)
  | Some c =>
      if negb (c_graph c) then (Err RuntimeError, m)
      else if c_freed c then (Err RuntimeError, m)
      else
        let used := Holder (m_grid m) (update (m_results m) i (Coherence true true (c_grid c))) in
        if c_grid c then
          match m_grid m with
          | Tracked true => (Err RuntimeError, used)
          | _ => (Ok tt, Holder (Tracked true) (m_results used))
          end
        else (Ok tt, used)
  end.

(** What a caller does with a module (one_point_spectra.py L261). *)
Inductive action : Type := Evaluate (recording : bool) | Backward (i : nat).

(** One action after another (one_point_spectra.py L261). *)
Fixpoint perform (h : list action) (m : holder) : holder :=
  match h with
  | [] => m
  | Evaluate r :: h' => perform h' (evaluate r m)
  | Backward i :: h' => perform h' (snd (backward i m))
  end.
