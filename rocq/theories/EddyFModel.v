(** Model of drdmannturb/spectra_fitting/eddy_lifetime.py: the base class for lifetime
    functions written by the user, with the parts of torch's `nn.Module` it inherits. *)

From Coq Require Import List Bool.
From Verif Require Import Prelude.
Import ListNotations.

Set Implicit Arguments.

Section EddyF.
(** Wave vectors, lifetimes, numbers: any types; nothing is computed with them in
    drdmannturb/spectra_fitting/eddy_lifetime.py L15-56. *)
Variables K V F : Type.

(** The two attributes (drdmannturb/spectra_fitting/eddy_lifetime.py L22-23). *)
Inductive sname : Type := Length | Time.

(** Comparison of attribute names (drdmannturb/spectra_fitting/eddy_lifetime.py L22-23). *)
Definition sname_eqb (a b : sname) : bool :=
  match a, b with Length, Length | Time, Time => true | _, _ => false end.

(** Value given for a scale: None, a number, or a trainable `nn.Parameter`, known by its
    identity; other objects are left out
    (drdmannturb/spectra_fitting/eddy_lifetime.py L17-18). *)
Inductive sval : Type :=
| SNone
| SNum (x : F)
| SParam (i : nat).

(** The object: its `__dict__` and its `_parameters`, restricted to the two names
    (drdmannturb/spectra_fitting/eddy_lifetime.py L21-23: `nn.Module.__init__` makes both empty). *)
Record eobj : Type := { eo_plain : sname -> option sval; eo_params : sname -> option sval }.

(** Entry [n] of a table set to [v] (drdmannturb/spectra_fitting/eddy_lifetime.py L22-23). *)
Definition put (f : sname -> option sval) (n : sname) (v : option sval) : sname -> option sval :=
  fun m => if sname_eqb m n then v else f m.

(** After `super().__init__()` (drdmannturb/spectra_fitting/eddy_lifetime.py L21). *)
Definition blank : eobj := {| eo_plain := fun _ => None; eo_params := fun _ => None |}.

(** `self.length_scale = v` goes through `nn.Module.__setattr__`: a parameter is taken out of
    the dictionary and registered; where a parameter is registered only None or another
    parameter is accepted; everything else is a plain attribute.  Classes which define an
    attribute of the same name are left out
    (drdmannturb/spectra_fitting/eddy_lifetime.py L22-23). *)
Definition setattr (o : eobj) (n : sname) (v : sval) : res eobj :=
  match v with
  | SParam _ => Ok {| eo_plain := put (eo_plain o) n None; eo_params := put (eo_params o) n (Some v) |}
  | SNone =>
    match eo_params o n with
    | Some _ => Ok {| eo_plain := eo_plain o; eo_params := put (eo_params o) n (Some v) |}
    | None => Ok {| eo_plain := put (eo_plain o) n (Some v); eo_params := eo_params o |}
    end
  | SNum _ =>
    match eo_params o n with
    | Some _ => Err TypeError
    | None => Ok {| eo_plain := put (eo_plain o) n (Some v); eo_params := eo_params o |}
    end
  end.

(** `self.length_scale`: the dictionary, then `nn.Module.__getattr__`
    (drdmannturb/spectra_fitting/eddy_lifetime.py L22-23). *)
Definition getattr (o : eobj) (n : sname) : res sval :=
  match eo_plain o n with
  | Some v => Ok v
  | None => match eo_params o n with Some v => Ok v | None => Err AttributeError end
  end.

(** Whether `parameters()` lists parameter [i], among those of the two scales
    (drdmannturb/spectra_fitting/eddy_lifetime.py L12, L22-23). *)
Definition trains (o : eobj) (i : nat) : bool :=
  existsb (fun n => match eo_params o n with Some (SParam j) => Nat.eqb i j | _ => false end) [Length; Time].

(** A class derived from the base class: its own `forward`, if it defines one, as a function of
    the attributes of the object and the wave vector; classes which define `__init__` or
    `__call__` are left out (drdmannturb/spectra_fitting/eddy_lifetime.py L12-56). *)
Definition icls : Type := option (eobj -> K -> res V).

(** `self.forward` for a class with the given line of ancestors, most derived first; with
    nothing found the abstract method of the base class remains
    (drdmannturb/spectra_fitting/eddy_lifetime.py L25-39). *)
Fixpoint resolve (ch : list icls) : option (eobj -> K -> res V) :=
  match ch with
  | [] => None
  | Some f :: _ => Some f
  | None :: ch' => resolve ch'
  end.

(** Construction: a class whose `forward` is abstract cannot be instantiated
    (drdmannturb/spectra_fitting/eddy_lifetime.py L12, L15-23, L25-26). *)
Definition construct (ch : list icls) (l t : sval) : res eobj :=
  match resolve ch with
  | None => Err TypeError
  | Some _ => bind (setattr blank Length l) (fun o => setattr o Time t)
  end.

(** `self.forward(k)`; the body of the abstract method raises an exception the model does not
    distinguish (drdmannturb/spectra_fitting/eddy_lifetime.py L26-39). *)
Definition forward (ch : list icls) (o : eobj) (k : K) : res V :=
  match resolve ch with Some f => f o k | None => Err GenericException end.

(** Hooks registered with `register_forward_pre_hook` and `register_forward_hook`: a name and
    what it returns; None leaves the value as it is
    (drdmannturb/spectra_fitting/eddy_lifetime.py L12: inherited from `nn.Module`). *)
Definition pre_hook : Type := (nat * (K -> option K))%type.
(** See [pre_hook] (drdmannturb/spectra_fitting/eddy_lifetime.py L12). *)
Definition post_hook : Type := (nat * (K -> V -> option V))%type.

(** Calling the object: `__call__` of the class, which replaces that of `nn.Module`; the result
    and the hooks which ran, in order (drdmannturb/spectra_fitting/eddy_lifetime.py L41-56). *)
Definition ecall (ch : list icls) (o : eobj) (pre : list pre_hook) (post : list post_hook) (k : K) : res V * list nat :=
  (forward ch o k, []).

(** Assignments to the scales after construction; one which raises leaves the object as it was
    (drdmannturb/spectra_fitting/eddy_lifetime.py L22-23). *)
Definition assign (o : eobj) (p : sname * sval) : eobj :=
  match setattr o (fst p) (snd p) with Ok o' => o' | Err _ => o end.
End EddyF.

Arguments SNone {F}.
Arguments SNum {F} x.
Arguments SParam {F} i.
