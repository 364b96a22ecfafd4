(** Model of the parameters a network registers with torch (drdmannturb/nn_modules.py L40-45 and
    L88-202): which numbers `parameters()` lists, what the constructor and a fit may change, and
    what the forward pass reads.  `torch.nn.Module` is modelled as far as it decides that. *)

From Coq Require Import Reals List Arith ZArith Bool.
From Verif Require Import Prelude SpectraModel.
Import ListNotations.
Open Scope R_scope.

(** The numbers held by parameter objects, addressed by the identity of the object
    (nn_modules.py L45, L149-156); a single number is a one by one matrix. *)
Definition heap : Type := nat -> weights.

(** An activation module (nn_modules.py L134-146): the identities of its own parameters (none
    for ReLU, one for PReLU) and its function of their values. *)
Record act_mod : Type := Act { am_params : list nat; am_fun : list weights -> R -> R }.

(** Values of attributes (nn_modules.py L41-45, L117, L133-146, L158-169): a parameter, a module
    with its attributes in the order they are set (also `nn.ModuleList`, L158), a python list,
    or anything else. *)
Inductive obj : Type :=
| OParam : nat -> obj
| OModule : list obj -> obj
| OList : list obj -> obj
| OPlain : obj.

(** Parameters which are attributes of the module itself (nn_modules.py L45). *)
Definition own (o : obj) : list nat := match o with OParam i => [i] | _ => [] end.

(** `named_modules` (as used by `parameters()`, nn_modules.py L166): a module, then the modules
    among its attributes; python lists are not entered. *)
Fixpoint visit (o : obj) : list nat :=
  match o with
  | OModule attrs => flat_map own attrs ++ flat_map visit attrs
  | _ => []
  end.

(** Every object is listed once, at its first occurrence (`parameters()`, nn_modules.py L166). *)
Fixpoint firsts (seen l : list nat) : list nat :=
  match l with
  | [] => []
  | i :: l' => if existsb (Nat.eqb i) seen then firsts seen l' else i :: firsts (i :: seen) l'
  end.

(** `module.parameters()` (nn_modules.py L166; calibration.py L168, L407, L635). *)
Definition parameters (o : obj) : list nat := firsts [] (visit o).

(** A constructed network (nn_modules.py L88-169): the activations, the weights of the layers,
    and the exponent, a parameter or a plain number. *)
Record tau_net : Type := Net { nt_acts : list act_mod; nt_weights : list nat; nt_nu : nat + R }.

(** The attributes of the network in the order they are set (nn_modules.py L117 n_layers, L133
    hidden_layer_sizes, L137-144 activations, L158 linears, L161 and L41-45 Ra, L169 sign). *)
Definition net_obj (t : tau_net) : obj :=
  OModule
    [ OPlain; OPlain;
      OList (map (fun a => OModule (map OParam (am_params a))) (nt_acts t));
      OModule (map (fun w => OModule [OParam w]) (nt_weights t));
      OModule [OPlain; match nt_nu t with inl i => OParam i | inr _ => OPlain end];
      OPlain ].

(** nn_modules.py L167: `param.add_(torch.randn(param.size()) * noise_magnitude)`, with `xi` for
    the random numbers. *)
Definition add_noise (xi : nat -> nat -> R) (W : weights) : weights :=
  map (fun rr => map (fun cx => snd cx + xi (fst rr) (fst cx) * (1 / 10^9))
                     (combine (seq 0 (length (snd rr))) (snd rr)))
      (combine (seq 0 (length W)) W).

(** nn_modules.py L164-167. *)
Definition noise_loop (xi : nat -> nat -> nat -> R) (ids : list nat) (h : heap) : heap :=
  fun i => if existsb (Nat.eqb i) ids then add_noise (xi i) (h i) else h i.

(** nn_modules.py L88-169: `TauNet(...)`.  [nxt] is the next unused identity, [winit] the values
    torch gives to new layers (L149-156), [relu] is `nn.ReLU()`.  The checks are those of
    [taunet_init] (SpectraModel.v). *)
Definition tau_new (relu : act_mod) (n : int_arg) (sz : size_arg) (act : act_arg act_mod) (learn : bool) (nu : R)
    (nxt : nat) (winit : nat -> weights) (xi : nat -> nat -> nat -> R) (h : heap) : res (tau_net * heap) :=
  bind (taunet_init relu n sz act learn nu) (fun c =>
  let nl := length (tc_layers c) in
  let t := Net (tc_acts c) (seq nxt nl) (if tc_learn_nu c then inl (nxt + nl)%nat else inr (tc_nu c)) in
  let h1 := fun i => if (nxt <=? i)%nat && (i <? nxt + nl)%nat then winit (i - nxt)%nat
                     else if (i =? nxt + nl)%nat && tc_learn_nu c then [[tc_nu c]] else h i in
  Ok (t, noise_loop xi (parameters (net_obj t)) h1)).

(** The number held by a one by one parameter (nn_modules.py L45, L61-62). *)
Definition scalar (W : weights) : R := match W with (x :: _) :: _ => x | _ => 0 end.

(** nn_modules.py L171-202: the forward pass with the numbers now held by the parameters. *)
Definition net_forward (t : tau_net) (h : heap) (k : list R) : res R :=
  taunet_forward (map h (nt_weights t)) (map (fun a => am_fun a (map h (am_params a))) (nt_acts t))
    (match nt_nu t with inl i => scalar (h i) | inr x => x end) k.

(** `parameters_to_vector(net.parameters())` (calibration.py L428, L658). *)
Definition net_vector (t : tau_net) (h : heap) : list R :=
  flat_map (fun i => concat (h i)) (parameters (net_obj t)).

(** `sum(p.numel() for p in net.parameters())` (calibration.py L635). *)
Definition net_numel (t : tau_net) (h : heap) : nat := length (net_vector t h).

(** One change of the listed parameters, in place: an optimiser step or `vector_to_parameters`
    (calibration.py L196, L216, L407-417), with any new values. *)
Definition update (ids : list nat) (u : heap -> nat -> weights) (h : heap) : heap :=
  fun i => if existsb (Nat.eqb i) ids then u h i else h i.

(** A fit: any sequence of such changes (calibration.py L405-531). *)
Definition fit (t : tau_net) (us : list (heap -> nat -> weights)) (h : heap) : heap :=
  fold_left (fun h u => update (parameters (net_obj t)) u h) us h.

(** `nn.PReLU()` (an activation a user may pass, nn_modules.py L92): one number, the slope on
    the negative side. *)
Definition prelu (i : nat) : act_mod :=
  Act [i] (fun ps x => if Rle_dec 0 x then x else scalar (hd [] ps) * x).

(** `nn.ReLU()` (nn_modules.py L135). *)
Definition relu_mod : act_mod := Act [] (fun _ x => Rmax 0 x).
