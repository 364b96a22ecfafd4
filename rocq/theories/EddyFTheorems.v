(** Property theorems about lifetime functions written by the user (C197). *)

From Coq Require Import List Arith.
From Verif Require Import Prelude EddyFModel EddyFSpec EddyFProofs.
Import ListNotations.

(** C197: whatever the class, no hook runs when an object is called, though hooks were
    registered and torch's own call would run them. *)
Theorem C197_refuted : forall (K V F : Type) (ch : list (icls K V F)) l t o pre post k, construct ch l t = Ok o -> pre <> [] ->
  snd (ecall ch o pre post k) = [] /\ snd (module_call (forward ch o) pre post k) <> [].
Proof. exact (fun K V F => @hooks_skipped K V F). Qed.
Print Assumptions C197_refuted.

(** A class and a hook which doubles the argument; the value of the call differs as well. *)
Example C197_refuted_case :
  let ch : list (icls nat nat nat) := [Some (fun _ k => Ok (k + 1))] in
  exists o, construct ch (SNum 2) SNone = Ok o
  /\ ecall ch o [(7, fun k => Some (2 * k))] [] 5 = (Ok 6, [])
  /\ module_call (forward ch o) [(7, fun k => Some (2 * k))] [] 5 = (Ok 11, [7]).
Proof. eexists. split; [reflexivity|]. split; reflexivity. Qed.

(** C197: the value of a call is that of the `forward` of the most derived class which defines
    one, and what torch's own call gives when no hook replaces a value. *)
Theorem C197_value_partial : forall (K V F : Type) (ch1 ch2 : list (icls K V F)) f o pre post k,
  (forall c, In c ch1 -> c = None) ->
  fst (ecall (ch1 ++ Some f :: ch2) o pre post k) = f o k
  /\ ((forall h a, In h pre -> snd h a = None) -> (forall h a b, In h post -> snd h a b = None) ->
      fst (ecall (ch1 ++ Some f :: ch2) o pre post k) = fst (module_call (f o) pre post k)).
Proof. exact (fun K V F => @call_value K V F). Qed.
Print Assumptions C197_value_partial.

Example C197_value_case :
  let ch : list (icls nat nat nat) := [None; Some (fun _ k => Ok (k + 1)); Some (fun _ _ => Err ValueError)] in
  fst (ecall ch (blank nat) [(1, fun _ => None)] [] 5) = Ok 6.
Proof.
  exact (proj1 (C197_value_partial nat nat nat [None] [Some (fun _ _ => Err ValueError)] (fun _ k => Ok (k + 1)) (blank nat)
    [(1, fun _ => None)] [] 5 (fun c I => match I with or_introl e => eq_sym e | or_intror f => match f with end end))).
Qed.

(** C197: exactly the classes with a `forward` of their own or of an ancestor can be
    constructed, and they keep both scales as given. *)
Theorem C197_construct_partial : forall (K V F : Type) (ch : list (icls K V F)) l t,
  ((exists f, In (Some f) ch) -> exists o, construct ch l t = Ok o /\ getattr o Length = Ok l /\ getattr o Time = Ok t)
  /\ (~ (exists f, In (Some f) ch) -> construct ch l t = Err TypeError).
Proof. exact (fun K V F => @construct_iff K V F). Qed.
Print Assumptions C197_construct_partial.

Example C197_construct_case :
  construct (K := nat) (V := nat) (F := nat) [] SNone SNone = Err TypeError
  /\ construct (K := nat) (V := nat) (F := nat) [None; None] (SNum 1) (SParam 3) = Err TypeError
  /\ exists o, construct (K := nat) (V := nat) [None; Some (fun _ k => Ok k)] (SNum 1) (SParam 3) = Ok o /\ getattr o Length = Ok (SNum 1) /\ getattr o Time = Ok (SParam 3).
Proof.
  split; [|split].
  - apply C197_construct_partial. intros [f []].
  - apply C197_construct_partial. intros [f [H|[H|[]]]]; discriminate.
  - apply C197_construct_partial. eexists. right. left. reflexivity.
Qed.

(** C197: after any assignments to the scales, one more is refused exactly if it is a number
    and the scale was made trainable at some time; otherwise the scale has the new value and
    the other one its old one.  The trainable scales are those the optimiser sees. *)
Theorem C197_scales_partial : forall (K V F : Type) (ch : list (icls K V F)) l t o as_ n v, construct ch l t = Ok o ->
  let o1 := fold_left (@assign F) as_ o in
  let rejected := (exists x, v = SNum x) /\ exists i, In (n, SParam i) ((Length, l) :: (Time, t) :: as_) in
  (rejected /\ setattr o1 n v = Err TypeError
   \/ ~ rejected /\ exists o2, setattr o1 n v = Ok o2 /\ getattr o2 n = Ok v /\ forall m, m <> n -> getattr o2 m = getattr o1 m)
  /\ forall i, trains o1 i = true <-> exists m, getattr o1 m = Ok (SParam i).
Proof. exact (fun K V F => @scales K V F). Qed.
Print Assumptions C197_scales_partial.

(** A length scale made trainable and then given up cannot be made a number again. *)
Example C197_scales_case :
  let ch : list (icls nat nat nat) := [Some (fun _ k => Ok k)] in
  exists o, construct ch (SNum 1) SNone = Ok o
  /\ setattr (fold_left (@assign nat) [(Length, SParam 4); (Length, SNone)] o) Length (SNum 2) = Err TypeError
  /\ trains (fold_left (@assign nat) [(Length, SParam 4)] o) 4 = true.
Proof.
  cbn zeta. set (ch := [Some (fun _ k => Ok k)] : list (icls nat nat nat)).
  destruct (proj1 (C197_construct_partial nat nat nat ch (SNum 1) SNone)) as (o & E & _); [eexists; left; reflexivity|].
  exists o. split; [exact E|]. split.
  - destruct (proj1 (C197_scales_partial nat nat nat ch _ _ _ [(Length, SParam 4); (Length, SNone)] Length (SNum 2) E)) as [[_ H]|[H _]]; [exact H|].
    exfalso. apply H. split; [eexists; reflexivity|]. exists 4. cbn. tauto.
  - apply (proj2 (C197_scales_partial nat nat nat ch _ _ _ [(Length, SParam 4)] Length (SNum 2) E)). exists Length.
    cbn [fold_left]. unfold assign. cbn [fst snd setattr]. reflexivity.
Qed.
