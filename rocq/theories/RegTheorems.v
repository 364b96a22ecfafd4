(** Which numbers of a network take part in a fit (C164). *)

From Coq Require Import Reals List Arith ZArith Lia Lra.
From Verif Require Import Prelude SpectraModel RegModel RegSpec RegProofs.
Import ListNotations.
Open Scope R_scope.

(** C164: the listed parameters are the weights, layer by layer, and the exponent if it is
    learned, each once.  Missing: the parameters of the activations, none of which is listed. *)
Theorem C164_listed_partial : forall relu n sz act learn nu nxt winit xi h t h',
  tau_new relu n sz act learn nu nxt winit xi h = Ok (t, h') -> exist_before relu act nxt ->
  parameters (net_obj t) = nt_weights t ++ nu_param t
  /\ NoDup (parameters (net_obj t))
  /\ (forall i, In i (parameters (net_obj t)) -> trainable t i)
  /\ (forall i, In i (nt_weights t ++ nu_param t) -> (nxt <= i)%nat)
  /\ (length (nu_param t) = if learn then 1 else 0)%nat
  /\ (forall a i, In a (nt_acts t) -> In i (am_params a) -> ~ In i (parameters (net_obj t))).
Proof. exact listed. Qed.
Print Assumptions C164_listed_partial.

(** C164: the numbers counted are those of the layers and the exponent. *)
Theorem C164_counted_partial : forall relu n sz act learn nu nxt winit xi h t h' c,
  tau_new relu n sz act learn nu nxt winit xi h = Ok (t, h') -> exist_before relu act nxt ->
  taunet_init relu n sz act learn nu = Ok c ->
  (forall j l, nth_error (tc_layers c) j = Some l -> has_shape (snd l) (fst l) (winit j)) ->
  net_numel t h' = num_params c.
Proof. exact counted. Qed.
Print Assumptions C164_counted_partial.

(** C164: construction adds noise to the initial weights and to a learned exponent, entry by
    entry, and changes nothing else, in particular not the modules passed as activations. *)
Theorem C164_built : forall relu n sz act learn nu nxt winit xi h t h',
  tau_new relu n sz act learn nu nxt winit xi h = Ok (t, h') -> exist_before relu act nxt ->
  (forall i, ~ In i (parameters (net_obj t)) -> h' i = h i)
  /\ (forall a i, given relu act a -> In i (am_params a) -> h' i = h i)
  /\ (forall j i, nth_error (nt_weights t) j = Some i -> map (@length R) (h' i) = map (@length R) (winit j)
        /\ forall r c, (r < length (winit j))%nat -> (c < length (nth r (winit j) []))%nat ->
           nth c (nth r (h' i) []) 0 = nth c (nth r (winit j) []) 0 + xi i r c * (1 / 10^9))
  /\ (if learn then exists i, nt_nu t = inl i /\ h' i = [[nu + xi i 0%nat 0%nat * (1 / 10^9)]] else nt_nu t = inr nu).
Proof. exact built. Qed.
Print Assumptions C164_built.

(** C164: weights and exponent can be brought to any values by a fit. *)
Theorem C164_reachable_partial : forall relu n sz act learn nu nxt winit xi h t h',
  tau_new relu n sz act learn nu nxt winit xi h = Ok (t, h') -> exist_before relu act nxt ->
  forall target, exists us, forall i, In i (nt_weights t ++ nu_param t) -> fit t us h' i = target i.
Proof. exact reachable. Qed.
Print Assumptions C164_reachable_partial.

(** C164: the parameters of an activation keep, through every fit, the values they had before
    the network was built. *)
Theorem C164_frozen : forall relu n sz act learn nu nxt winit xi h t h',
  tau_new relu n sz act learn nu nxt winit xi h = Ok (t, h') -> exist_before relu act nxt ->
  forall us a i, In a (nt_acts t) -> In i (am_params a) -> fit t us h' i = h i.
Proof. exact frozen. Qed.
Print Assumptions C164_frozen.

(** C164: without parameters in the activations, the parameter vector determines the lifetime. *)
Theorem C164_determined_partial : forall relu n sz act learn nu nxt winit xi h t h',
  tau_new relu n sz act learn nu nxt winit xi h = Ok (t, h') -> exist_before relu act nxt ->
  (forall a, given relu act a -> am_params a = []) ->
  forall g g' k, same_sizes t g g' -> net_vector t g = net_vector t g' -> net_forward t g k = net_forward t g' k.
Proof. exact determined. Qed.
Print Assumptions C164_determined_partial.

(** C164 fails: a network whose lifetime depends on the slope of its PReLU; the slope is not in
    the parameter vector, not counted (six numbers are weights), and no fit changes it. *)
Theorem C164_activation_refuted : exists relu n sz act learn nu nxt winit xi (h : R -> heap) t (h' : R -> heap) i k,
  exist_before relu act nxt /\ trainable t i
  /\ (forall s, tau_new relu n sz act learn nu nxt winit xi (h s) = Ok (t, h' s) /\ h' s i = [[s]])
  /\ (forall s s', net_vector t (h' s) = net_vector t (h' s') /\ net_numel t (h' s) = 6%nat)
  /\ (forall s, s < 1 -> net_forward t (h' s) k = Ok (Rpower (1 - s) (-2/3)))
  /\ (forall s us, fit t us (h' s) i = [[s]]).
Proof. exact activation_refuted. Qed.
Print Assumptions C164_activation_refuted.

(** Two hidden layers of ten units, PReLU shared by both, learned exponent. *)
Example C164_case : exists t h',
  tau_new relu_mod (IsInt 2) (SizeInt 10) (ActOne (prelu 4)) true (-1/3) 7
    (fun j => match j with O => repeat [1;1;1] 10 | 1%nat => repeat (repeat 1 10) 10 | _ => repeat (repeat 1 10) 3 end)
    (fun _ _ _ => 0) (fun _ => [[1/4]]) = Ok (t, h')
  /\ exist_before relu_mod (ActOne (prelu 4)) 7
  /\ parameters (net_obj t) = [7; 8; 9; 10]%nat /\ net_numel t h' = 161%nat
  /\ (forall us, fit t us h' 4%nat = [[1/4]])
  /\ (forall i, In i [7; 8; 9; 10]%nat -> exists us, fit t us h' i = [[5]]).
Proof.
  assert (Hb : exist_before relu_mod (ActOne (prelu 4)) 7).
  { intros a i [->|[E|(l & E & _)]] Hi; [destruct Hi | | discriminate]. inversion E; subst a. destruct Hi as [<-|[]]. lia. }
  match goal with |- context [?x = Ok _] => destruct x as [[t h']|e] eqn:H; [|discriminate H] end.
  exists t, h'.
  pose proof (C164_frozen _ _ _ _ _ _ _ _ _ _ _ _ H Hb) as Hf.
  pose proof (C164_reachable_partial _ _ _ _ _ _ _ _ _ _ _ _ H Hb) as Hr.
  split; [reflexivity|]. split; [exact Hb|].
  split; [injection H as <- <-; reflexivity|]. split.
  { rewrite (C164_counted_partial _ _ _ _ _ _ _ _ _ _ _ _
      (TauCfg [10; 10]%nat (layer_shapes [10; 10]%nat) [prelu 4; prelu 4] true (-1/3)) H Hb); [reflexivity | reflexivity |].
    intros [|[|[|[|j]]]] l Hl; cbn in Hl; try discriminate; injection Hl as <-; split; try reflexivity;
      repeat constructor. }
  split.
  - intros us. apply (Hf us (prelu 4)); [injection H as <- <- | ]; left; reflexivity.
  - intros i Hi. destruct (Hr (fun _ => [[5]])) as [us Hus]. exists us. apply Hus.
    injection H as <- <-. exact Hi.
Qed.

(** ReLU activations: the vector determines the lifetime. *)
Example C164_relu_case : exists t h',
  tau_new relu_mod (IsInt 1) (SizeInt 2) ActNone true 0 0 (fun j => match j with O => [[1;2;3];[4;5;6]] | _ => [[1;2];[3;4];[5;6]] end)
    (fun _ _ _ => 1) (fun _ => []) = Ok (t, h')
  /\ (forall g g' k, same_sizes t g g' -> net_vector t g = net_vector t g' -> net_forward t g k = net_forward t g' k)
  /\ same_sizes t h' (fun i => match i with O => [[1;2;3];[4;5;6]] | 1%nat => [[1;2];[3;4];[5;6]] | _ => [[0]] end)
  /\ h' 2%nat = [[0 + 1 * (1 / 10^9)]].
Proof.
  assert (Hb : exist_before relu_mod ActNone 0).
  { intros a i [->|[E|(l & E & _)]] Hi; [destruct Hi | discriminate | discriminate]. }
  match goal with |- context [?x = Ok _] => destruct x as [[t h']|e] eqn:H; [|discriminate H] end.
  exists t, h'. split; [reflexivity|]. split; [|split].
  - apply (C164_determined_partial _ _ _ _ _ _ _ _ _ _ _ _ H Hb).
    intros a [->|[E|(l & E & _)]]; [reflexivity | discriminate | discriminate].
  - injection H as <- <-. intros i Hi. cbn in Hi. destruct Hi as [<-|[<-|[<-|[]]]]; reflexivity.
  - injection H as <- <-. reflexivity.
Qed.
