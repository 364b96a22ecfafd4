(** Proofs about the parameters of a network (C164). *)

From Coq Require Import Reals List Arith ZArith Bool Lia Lra.
From Verif Require Import Prelude SpectraModel SpectraSpec SpectraProofs RegModel RegSpec.
Import ListNotations.
Open Scope R_scope.

Lemma existsb_In : forall i l, existsb (Nat.eqb i) l = true <-> In i l.
Proof.
  intros i l. rewrite existsb_exists. split.
  - intros (x & Hx & He). apply Nat.eqb_eq in He. subst x. exact Hx.
  - intros Hi. exists i. split; [exact Hi | apply Nat.eqb_refl].
Qed.

Lemma firsts_nodup : forall l seen, NoDup l -> (forall i, In i l -> ~ In i seen) -> firsts seen l = l.
Proof.
  induction l as [|a l IH]; intros seen Hn Hs; [reflexivity|].
  cbn. inversion Hn as [|x y Ha Hl]; subst.
  destruct (existsb (Nat.eqb a) seen) eqn:He.
  - exfalso. apply existsb_In in He. apply (Hs a); [left; reflexivity | exact He].
  - f_equal. apply IH; [exact Hl|]. intros i Hi [E|Hc].
    + subst. contradiction.
    + apply (Hs i); [right; exact Hi | exact Hc].
Qed.

Lemma visit_weights : forall ws, flat_map own (map (fun w => OModule [OParam w]) ws) = []
  /\ flat_map visit (map (fun w => OModule [OParam w]) ws) = ws.
Proof.
  induction ws as [|w ws [I1 I2]]; [split; reflexivity|]. cbn. split; [exact I1|]. f_equal. exact I2.
Qed.

Lemma visit_net : forall t, visit (net_obj t) = nt_weights t ++ nu_param t.
Proof.
  intros t. unfold net_obj, nu_param. destruct (visit_weights (nt_weights t)) as [V1 V2].
  destruct (nt_nu t) as [i|x]; cbn; rewrite V1, V2; cbn; rewrite ?app_nil_r; reflexivity.
Qed.

Lemma new_net : forall relu n sz act learn nu nxt winit xi h t h',
  tau_new relu n sz act learn nu nxt winit xi h = Ok (t, h') ->
  exists c, taunet_init relu n sz act learn nu = Ok c /\ tc_learn_nu c = learn /\ tc_nu c = nu
    /\ t = Net (tc_acts c) (seq nxt (length (tc_layers c)))
             (if learn then inl (nxt + length (tc_layers c))%nat else inr nu)
    /\ h' = noise_loop xi (parameters (net_obj t))
        (fun i => if (nxt <=? i)%nat && (i <? nxt + length (tc_layers c))%nat then winit (i - nxt)%nat
                  else if (i =? nxt + length (tc_layers c))%nat && learn then [[nu]] else h i).
Proof.
  intros relu n sz act learn nu nxt winit xi h t h' H. unfold tau_new in H.
  destruct (taunet_init relu n sz act learn nu) as [c|e] eqn:Hc; [|discriminate].
  cbn in H. exists c.
  assert (E : tc_learn_nu c = learn /\ tc_nu c = nu).
  { clear H. unfold taunet_init in Hc. destruct (check_n_layers n) as [m|]; [|discriminate]. cbn in Hc.
    destruct (check_sizes m sz); [|discriminate]. cbn in Hc.
    destruct (check_activations relu m act); [|discriminate]. cbn in Hc. inversion Hc. split; reflexivity. }
  destruct E as [E1 E2]. rewrite E1, E2 in H. inversion H; subst t h'. repeat split; assumption.
Qed.

Lemma net_listed : forall t, NoDup (nt_weights t ++ nu_param t) -> parameters (net_obj t) = nt_weights t ++ nu_param t.
Proof. intros t Hn. unfold parameters. rewrite visit_net. apply firsts_nodup; [exact Hn | intros i _ []]. Qed.

Lemma seq_snoc_nodup : forall a n (b : bool), NoDup (seq a n ++ (if b then [(a + n)%nat] else [])).
Proof.
  intros a n [|]; [|rewrite app_nil_r; apply seq_NoDup].
  replace (seq a n ++ [(a + n)%nat]) with (seq a (S n)); [apply seq_NoDup | rewrite seq_S; reflexivity].
Qed.

Lemma given_acts : forall relu n sz act learn nu c a, taunet_init relu n sz act learn nu = Ok c ->
  In a (tc_acts c) -> given relu act a.
Proof.
  intros relu n sz act learn nu c a H Ha. unfold taunet_init in H.
  destruct (check_n_layers n) as [m|]; [|discriminate]. cbn in H.
  destruct (check_sizes m sz) as [s|]; [|discriminate]. cbn in H.
  destruct (check_activations relu m act) as [l|] eqn:Hl; [|discriminate]. cbn in H.
  inversion H; subst c. cbn in Ha. clear H. unfold given, check_activations in *.
  destruct act as [|b|es|]; [| | |discriminate].
  - inversion Hl; subst l. apply repeat_spec in Ha. left. exact Ha.
  - inversion Hl; subst l. apply repeat_spec in Ha. right. left. subst a. reflexivity.
  - right. right. exists es. split; [reflexivity|].
    destruct (negb (length es =? m)%nat); [discriminate|].
    revert l Hl Ha. induction es as [|e es IH]; intros l Hl Ha; cbn in Hl.
    + inversion Hl; subst l. destruct Ha.
    + destruct e as [b|]; [|discriminate]. destruct (check_act_elts es) as [r|]; [|discriminate]. cbn in Hl.
      inversion Hl; subst l. destruct Ha as [<-|Ha]; [left; reflexivity | right; apply (IH r); [reflexivity | exact Ha]].
Qed.

(** What a new network lists. *)
Lemma listed : forall relu n sz act learn nu nxt winit xi h t h',
  tau_new relu n sz act learn nu nxt winit xi h = Ok (t, h') -> exist_before relu act nxt ->
  parameters (net_obj t) = nt_weights t ++ nu_param t
  /\ NoDup (parameters (net_obj t))
  /\ (forall i, In i (parameters (net_obj t)) -> trainable t i)
  /\ (forall i, In i (nt_weights t ++ nu_param t) -> (nxt <= i)%nat)
  /\ (length (nu_param t) = if learn then 1 else 0)%nat
  /\ (forall a i, In a (nt_acts t) -> In i (am_params a) -> ~ In i (parameters (net_obj t))).
Proof.
  intros relu n sz act learn nu nxt winit xi h t h' H Hb.
  destruct (new_net _ _ _ _ _ _ _ _ _ _ _ _ H) as (c & Hc & _ & _ & Ht & _).
  assert (Hn : nt_weights t ++ nu_param t = seq nxt (length (tc_layers c)) ++ (if learn then [(nxt + length (tc_layers c))%nat] else [])).
  { subst t. unfold nu_param. cbn. destruct learn; reflexivity. }
  assert (Hnd : NoDup (nt_weights t ++ nu_param t)) by (rewrite Hn; apply seq_snoc_nodup).
  pose proof (net_listed t Hnd) as Hp.
  assert (Hge : forall i, In i (nt_weights t ++ nu_param t) -> (nxt <= i)%nat).
  { intros i. rewrite Hn, in_app_iff, in_seq. destruct learn; cbn; intuition lia. }
  rewrite Hp. repeat split; auto.
  - intros i Hi. apply in_app_iff in Hi. destruct Hi as [Hi|Hi]; [left | right; left]; exact Hi.
  - subst t. unfold nu_param. cbn. destruct learn; reflexivity.
  - intros a i Ha Hi Hin. specialize (Hge i Hin). subst t. cbn in Ha.
    pose proof (Hb a i (given_acts _ _ _ _ _ _ _ _ Hc Ha) Hi). lia.
Qed.

Lemma combine_seq_nth : forall (A : Type) (l : list A) s j d, (j < length l)%nat ->
  nth j (combine (seq s (length l)) l) (0%nat, d) = ((s + j)%nat, nth j l d).
Proof.
  intros A l. induction l as [|a l IH]; intros s j d Hj; [cbn in Hj; lia|].
  cbn. destruct j as [|j]; [rewrite Nat.add_0_r; reflexivity|].
  cbn in Hj. rewrite IH by lia. f_equal. lia.
Qed.

Lemma noise_entry : forall xi W r c, (r < length W)%nat -> (c < length (nth r W []))%nat ->
  nth c (nth r (add_noise xi W) []) 0 = nth c (nth r W []) 0 + xi r c * (1 / 10^9).
Proof.
  intros xi W r c Hr Hc. unfold add_noise.
  set (f := fun rr : nat * list R => _).
  assert (Hl : (r < length (combine (seq 0 (length W)) W))%nat) by (rewrite combine_length, seq_length; lia).
  rewrite (nth_indep _ [] (f (0%nat, []))) by (rewrite map_length; exact Hl).
  rewrite map_nth, combine_seq_nth by exact Hr. unfold f. cbn [fst snd]. rewrite Nat.add_0_l.
  set (g := fun cx : nat * R => _).
  assert (Hl2 : (c < length (combine (seq 0 (length (nth r W []))) (nth r W [])))%nat) by (rewrite combine_length, seq_length; lia).
  rewrite (nth_indep _ 0 (g (0%nat, 0))) by (rewrite map_length; exact Hl2).
  rewrite map_nth, combine_seq_nth by exact Hc. unfold g. cbn [fst snd]. rewrite Nat.add_0_l. reflexivity.
Qed.

Lemma map_snd_combine_len : forall (A : Type) (f : nat * list A -> nat) (l : list (list A)) s,
  (forall rr, f rr = length (snd rr)) -> map f (combine (seq s (length l)) l) = map (@length A) l.
Proof.
  intros A f l. induction l as [|a l IH]; intros s Hf; [reflexivity|]. cbn. rewrite Hf, IH by exact Hf. reflexivity.
Qed.

Lemma noise_sizes : forall xi W, map (@length R) (add_noise xi W) = map (@length R) W.
Proof.
  intros xi W. unfold add_noise. rewrite map_map. apply map_snd_combine_len.
  intros rr. rewrite map_length, combine_length, seq_length. apply Nat.min_id.
Qed.

(** The values after construction. *)
Lemma built : forall relu n sz act learn nu nxt winit xi h t h',
  tau_new relu n sz act learn nu nxt winit xi h = Ok (t, h') -> exist_before relu act nxt ->
  (forall i, ~ In i (parameters (net_obj t)) -> h' i = h i)
  /\ (forall a i, given relu act a -> In i (am_params a) -> h' i = h i)
  /\ (forall j i, nth_error (nt_weights t) j = Some i -> map (@length R) (h' i) = map (@length R) (winit j)
        /\ forall r c, (r < length (winit j))%nat -> (c < length (nth r (winit j) []))%nat ->
           nth c (nth r (h' i) []) 0 = nth c (nth r (winit j) []) 0 + xi i r c * (1 / 10^9))
  /\ (if learn then exists i, nt_nu t = inl i /\ h' i = [[nu + xi i 0%nat 0%nat * (1 / 10^9)]] else nt_nu t = inr nu).
Proof.
  intros relu n sz act learn nu nxt winit xi h t h' H Hb.
  destruct (listed _ _ _ _ _ _ _ _ _ _ _ _ H Hb) as (Hp & Hnd & _ & Hge & _ & _).
  destruct (new_net _ _ _ _ _ _ _ _ _ _ _ _ H) as (c & Hc & _ & _ & Ht & Hh).
  set (m := length (tc_layers c)) in *.
  assert (Hout : forall i, ~ In i (parameters (net_obj t)) -> h' i = h i).
  { intros i Hi. rewrite Hh. unfold noise_loop.
    destruct (existsb (Nat.eqb i) (parameters (net_obj t))) eqn:He; [apply existsb_In in He; contradiction|].
    rewrite Hp in Hi.
    destruct ((nxt <=? i)%nat && (i <? nxt + m)%nat) eqn:E1.
    - exfalso. apply Hi, in_or_app. left. rewrite Ht. cbn. apply in_seq.
      apply andb_true_iff in E1. destruct E1 as [A B]. apply Nat.leb_le in A. apply Nat.ltb_lt in B. lia.
    - destruct ((i =? nxt + m)%nat && learn) eqn:E2; [|reflexivity].
      exfalso. apply Hi, in_or_app. right. rewrite Ht. unfold nu_param. cbn.
      apply andb_true_iff in E2. destruct E2 as [A B]. rewrite B. apply Nat.eqb_eq in A. left. lia. }
  split; [exact Hout|]. split; [|split].
  - intros a i Ha Hi. apply Hout. rewrite Hp. intros Hin. specialize (Hge i Hin). specialize (Hb a i Ha Hi). lia.
  - intros j i Hj. assert (Hjm : (j < m)%nat).
    { assert (nth_error (nt_weights t) j <> None) by congruence. apply nth_error_Some in H0. rewrite Ht in H0. cbn in H0.
      rewrite seq_length in H0. exact H0. }
    assert (Hi : i = (nxt + j)%nat).
    { rewrite Ht in Hj. cbn in Hj. apply (nth_error_nth _ _ 0%nat) in Hj. rewrite seq_nth in Hj by exact Hjm. congruence. }
    assert (Hin : In i (parameters (net_obj t))).
    { rewrite Hp. apply in_or_app. left. apply nth_error_In with j. exact Hj. }
    assert (Hval : h' i = add_noise (xi i) (winit j)).
    { rewrite Hh. unfold noise_loop. rewrite (proj2 (existsb_In _ _) Hin).
      assert (E1 : ((nxt <=? i)%nat && (i <? nxt + m)%nat) = true).
      { apply andb_true_iff. split; [apply Nat.leb_le | apply Nat.ltb_lt]; lia. }
      rewrite E1. replace (i - nxt)%nat with j by lia. reflexivity. }
    rewrite Hval. split; [apply noise_sizes|]. intros r k Hr Hk. apply noise_entry; assumption.
  - destruct learn; [|rewrite Ht; reflexivity].
    exists (nxt + m)%nat. split; [rewrite Ht; reflexivity|].
    assert (Hin : In (nxt + m)%nat (parameters (net_obj t))).
    { rewrite Hp. apply in_or_app. right. rewrite Ht. left. reflexivity. }
    rewrite Hh. unfold noise_loop. rewrite (proj2 (existsb_In _ _) Hin).
    assert (E1 : (nxt + m <? nxt + m)%nat = false) by (apply Nat.ltb_ge; lia).
    rewrite E1, andb_false_r, Nat.eqb_refl. reflexivity.
Qed.

Lemma fit_out : forall t us h i, ~ In i (parameters (net_obj t)) -> fit t us h i = h i.
Proof.
  intros t us. unfold fit. induction us as [|u us IH]; intros h i Hi; [reflexivity|].
  cbn [fold_left]. rewrite IH by exact Hi. unfold update.
  destruct (existsb (Nat.eqb i) (parameters (net_obj t))) eqn:He; [apply existsb_In in He; contradiction | reflexivity].
Qed.

(** No fit changes the parameters of the activations. *)
Lemma frozen : forall relu n sz act learn nu nxt winit xi h t h',
  tau_new relu n sz act learn nu nxt winit xi h = Ok (t, h') -> exist_before relu act nxt ->
  forall us a i, In a (nt_acts t) -> In i (am_params a) -> fit t us h' i = h i.
Proof.
  intros relu n sz act learn nu nxt winit xi h t h' H Hb us a i Ha Hi.
  destruct (listed _ _ _ _ _ _ _ _ _ _ _ _ H Hb) as (_ & _ & _ & _ & _ & Hl).
  destruct (built _ _ _ _ _ _ _ _ _ _ _ _ H Hb) as (Ho & _).
  rewrite fit_out by (apply (Hl a); assumption). apply Ho. apply (Hl a); assumption.
Qed.

(** Every listed parameter can be given any value. *)
Lemma reachable : forall relu n sz act learn nu nxt winit xi h t h',
  tau_new relu n sz act learn nu nxt winit xi h = Ok (t, h') -> exist_before relu act nxt ->
  forall target, exists us, forall i, In i (nt_weights t ++ nu_param t) -> fit t us h' i = target i.
Proof.
  intros relu n sz act learn nu nxt winit xi h t h' H Hb target.
  destruct (listed _ _ _ _ _ _ _ _ _ _ _ _ H Hb) as (Hp & _).
  exists [fun _ i => target i]. intros i Hi. unfold fit. cbn [fold_left]. unfold update. rewrite Hp.
  rewrite (proj2 (existsb_In _ _) Hi). reflexivity.
Qed.

Lemma concat_inj : forall (A : Type) (l l' : list (list A)), map (@length A) l = map (@length A) l' -> concat l = concat l' -> l = l'.
Proof.
  intros A l. induction l as [|a l IH]; intros [|b l'] Hm Hc; try discriminate; [reflexivity|].
  cbn in Hm, Hc. injection Hm as Hl Hm. 
  assert (E : a = b /\ concat l = concat l').
  { clear - Hl Hc. revert b Hl Hc. induction a as [|x a IH]; intros [|y b] Hl Hc; try discriminate; [split; [reflexivity|exact Hc]|].
    cbn in Hl, Hc. injection Hc as -> Hc. destruct (IH b) as [-> E]; [lia | exact Hc | split; [reflexivity | exact E]]. }
  destruct E as [-> E]. f_equal. apply IH; assumption.
Qed.

Lemma concat_len : forall (A : Type) (l l' : list (list A)), map (@length A) l = map (@length A) l' -> length (concat l) = length (concat l').
Proof.
  intros A l. induction l as [|a l IH]; intros [|b l'] Hm; try discriminate; [reflexivity|].
  cbn in Hm. injection Hm as Hl Hm. cbn. rewrite !app_length, Hl, (IH l' Hm). reflexivity.
Qed.

Lemma vector_inj : forall ids (h h' : heap), (forall i, In i ids -> map (@length R) (h i) = map (@length R) (h' i)) ->
  flat_map (fun i => concat (h i)) ids = flat_map (fun i => concat (h' i)) ids -> forall i, In i ids -> h i = h' i.
Proof.
  intros ids h h'. induction ids as [|a ids IH]; intros Hs Hv i Hi; [destruct Hi|].
  cbn in Hv. assert (Hla : length (concat (h a)) = length (concat (h' a))) by (apply concat_len, Hs; left; reflexivity).
  assert (E : concat (h a) = concat (h' a) /\ flat_map (fun i => concat (h i)) ids = flat_map (fun i => concat (h' i)) ids).
  { revert Hla Hv. generalize (concat (h a)), (concat (h' a)), (flat_map (fun i => concat (h i)) ids), (flat_map (fun i => concat (h' i)) ids).
    induction l as [|x l IHl]; intros [|y l'] r r' Hl Hv; try discriminate; [split; [reflexivity|exact Hv]|].
    cbn in Hl, Hv. injection Hv as -> Hv. destruct (IHl l' r r') as [-> E]; [lia | exact Hv | split; [reflexivity|exact E]]. }
  destruct E as [E1 E2]. destruct Hi as [<-|Hi].
  - apply concat_inj; [apply Hs; left; reflexivity | exact E1].
  - apply IH; [intros j Hj; apply Hs; right; exact Hj | exact E2 | exact Hi].
Qed.

(** The vector determines the lifetime when no activation has parameters. *)
Lemma determined : forall relu n sz act learn nu nxt winit xi h t h',
  tau_new relu n sz act learn nu nxt winit xi h = Ok (t, h') -> exist_before relu act nxt ->
  (forall a, given relu act a -> am_params a = []) ->
  forall g g' k, same_sizes t g g' -> net_vector t g = net_vector t g' -> net_forward t g k = net_forward t g' k.
Proof.
  intros relu n sz act learn nu nxt winit xi h t h' H Hb Hna g g' k Hs Hv.
  destruct (listed _ _ _ _ _ _ _ _ _ _ _ _ H Hb) as (Hp & _).
  destruct (new_net _ _ _ _ _ _ _ _ _ _ _ _ H) as (c & Hc & _ & _ & Ht & _).
  pose proof (vector_inj _ _ _ Hs Hv) as He. rewrite Hp in He. unfold net_forward.
  rewrite (map_ext_in g g' (nt_weights t)) by (intros i Hi; apply He, in_or_app; left; exact Hi).
  rewrite (map_ext_in (fun a => am_fun a (map g (am_params a))) (fun a => am_fun a (map g' (am_params a)))).
  - destruct (nt_nu t) as [i|x] eqn:En; [|reflexivity].
    rewrite (He i); [reflexivity|]. apply in_or_app. right. unfold nu_param. rewrite En. left. reflexivity.
  - intros a Ha. rewrite (Hna a); [reflexivity|]. subst t. apply (given_acts _ _ _ _ _ _ _ _ Hc Ha).
Qed.

(** A network with one unit and a PReLU of slope [s]. *)
Definition wit_w (j : nat) : weights := match j with O => [[-1; 0; 0]] | _ => [[1]; [0]; [0]] end.
Definition wit_h (s : R) : heap := fun i => match i with O => [[s]] | _ => [] end.
Definition wit_net : tau_net := Net [prelu 0] [1%nat; 2%nat] (inr 0).
Definition zero_noise : nat -> nat -> nat -> R := fun _ _ _ => 0.
Definition wit_built (s : R) : heap :=
  fun i => match i with O => [[s]] | 1%nat => [[-1; 0; 0]] | 2%nat => [[1]; [0]; [0]] | _ => [] end.

Lemma wit_new : forall s h', tau_new relu_mod (IsInt 1) (SizeInt 1) (ActOne (prelu 0)) false 0 1 wit_w zero_noise (wit_h s) = Ok (wit_net, h')
  -> forall i, h' i = wit_built s i.
Proof.
  intros s h' H. unfold tau_new in H. cbn in H. inversion H as [Hh]. clear H Hh. intros i. unfold noise_loop.
  destruct i as [|[|[|i]]]; cbn; try reflexivity.
  - unfold zero_noise, add_noise. cbn. rewrite !Rmult_0_l, !Rplus_0_r. reflexivity.
  - unfold zero_noise, add_noise. cbn. rewrite !Rmult_0_l, !Rplus_0_r. reflexivity.
  - rewrite andb_false_r. reflexivity.
Qed.

Lemma wit_new_ok : forall s, exists h', tau_new relu_mod (IsInt 1) (SizeInt 1) (ActOne (prelu 0)) false 0 1 wit_w zero_noise (wit_h s) = Ok (wit_net, h').
Proof. intros s. eexists. reflexivity. Qed.

Lemma forward_ext : forall t g g' k, (forall i, g i = g' i) -> net_forward t g k = net_forward t g' k.
Proof.
  intros t g g' k He. unfold net_forward. rewrite (map_ext g g' He).
  rewrite (map_ext (fun a => am_fun a (map g (am_params a))) (fun a => am_fun a (map g' (am_params a)))).
  - destruct (nt_nu t); rewrite ?He; reflexivity.
  - intros a. rewrite (map_ext g g' He). reflexivity.
Qed.

Lemma wit_forward : forall s, net_forward wit_net (wit_built s) [1; 0; 0] = Ok (Rpower (Rabs (1 - s)) (-2/3)).
Proof.
  intros s. unfold net_forward, taunet_forward, mlp_forward. cbn. rewrite Rabs_R0, Rabs_R1.
  f_equal. unfold rational, vnorm. cbn.
  destruct (Rle_dec 0 (-1 * 1 + (0 * 0 + (0 * 0 + 0)))) as [Hc|_]; [exfalso; lra|].
  match goal with |- context [Rabs (sqrt ?x)] => replace x with ((1 - s)²) by (unfold Rsqr; ring) end.
  rewrite sqrt_Rsqr_abs, Rabs_Rabsolu. replace (0 - 2/3) with (-2/3) by lra.
  replace (0 / 2) with 0 by lra. rewrite Rpower_O; [field | ].
  pose proof (Rabs_pos (1 - s)). nra.
Qed.

(** A parameter of an activation matters and is never fitted nor part of the vector. *)
Lemma activation_refuted : exists relu n sz act learn nu nxt winit xi (h : R -> heap) t (h' : R -> heap) i k,
  exist_before relu act nxt /\ trainable t i
  /\ (forall s, tau_new relu n sz act learn nu nxt winit xi (h s) = Ok (t, h' s) /\ h' s i = [[s]])
  /\ (forall s s', net_vector t (h' s) = net_vector t (h' s') /\ net_numel t (h' s) = 6%nat)
  /\ (forall s, s < 1 -> net_forward t (h' s) k = Ok (Rpower (1 - s) (-2/3)))
  /\ (forall s us, fit t us (h' s) i = [[s]]).
Proof.
  exists relu_mod, (IsInt 1), (SizeInt 1), (ActOne (prelu 0)), false, 0, 1%nat, wit_w, zero_noise, wit_h, wit_net.
  exists (fun s => noise_loop zero_noise [1%nat; 2%nat]
     (fun i => if (1 <=? i)%nat && (i <? 3)%nat then wit_w (i - 1)%nat else if (i =? 3)%nat && false then [[0]] else wit_h s i)).
  exists 0%nat, [1; 0; 0].
  assert (Hb : exist_before relu_mod (ActOne (prelu 0)) 1).
  { intros a i [->|[E|(l & E & _)]] Hi; [destruct Hi | | discriminate]. inversion E; subst a. destruct Hi as [<-|[]]. apply Nat.lt_0_1. }
  assert (Hn : forall s, tau_new relu_mod (IsInt 1) (SizeInt 1) (ActOne (prelu 0)) false 0 1 wit_w zero_noise (wit_h s)
     = Ok (wit_net, noise_loop zero_noise [1%nat; 2%nat]
     (fun i => if (1 <=? i)%nat && (i <? 3)%nat then wit_w (i - 1)%nat else if (i =? 3)%nat && false then [[0]] else wit_h s i))) by reflexivity.
  split; [exact Hb|]. split.
  { right. right. exists (prelu 0). split; left; reflexivity. }
  split; [intros s; split; [apply Hn | reflexivity]|].
  split; [intros s s'; split; reflexivity|].
  split.
  - intros s Hs. rewrite (forward_ext _ _ _ _ (wit_new s _ (Hn s))), wit_forward.
    rewrite Rabs_pos_eq by lra. reflexivity.
  - intros s us. rewrite (frozen _ _ _ _ _ _ _ _ _ _ _ _ (Hn s) Hb us (prelu 0) 0%nat); [reflexivity | left; reflexivity | left; reflexivity].
Qed.

Lemma concat_sum : forall (A : Type) (l : list (list A)), length (concat l) = fold_right plus 0%nat (map (@length A) l).
Proof. intros A l. induction l as [|a l IH]; [reflexivity|]. cbn. rewrite app_length, IH. reflexivity. Qed.

Lemma shape_len : forall r c W, has_shape r c W -> length (concat W) = (c * r)%nat.
Proof.
  intros r c W [Hr Hc]. rewrite concat_sum. subst r. induction W as [|x W IH]; [cbn; lia|].
  inversion Hc; subst. cbn. rewrite IH by assumption. lia.
Qed.

Lemma layers_len : forall ls a (g : nat -> weights),
  (forall j l, nth_error ls j = Some l -> has_shape (snd l) (fst l) (g (a + j)%nat)) ->
  length (flat_map (fun i => concat (g i)) (seq a (length ls)))
  = fold_right (fun p acc => (fst p * snd p + acc)%nat) 0%nat ls.
Proof.
  induction ls as [|l ls IH]; intros a g Hs; [reflexivity|]. cbn. rewrite app_length. f_equal.
  - apply shape_len. specialize (Hs 0%nat l eq_refl). rewrite Nat.add_0_r in Hs. exact Hs.
  - apply IH. intros j l' Hj. specialize (Hs (S j) l' Hj). rewrite Nat.add_succ_r in Hs. exact Hs.
Qed.

Lemma sizes_shape : forall r c W W', map (@length R) W = map (@length R) W' -> has_shape r c W' -> has_shape r c W.
Proof.
  intros r c W W' Hm [Hr Hc]. split.
  - rewrite <- (map_length (@length R) W), Hm, map_length. exact Hr.
  - rewrite Forall_forall in Hc |- *. intros x Hx. apply (in_map (@length R)) in Hx. rewrite Hm in Hx.
    apply in_map_iff in Hx. destruct Hx as (y & Hy & Hi). rewrite <- Hy. apply Hc, Hi.
Qed.

Lemma counted : forall relu n sz act learn nu nxt winit xi h t h' c,
  tau_new relu n sz act learn nu nxt winit xi h = Ok (t, h') -> exist_before relu act nxt ->
  taunet_init relu n sz act learn nu = Ok c ->
  (forall j l, nth_error (tc_layers c) j = Some l -> has_shape (snd l) (fst l) (winit j)) ->
  net_numel t h' = num_params c.
Proof.
  intros relu n sz act learn nu nxt winit xi h t h' c H Hb Hc Hs.
  destruct (listed _ _ _ _ _ _ _ _ _ _ _ _ H Hb) as (Hp & _).
  destruct (built _ _ _ _ _ _ _ _ _ _ _ _ H Hb) as (_ & _ & Hw & Hnu).
  destruct (new_net _ _ _ _ _ _ _ _ _ _ _ _ H) as (c' & Hc' & Hl & _ & Ht & _).
  assert (c' = c) by congruence. subst c'.
  unfold net_numel, net_vector, num_params. rewrite Hp, flat_map_app, app_length. f_equal.
  - assert (Ew : nt_weights t = seq nxt (length (tc_layers c))) by (rewrite Ht; reflexivity). rewrite Ew. apply layers_len.
    intros j l Hj. apply sizes_shape with (winit j); [|apply Hs, Hj]. apply (Hw j).
    rewrite Ew. rewrite (nth_error_nth' _ 0%nat).
    + rewrite seq_nth; [reflexivity|]. apply nth_error_Some. congruence.
    + rewrite seq_length. apply nth_error_Some. congruence.
  - rewrite Hl. destruct learn.
    + destruct Hnu as (i & En & Ei). unfold nu_param. rewrite En. cbn. rewrite Ei. reflexivity.
    + unfold nu_param. rewrite Hnu. reflexivity.
Qed.
