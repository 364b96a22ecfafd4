(** Independence of the parallel loops of their schedules. *)

From Coq Require Import Reals List Arith Bool Lra Lia.
From Verif Require Import Prelude GenModel DftModel LowModel ParModel.
Import ListNotations.
Open Scope R_scope.

Lemma Rsum_snoc : forall l x, Rsum (l ++ [x]) = Rsum l + x.
Proof. induction l as [|a l IH]; intros x; [cbn; ring|]. change (a + Rsum (l ++ [x]) = a + Rsum l + x). rewrite IH. ring. Qed.

Section Est.
Variables (p1 p2 kg : node -> R) (cells : list node) (ks : list R) (scale tol : R) (A11 A22 : nat -> R).

Definition part (p : node -> R) (k : R) (l : list node) : R := Rsum (map (fun x => if Rltb (Rabs (kg x - k)) tol then p x else 0) l).

(** What holds of one iteration at each of its points. *)
Definition good (i : nat) (s : est_state) : Prop :=
  match es_pc s i with
  | EstStart => es_F11 s i = A11 i /\ es_F22 s i = A22 i
  | EstSum k todo s1 s2 => k = nth i ks 0 /\ exists past, cells = past ++ todo /\ s1 = part p1 k past /\ s2 = part p2 k past
  | EstHalf s2 => s2 = part p2 (nth i ks 0) cells /\ es_F11 s i = part p1 (nth i ks 0) cells * scale
  | EstDone => es_F11 s i = part p1 (nth i ks 0) cells * scale /\ es_F22 s i = part p2 (nth i ks 0) cells * scale
  end.

Definition left_steps (c : est_pc) : nat :=
  match c with EstStart => length cells + 3 | EstSum _ todo _ _ => length todo + 2 | EstHalf _ => 1 | EstDone => 0 end.

Lemma set_same : forall p i c, set_pc p i c i = c.
Proof. intros. unfold set_pc. rewrite Nat.eqb_refl. reflexivity. Qed.

Lemma set_other : forall p i c j, j <> i -> set_pc p i c j = p j.
Proof. intros p i c j H. unfold set_pc. apply Nat.eqb_neq in H. rewrite H. reflexivity. Qed.

Lemma put_same : forall A i v, put A i v i = v.
Proof. intros. unfold put. rewrite Nat.eqb_refl. reflexivity. Qed.

Lemma put_other : forall A i v j, j <> i -> put A i v j = A j.
Proof. intros A i v j H. unfold put. apply Nat.eqb_neq in H. rewrite H. reflexivity. Qed.

Lemma part_snoc : forall p k l x, part p k (l ++ [x]) = if Rltb (Rabs (kg x - k)) tol then part p k l + p x else part p k l.
Proof. intros p k l x. unfold part. rewrite map_app. cbn [map]. rewrite Rsum_snoc. destruct (Rltb _ tol); ring. Qed.

Lemma step_other : forall i s j, j <> i -> let t := est_step p1 p2 kg cells ks scale tol i s in
  es_pc t j = es_pc s j /\ es_F11 t j = es_F11 s j /\ es_F22 t j = es_F22 s j.
Proof.
  intros i s j H. cbv zeta. unfold est_step. destruct (es_pc s i) as [|k [|x todo] a b|b|]; cbn [es_pc es_F11 es_F22];
    rewrite ?set_other, ?put_other by exact H; repeat split; reflexivity.
Qed.

Lemma step_good : forall i s j, good j s -> good j (est_step p1 p2 kg cells ks scale tol i s).
Proof.
  intros i s j H. destruct (Nat.eq_dec j i) as [->|Hj].
  - unfold good in *. unfold est_step. destruct (es_pc s i) as [|k [|x todo] a b|b|] eqn:E; cbn [es_pc es_F11 es_F22]; rewrite ?set_same.
    + split; [reflexivity|]. exists []. repeat split; reflexivity.
    + destruct H as (-> & past & Hc & -> & ->). rewrite app_nil_r in Hc. subst past. rewrite put_same. split; reflexivity.
    + destruct H as (-> & past & Hc & -> & ->). split; [reflexivity|]. exists (past ++ [x]). rewrite <- app_assoc. split; [exact Hc|]. rewrite !part_snoc. split; reflexivity.
    + destruct H as [-> H]. rewrite put_same. split; [exact H|reflexivity].
    + rewrite E. exact H.
  - destruct (step_other i s j Hj) as (E1 & E2 & E3). unfold good in *. rewrite E1, E2, E3. exact H.
Qed.

Lemma step_left : forall i s, left_steps (es_pc (est_step p1 p2 kg cells ks scale tol i s) i) = (left_steps (es_pc s i) - 1)%nat.
Proof.
  intros i s. unfold est_step. destruct (es_pc s i) as [|k [|x todo] a b|b|] eqn:E; cbn [es_pc]; rewrite ?set_same, ?E; cbn [left_steps length]; lia.
Qed.

Notation go := (fun s i => if (i <? length ks)%nat then est_step p1 p2 kg cells ks scale tol i s else s).

Lemma run_inv : forall schedule s, (forall j, good j s) ->
  let t := fold_left go schedule s in (forall j, good j t)
  /\ forall i, (i < length ks)%nat -> left_steps (es_pc t i) = (left_steps (es_pc s i) - count_occ Nat.eq_dec schedule i)%nat.
Proof.
  induction schedule as [|i schedule IH]; intros s H; cbv zeta.
  - split; [exact H|]. intros i _. cbn. lia.
  - cbn [fold_left]. destruct (Nat.ltb_spec i (length ks)) as [Hi|Hi].
    + destruct (IH (est_step p1 p2 kg cells ks scale tol i s) (fun j => step_good i s j (H j))) as [I1 I2]. split; [exact I1|].
      intros j Hj. rewrite I2 by exact Hj. cbn [count_occ]. destruct (Nat.eq_dec i j) as [->|Hn]; [rewrite step_left; lia|].
      destruct (step_other i s j (fun E => Hn (eq_sym E))) as (-> & _). reflexivity.
    + destruct (IH s H) as [I1 I2]. split; [exact I1|]. intros j Hj. rewrite I2 by exact Hj. cbn [count_occ]. destruct (Nat.eq_dec i j); [lia|reflexivity].
Qed.

Lemma left_zero : forall c, left_steps c = 0%nat <-> c = EstDone.
Proof. destruct c; cbn; split; intros H; try reflexivity; try discriminate; lia. Qed.

Lemma est_finish : forall schedule, (forall i, (i < length ks)%nat -> es_pc (est_run p1 p2 kg cells ks scale tol A11 A22 schedule) i = EstDone)
  <-> forall i, (i < length ks)%nat -> (length cells + 3 <= count_occ Nat.eq_dec schedule i)%nat.
Proof.
  intros schedule. destruct (run_inv schedule (EstState (fun _ => EstStart) A11 A22)) as [_ I2]; [intros j; split; reflexivity|].
  fold (est_run p1 p2 kg cells ks scale tol A11 A22 schedule) in I2. cbn [es_pc left_steps] in I2.
  split; intros H i Hi; specialize (H i Hi); specialize (I2 i Hi).
  - apply left_zero in H. lia.
  - apply left_zero. rewrite I2. lia.
Qed.

Lemma est_final : forall schedule, (forall i, (i < length ks)%nat -> es_pc (est_run p1 p2 kg cells ks scale tol A11 A22 schedule) i = EstDone) ->
  est_result ks (est_run p1 p2 kg cells ks scale tol A11 A22 schedule)
  = (map (fun k => part p1 k cells * scale) ks, map (fun k => part p2 k cells * scale) ks).
Proof.
  intros schedule HD. destruct (run_inv schedule (EstState (fun _ => EstStart) A11 A22)) as [I1 _]; [intros j; split; reflexivity|].
  fold (est_run p1 p2 kg cells ks scale tol A11 A22 schedule) in I1. set (t := est_run p1 p2 kg cells ks scale tol A11 A22 schedule) in *.
  assert (Q : forall (F : nat -> R) (h : R -> R), (forall i, (i < length ks)%nat -> F i = h (nth i ks 0)) -> map F (seq 0 (length ks)) = map h ks).
  { intros F h HF. apply (nth_ext _ _ 0 0); [rewrite !map_length, seq_length; reflexivity|]. intros n Hn. rewrite map_length, seq_length in Hn.
    rewrite (nth_indep _ 0 (F 0%nat)) by (rewrite map_length, seq_length; exact Hn). rewrite map_nth, seq_nth by exact Hn.
    rewrite (nth_indep (map h ks) 0 (h 0)) by (rewrite map_length; exact Hn). rewrite map_nth. apply HF. exact Hn. }
  unfold est_result. f_equal; apply Q; intros i Hi; specialize (I1 i); unfold good in I1; rewrite (HD i Hi) in I1; apply I1.
Qed.

End Est.

Lemma est_generator : forall w u1 u2 tol A11 A22 schedule, lw_u w = Some (u1, u2) ->
  let ks := k1_positive (lg_N1 (lw_grid w)) (lg_dx (lw_grid w)) tol in
  let t := est_of (lw_grid w) u1 u2 tol A11 A22 schedule in
  (forall i, (i < length ks)%nat -> es_pc t i = EstDone) ->
  compute_spectrum w tol = Ok (ks, fst (est_result ks t), snd (est_result ks t)).
Proof.
  intros w u1 u2 tol A11 A22 schedule Hu ks t H. unfold t, est_of in *. fold ks in H |- *. rewrite est_final by exact H. unfold compute_spectrum. rewrite Hu. fold ks. reflexivity.
Qed.

(** ** Kernel *)

Section Ker.
Variables (c L psi zi dx dy : R) (N1 N2 : nat) (k1 k2 : nat -> nat -> R) (A : nat -> nat -> R).

Notation step := (ker_step c L psi zi dx dy k1 k2).

Definition energy_of (kappa_sq : R) : R :=
  let denominator := Rpower (/ L^2 + kappa_sq) (7/3) * (1 + kappa_sq * zi^2) in
  if Rltb denominator (/ 10^30) then 0 else c * (sqrt (Rmax kappa_sq (/ 10^20)))^3 / denominator.

Definition kgood (i j : nat) (s : ker_state) : Prop :=
  let ks := (k1 i j)^2 + (k2 i j)^2 in
  let q := low_kappa2 psi (k1 i j) (k2 i j) in
  match kr_pc s i j with
  | KerStart => kr_phi s i j = A i j
  | KerRead a b => a = q /\ b = ks
  | KerEnergy k e => Rltb ks (/ 10^20) = false /\ k = sqrt ks /\ e = energy_of q
  | KerDone => kr_phi s i j = low_phi c L psi zi dx dy (k1 i j) (k2 i j)
  end.

Lemma pair_eqb_same : forall i j, andb (i =? i)%nat (j =? j)%nat = true.
Proof. intros. rewrite !Nat.eqb_refl. reflexivity. Qed.

Lemma pair_eqb_other : forall a b i j, (a, b) <> (i, j) -> andb (a =? i)%nat (b =? j)%nat = false.
Proof. intros a b i j H. destruct (Nat.eqb_spec a i) as [->|]; [|reflexivity]. destruct (Nat.eqb_spec b j) as [->|]; [|reflexivity]. contradiction H. reflexivity. Qed.

Lemma kstep_other : forall i j s a b, (a, b) <> (i, j) -> kr_pc (step i j s) a b = kr_pc s a b /\ kr_phi (step i j s) a b = kr_phi s a b.
Proof.
  intros i j s a b H. unfold ker_step. destruct (kr_pc s i j) as [|q k|k e|]; cbn [kr_pc kr_phi]; unfold set_pc2, put2; rewrite ?pair_eqb_other by exact H; [split; reflexivity| |split; reflexivity|split; reflexivity].
  destruct (Rltb k (/ 10^20)); cbn [kr_pc kr_phi]; rewrite ?pair_eqb_other by exact H; split; reflexivity.
Qed.

Lemma kstep_good : forall i j s a b, kgood a b s -> kgood a b (step i j s).
Proof.
  intros i j s a b H. assert (D : {(a, b) = (i, j)} + {(a, b) <> (i, j)}) by (repeat decide equality). destruct D as [E|E].
  - injection E as -> ->. unfold kgood in *. cbv zeta in *. unfold ker_step. destruct (kr_pc s i j) as [|q k|k e|] eqn:P.
    + cbn [kr_pc kr_phi]. unfold set_pc2. rewrite pair_eqb_same. split; reflexivity.
    + destruct H as [-> ->]. destruct (Rltb _ (/ 10^20)) eqn:Q; cbn [kr_pc kr_phi]; unfold set_pc2, put2; rewrite pair_eqb_same.
      * unfold low_phi. cbv zeta. rewrite Q. reflexivity.
      * repeat split; try exact Q; reflexivity.
    + destruct H as (Q & -> & ->). cbn [kr_pc kr_phi]. unfold set_pc2, put2. rewrite !pair_eqb_same. unfold low_phi. cbv zeta. rewrite Q. reflexivity.
    + rewrite P. exact H.
  - destruct (kstep_other i j s a b E) as [E1 E2]. unfold kgood in *. rewrite E1, E2. exact H.
Qed.

Notation kgo := (fun s (x : nat * nat) => if andb (fst x <? N1)%nat (snd x <? N2)%nat then step (fst x) (snd x) s else s).

Lemma krun_good : forall schedule s, (forall a b, kgood a b s) -> forall a b, kgood a b (fold_left kgo schedule s).
Proof.
  induction schedule as [|x schedule IH]; intros s H; [exact H|]. cbn [fold_left]. apply IH. destruct (andb _ _); [intros a b; apply kstep_good, H|exact H].
Qed.

Lemma ker_final : forall schedule i j, kr_pc (ker_run c L psi zi dx dy N1 N2 k1 k2 A schedule) i j = KerDone ->
  kr_phi (ker_run c L psi zi dx dy N1 N2 k1 k2 A schedule) i j = low_phi c L psi zi dx dy (k1 i j) (k2 i j).
Proof.
  intros schedule i j H. pose proof (krun_good schedule (KerState (fun _ _ => KerStart) A) (fun a b => eq_refl) i j) as G.
  fold (ker_run c L psi zi dx dy N1 N2 k1 k2 A schedule) in G. unfold kgood in G. cbv zeta in G. rewrite H in G. exact G.
Qed.

(** Steps an iteration has left. *)
Definition kleft (p : ker_pc) : nat := match p with KerStart => 3 | KerRead _ _ => 2 | KerEnergy _ _ => 1 | KerDone => 0 end.

Lemma kstep_left : forall i j s, (kleft (kr_pc (step i j s) i j) <= kleft (kr_pc s i j) - 1)%nat.
Proof.
  intros i j s. unfold ker_step. destruct (kr_pc s i j) as [|q k|k e|] eqn:P; cbn [kr_pc]; unfold set_pc2; rewrite ?pair_eqb_same; cbn [kleft]; try lia.
  - destruct (Rltb k (/ 10^20)); cbn [kr_pc]; unfold set_pc2; rewrite pair_eqb_same; cbn; lia.
  - rewrite P. cbn. lia.
Qed.

Definition pair_dec : forall x y : nat * nat, {x = y} + {x <> y}.
Proof. repeat decide equality. Defined.

Lemma ker_finish : forall schedule i j, (i < N1)%nat -> (j < N2)%nat -> (3 <= count_occ pair_dec schedule (i, j))%nat ->
  kr_pc (ker_run c L psi zi dx dy N1 N2 k1 k2 A schedule) i j = KerDone.
Proof.
  intros schedule i j Hi Hj.
  assert (I : forall schedule s, (kleft (kr_pc (fold_left kgo schedule s) i j) <= kleft (kr_pc s i j) - count_occ pair_dec schedule (i, j))%nat).
  { clear schedule. induction schedule as [|x schedule IH]; intros s; [cbn; lia|]. cbn [fold_left]. eapply Nat.le_trans; [apply IH|]. cbn [count_occ]. destruct (pair_dec x (i, j)) as [->|Hx].
    - cbn [fst snd]. apply Nat.ltb_lt in Hi. apply Nat.ltb_lt in Hj. rewrite Hi, Hj. cbn [andb]. pose proof (kstep_left i j s). lia.
    - destruct (andb _ _); [|lia]. destruct x as [a b]. cbn [fst snd]. destruct (kstep_other a b s i j (fun E => Hx (eq_sym E))) as [-> _]. lia. }
  intros H. specialize (I schedule (KerState (fun _ _ => KerStart) A)). fold (ker_run c L psi zi dx dy N1 N2 k1 k2 A schedule) in I. cbn [kr_pc kleft] in I.
  destruct (kr_pc (ker_run c L psi zi dx dy N1 N2 k1 k2 A schedule) i j); cbn [kleft] in I; [lia|lia|lia|reflexivity].
Qed.

End Ker.
