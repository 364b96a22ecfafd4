(** Proofs about user-defined lifetime functions. *)

From Coq Require Import List Bool Arith.
From Verif Require Import Prelude EddyFModel EddyFSpec.
Import ListNotations.

Section P.
Context {K V F : Type}.
Notation sv := (sval F).
Notation ob := (eobj F).
Notation ic := (icls K V F).

Lemma resolve_some : forall ch : list ic, (exists f, resolve ch = Some f) <-> exists f, In (Some f) ch.
Proof.
  induction ch as [|[f|] ch IH]; cbn [resolve].
  - split; [intros [f H]; discriminate|intros [f []]].
  - split; intros _; exists f; [left|]; reflexivity.
  - rewrite IH. split; intros [f H]; exists f; [right; exact H|]. destruct H as [H|H]; [discriminate|exact H].
Qed.

Lemma setattr_get : forall (o : ob) n v o', setattr o n v = Ok o' -> (forall m, eo_plain o m = None \/ eo_params o m = None) ->
  getattr o' n = Ok v /\ (forall m, m <> n -> getattr o' m = getattr o m) /\ (forall m, eo_plain o' m = None \/ eo_params o' m = None).
Proof.
  intros o n v o' H I. pose proof (I n) as In_. unfold setattr in H.
  assert (Q : forall m, m <> n -> sname_eqb m n = false) by (intros [] ; destruct n; intros D; try reflexivity; contradiction).
  assert (Qn : sname_eqb n n = true) by (destruct n; reflexivity).
  destruct v as [|x|i]; [destruct (eo_params o n) as [w|] eqn:E|destruct (eo_params o n) as [w|] eqn:E|];
    try discriminate; injection H as <-; unfold getattr; cbn [eo_plain eo_params]; unfold put; rewrite ?Qn.
  all: split; [|split].
  all: try (intros m D; rewrite (Q m D); reflexivity).
  all: try (intros m; destruct (sname_eqb m n) eqn:Em; [|apply I]).
  all: try reflexivity.
  all: try (assert (m = n) as -> by (destruct m, n; try reflexivity; discriminate)).
  all: try (left; reflexivity).
  all: try (right; assumption).
  all: destruct In_ as [N|N]; try congruence; try (rewrite N; reflexivity); try (left; assumption).
Qed.

(** Reachable objects: the tables are disjoint, every scale is set, and a name is registered
    exactly when a parameter was assigned to it. *)
Definition good (hs : list (sname * sv)) (o : ob) : Prop :=
  (forall m, eo_plain o m = None \/ eo_params o m = None)
  /\ (forall m, eo_params o m <> None <-> exists i, In (m, SParam i) hs)
  /\ (forall m v, eo_plain o m = Some v -> forall i, v <> SParam i).

Lemma setattr_good : forall hs (o : ob) n v o', good hs o -> setattr o n v = Ok o' -> good (hs ++ [(n, v)])%list o'.
Proof.
  intros hs o n v o' (A & B & C) H. split; [|split].
  - eapply setattr_get; eassumption.
  - intros m. unfold setattr in H.
    assert (Z : (exists i, In (m, SParam i) (hs ++ [(n, v)])%list) <-> (exists i, In (m, SParam i) hs) \/ (m = n /\ exists i, v = SParam i)).
    { split.
      - intros [i J]. apply in_app_or in J. destruct J as [J|[J|[]]]; [left; exists i; exact J|]. injection J as -> ->. right. eauto.
      - intros [[i J]|[-> [i ->]]]; exists i; apply in_or_app; [left; exact J|right; left; reflexivity]. }
    rewrite Z, <- B. clear Z.
    destruct v as [|x|i]; [destruct (eo_params o n) as [w|] eqn:E|destruct (eo_params o n) as [w|] eqn:E|];
      try discriminate; injection H as <-; cbn [eo_params]; unfold put.
    + destruct (sname_eqb m n) eqn:Em; [assert (m = n) as -> by (destruct m, n; try reflexivity; discriminate); rewrite E|];
        split; try tauto; try discriminate; try (intros _; left; discriminate); intros [G|[_ [j G]]]; try discriminate; exact G.
    + split; [tauto|]. intros [G|[_ [j G]]]; [exact G|discriminate].
    + split; [tauto|]. intros [G|[_ [j G]]]; [exact G|discriminate].
    + destruct (sname_eqb m n) eqn:Em.
      * assert (m = n) as -> by (destruct m, n; try reflexivity; discriminate). split; [intros _; right; eauto|discriminate].
      * split; [tauto|]. intros [G|[-> _]]; [exact G|]. destruct n; discriminate.
  - intros m w Hw i Hi. subst w. unfold setattr in H.
    destruct v as [|x|j]; [destruct (eo_params o n) as [w|] eqn:E|destruct (eo_params o n) as [w|] eqn:E|];
      try discriminate; injection H as <-; cbn [eo_plain] in Hw; unfold put in Hw;
      try destruct (sname_eqb m n); try discriminate; exact (C m _ Hw i eq_refl).
Qed.

Lemma assign_good : forall as_ hs (o : ob), good hs o -> good (hs ++ as_)%list (fold_left (@assign F) as_ o).
Proof.
  induction as_ as [|[n v] as_ IH]; intros hs o G; [rewrite app_nil_r; exact G|]. cbn [fold_left].
  replace (hs ++ (n, v) :: as_)%list with ((hs ++ [(n, v)]) ++ as_)%list by (rewrite <- app_assoc; reflexivity).
  apply IH. unfold assign. cbn [fst snd]. destruct (setattr o n v) as [o'|e] eqn:E; [exact (setattr_good hs o n v o' G E)|].
  destruct v as [|x|i]; cbn [setattr] in E; try (destruct (eo_params o n); discriminate).
  destruct G as (A & B & C). split; [exact A|]. split; [|exact C]. intros m. rewrite B. split; intros [j J]; exists j.
  - apply in_or_app. left. exact J.
  - apply in_app_or in J. destruct J as [J|[J|[]]]; [exact J|discriminate].
Qed.

Lemma blank_good : good [] (blank F).
Proof. split; [left; reflexivity|]. split; [|discriminate]. intros m. split; [intros H; exfalso; apply H; reflexivity|intros [i []]]. Qed.

Lemma construct_ok : forall (ch : list ic) l t, (exists f, In (Some f) ch) ->
  exists o, construct ch l t = Ok o /\ good [(Length, l); (Time, t)] o /\ getattr o Length = Ok l /\ getattr o Time = Ok t.
Proof.
  intros ch l t H. apply resolve_some in H. destruct H as [f H]. unfold construct. rewrite H.
  assert (E1 : exists o1, setattr (blank F) Length l = Ok o1) by (destruct l; cbn; eauto). destruct E1 as [o1 E1]. rewrite E1. cbn [bind].
  assert (P1 : eo_params o1 Time = None) by (destruct l; cbn in E1; injection E1 as <-; reflexivity).
  assert (E2 : exists o2, setattr o1 Time t = Ok o2) by (destruct t; cbn [setattr]; rewrite ?P1; eauto). destruct E2 as [o2 E2].
  exists o2. split; [exact E2|].
  pose proof (setattr_good _ _ _ _ _ blank_good E1) as G1. cbn [app] in G1.
  pose proof (setattr_good _ _ _ _ _ G1 E2) as G2. cbn [app] in G2. split; [exact G2|].
  destruct (setattr_get _ _ _ _ E1 (proj1 blank_good)) as [R1 _].
  destruct (setattr_get _ _ _ _ E2 (proj1 G1)) as (R2 & R3 & _).
  split; [|exact R2]. rewrite R3 by discriminate. exact R1.
Qed.

Lemma construct_iff : forall (ch : list ic) l t,
  ((exists f, In (Some f) ch) -> exists o, construct ch l t = Ok o /\ getattr o Length = Ok l /\ getattr o Time = Ok t)
  /\ (~ (exists f, In (Some f) ch) -> construct ch l t = Err TypeError).
Proof.
  intros ch l t. split.
  - intros H. destruct (construct_ok ch l t H) as (o & A & _ & B & C). eauto.
  - intros H. unfold construct. destruct (resolve ch) as [f|] eqn:E; [|reflexivity]. exfalso. apply H. apply resolve_some. eauto.
Qed.

Lemma constructed_good : forall (ch : list ic) l t o, construct ch l t = Ok o -> good [(Length, l); (Time, t)] o.
Proof.
  intros ch l t o H. destruct (resolve ch) as [f|] eqn:E; [|unfold construct in H; rewrite E in H; discriminate].
  destruct (construct_ok ch l t) as (o' & A & G & _); [apply resolve_some; eauto|]. rewrite A in H. injection H as <-. exact G.
Qed.

Lemma scales : forall (ch : list ic) l t o as_ n v, construct ch l t = Ok o ->
  let o1 := fold_left (@assign F) as_ o in
  let rejected := (exists x, v = SNum x) /\ exists i, In (n, SParam i) ((Length, l) :: (Time, t) :: as_) in
  (rejected /\ setattr o1 n v = Err TypeError
   \/ ~ rejected /\ exists o2, setattr o1 n v = Ok o2 /\ getattr o2 n = Ok v /\ forall m, m <> n -> getattr o2 m = getattr o1 m)
  /\ forall i, trains o1 i = true <-> exists m, getattr o1 m = Ok (SParam i).
Proof.
  intros ch l t o as_ n v H. cbn zeta. pose proof (assign_good as_ _ _ (constructed_good _ _ _ _ H)) as G.
  change ((Length, l) :: (Time, t) :: as_) with ([(Length, l); (Time, t)] ++ as_)%list.
  set (o1 := fold_left (@assign F) as_ o) in *. set (hs := ([(Length, l); (Time, t)] ++ as_)%list) in *. clearbody o1 hs. split.
  - destruct G as (A & B & C).
    assert (S : forall o2, setattr o1 n v = Ok o2 -> exists o2, setattr o1 n v = Ok o2 /\ getattr o2 n = Ok v /\ forall m, m <> n -> getattr o2 m = getattr o1 m).
    { intros o2 E. exists o2. split; [exact E|]. destruct (setattr_get _ _ _ _ E A) as (P & Q & _). auto. }
    destruct v as [|x|i].
    + right. split; [intros [[x Q] _]; discriminate|]. destruct (setattr o1 n SNone) as [o2|e] eqn:E; [exact (S o2 eq_refl)|].
      cbn [setattr] in E. destruct (eo_params o1 n); discriminate.
    + destruct (eo_params o1 n) as [w|] eqn:E.
      * left. split; [|cbn [setattr]; rewrite E; reflexivity]. split; [eauto|]. apply B. rewrite E. discriminate.
      * right. split; [intros [_ Q]; apply B in Q; contradiction|]. eapply S. cbn [setattr]. rewrite E. reflexivity.
    + right. split; [intros [[x Q] _]; discriminate|]. eapply S. reflexivity.
  - destruct G as (A & B & C). intros i.
    assert (T : forall m, getattr o1 m = Ok (SParam i) <-> eo_params o1 m = Some (SParam i)).
    { intros m. unfold getattr. destruct (A m) as [N|N]; rewrite N.
      - destruct (eo_params o1 m) as [w|]; split; intros Q; congruence.
      - split; [|discriminate]. destruct (eo_plain o1 m) as [w|] eqn:E; [|discriminate]. intros Q. injection Q as ->. exfalso. exact (C m _ E i eq_refl). }
    unfold trains. rewrite existsb_exists. split.
    + intros (m & _ & Q). exists m. apply T. destruct (eo_params o1 m) as [[| |j]|]; try discriminate. apply Nat.eqb_eq in Q. subst j. reflexivity.
    + intros [m Q]. apply T in Q. exists m. split; [destruct m; cbn; auto|]. rewrite Q. apply Nat.eqb_refl.
Qed.

Lemma call_value : forall (ch1 ch2 : list ic) f o pre post k,
  (forall c, In c ch1 -> c = None) ->
  fst (ecall (ch1 ++ Some f :: ch2) o pre post k) = f o k
  /\ ((forall h a, In h pre -> snd h a = None) -> (forall h a b, In h post -> snd h a b = None) ->
      fst (ecall (ch1 ++ Some f :: ch2) o pre post k) = fst (module_call (f o) pre post k)).
Proof.
  intros ch1 ch2 f o pre post k N.
  assert (E : resolve (ch1 ++ Some f :: ch2) = Some f).
  { induction ch1 as [|c ch1 IH]; [reflexivity|]. rewrite (N c (or_introl eq_refl)). cbn [app resolve]. apply IH. intros c' I. apply N. right. exact I. }
  unfold ecall, forward. rewrite E. cbn [fst]. split; [reflexivity|]. intros Hp Hq. unfold module_call.
  assert (P : fold_left (fun a h => match snd h a with Some b => b | None => a end) pre k = k).
  { clear - Hp. revert k. induction pre as [|h pre IH]; intros k; [reflexivity|]. cbn [fold_left]. rewrite (Hp h k (or_introl eq_refl)).
    apply IH. intros h' a I. apply Hp. right. exact I. }
  rewrite P. cbn zeta. destruct (f o k) as [v|e]; [|reflexivity]. cbn [fst]. f_equal.
  clear - Hq. revert v. induction post as [|h post IH]; intros v; [reflexivity|]. cbn [fold_left]. rewrite (Hq h k v (or_introl eq_refl)).
  apply IH. intros h' a b I. apply Hq. right. exact I.
Qed.

Lemma hooks_skipped : forall (ch : list ic) l t o pre post k, construct ch l t = Ok o -> pre <> [] ->
  snd (ecall ch o pre post k) = [] /\ snd (module_call (forward ch o) pre post k) <> [].
Proof.
  intros ch l t o pre post k _ N. split; [reflexivity|]. unfold module_call. destruct pre as [|h pre]; [contradiction|].
  cbn zeta. destruct (forward ch o _); cbn; discriminate.
Qed.
End P.
