(** Proofs about repeated differentiation of coherences. *)

From Coq Require Import List Bool Lia Arith.
From Verif Require Import Prelude GraphModel GraphSpec.
Import ListNotations.

Lemma perform_app : forall h h' m, perform (h ++ h') m = perform h' (perform h m).
Proof. induction h as [|[r|i] h IH]; intros h' m; cbn; auto. Qed.

Lemma evaluations_app : forall h h', evaluations (h ++ h') = evaluations h ++ evaluations h'.
Proof. induction h as [|[r|i] h IH]; intros h'; cbn; congruence. Qed.

Lemma update_length : forall (A : Type) (l : list A) i x, length (update l i x) = length l.
Proof. induction l as [|a l IH]; intros [|i] x; cbn; auto. Qed.

Lemma update_same : forall (A : Type) (l : list A) i x, i < length l -> nth_error (update l i x) i = Some x.
Proof. induction l as [|a l IH]; intros [|i] x H; cbn in *; try lia; [reflexivity|]. apply IH. lia. Qed.

Lemma update_other : forall (A : Type) (l : list A) i j x, i <> j -> nth_error (update l i x) j = nth_error l j.
Proof. induction l as [|a l IH]; intros [|i] [|j] x H; cbn; try reflexivity; try congruence. apply IH. congruence. Qed.

(** What a module holds after a history. *)
Definition matches (h : list action) (m : holder) : Prop :=
  length (m_results m) = length (evaluations h)
  /\ forall i r, nth_error (evaluations h) i = Some r -> exists c, nth_error (m_results m) i = Some c
     /\ c_graph c = r /\ (~ In (Backward i) h -> c_freed c = false)
     /\ c_grid c = (r && match m_grid m with Tracked _ => true | _ => false end).

Lemma unsnoc_in : forall (h : list action) a b, ~ In b (h ++ [a]) -> ~ In b h.
Proof. intros h a b H I. apply H. apply in_or_app. left. exact I. Qed.

Lemma matches_start : forall uc, matches [] (construct uc).
Proof. intros uc. split; [reflexivity|]. intros [|i] r H; discriminate. Qed.

Definition settled (h : list action) (m : holder) : Prop := m_grid m = Missing -> evaluations h = [].

Lemma eval_matches : forall h m r, matches h m -> settled h m -> matches (h ++ [Evaluate r]) (evaluate r m) /\ settled (h ++ [Evaluate r]) (evaluate r m).
Proof.
  intros h m r [L H] S. split.
  - unfold matches. rewrite evaluations_app. cbn [evaluations]. unfold evaluate. cbn [m_results m_grid]. rewrite !app_length, L. split; [reflexivity|].
    intros i b Hi. destruct (Nat.lt_ge_cases i (length (evaluations h))) as [C|C].
    + rewrite nth_error_app1 in Hi by exact C. destruct (H i b Hi) as (c & E1 & E2 & E3 & E4).
      exists c. split; [rewrite nth_error_app1 by lia; exact E1|]. split; [exact E2|]. split.
      * intros N. apply E3. eapply unsnoc_in. exact N.
      * rewrite E4. destruct (m_grid m) eqn:Q; try reflexivity. rewrite (S Q) in C. cbn in C. lia.
    + rewrite nth_error_app2 in Hi by lia. destruct (i - length (evaluations h)) as [|k] eqn:Q; [|destruct k; discriminate].
      injection Hi as <-. exists (Coherence r false (r && match match m_grid m with Missing => if r then Tracked false else Plain | g => g end with Tracked _ => true | _ => false end)).
      split; [rewrite nth_error_app2 by lia; rewrite L, Q; reflexivity|]. repeat split.
  - intros Q. unfold evaluate in Q. cbn in Q. destruct (m_grid m); [destruct r|..]; discriminate.
Qed.

Lemma back_matches : forall h m i, matches h m -> settled h m -> matches (h ++ [Backward i]) (snd (backward i m)) /\ settled (h ++ [Backward i]) (snd (backward i m)).
Proof.
  intros h m i [L H] S. unfold settled. rewrite evaluations_app. cbn [evaluations]. rewrite app_nil_r.
  assert (SAME : matches (h ++ [Backward i]) m).
  { unfold matches. rewrite evaluations_app. cbn [evaluations]. rewrite app_nil_r. split; [exact L|]. intros j r Hj. destruct (H j r Hj) as (c & E1 & E2 & E3 & E4).
    exists c. repeat split; try assumption. intros N. apply E3. eapply unsnoc_in. exact N. }
  unfold backward. destruct (nth_error (m_results m) i) as [c|] eqn:Ei; [|split; assumption].
  destruct (c_graph c) eqn:G; cbn [negb]; [|split; assumption].
  destruct (c_freed c) eqn:F; [split; assumption|].
  assert (Li : i < length (m_results m)) by (apply nth_error_Some; congruence).
  assert (Ri : nth_error (evaluations h) i = Some true).
  { destruct (nth_error (evaluations h) i) as [r|] eqn:Er; [|apply nth_error_None in Er; lia].
    destruct (H i r Er) as (c' & E1 & E2 & _). congruence. }
  destruct (H i true Ri) as (c' & E1 & _ & _ & E4). assert (c' = c) by congruence. subst c'. cbn [andb] in E4.
  assert (GEN : forall g, match g with Tracked _ => true | _ => false end = match m_grid m with Tracked _ => true | _ => false end ->
     matches (h ++ [Backward i]) (Holder g (update (m_results m) i (Coherence true true (c_grid c))))).
  { intros g Hg. unfold matches. rewrite evaluations_app. cbn [evaluations m_results m_grid]. rewrite app_nil_r, update_length. split; [exact L|].
    intros j r Hj. destruct (Nat.eq_dec i j) as [<-|N].
    - exists (Coherence true true (c_grid c)). rewrite update_same by exact Li. assert (r = true) by congruence. subst r. cbn [c_graph c_freed c_grid andb].
      rewrite Hg, E4. repeat split. intros N. exfalso. apply N. apply in_or_app. right. left. reflexivity.
    - rewrite update_other by exact N. destruct (H j r Hj) as (d & D1 & D2 & D3 & D4). exists d. rewrite Hg. repeat split; try assumption.
      intros Q. apply D3. eapply unsnoc_in. exact Q. }
  destruct (c_grid c) eqn:CG.
  - destruct (m_grid m) as [| |[|]] eqn:MG; try discriminate; cbn [snd m_results].
    + split; [apply GEN; reflexivity|]. cbn [m_grid]. discriminate.
    + split; [apply GEN; reflexivity|]. cbn [m_grid]. discriminate.
  - cbn [snd]. split; [apply GEN; reflexivity|]. exact S.
Qed.

Lemma perform_matches : forall uc h, matches h (perform h (construct uc)) /\ settled h (perform h (construct uc)).
Proof.
  intros uc h. induction h as [|a h IH] using rev_ind.
  - split; [apply matches_start|]. intros _. reflexivity.
  - rewrite perform_app. destruct IH as [M S]. destruct a as [r|i]; cbn [perform]; [apply eval_matches|apply back_matches]; assumption.
Qed.

(** A grid without a graph stays so. *)
Lemma plain_stays : forall h m, m_grid m = Plain -> (forall i c, nth_error (m_results m) i = Some c -> c_grid c = false) ->
  m_grid (perform h m) = Plain.
Proof.
  induction h as [|[r|i] h IH]; intros m G C; [exact G| |]; cbn [perform]; apply IH.
  - unfold evaluate. rewrite G. reflexivity.
  - intros j c Hj. unfold evaluate in Hj. rewrite G in Hj. cbn [m_results] in Hj.
    destruct (Nat.lt_ge_cases j (length (m_results m))) as [L|L].
    + rewrite nth_error_app1 in Hj by exact L. eapply C. exact Hj.
    + rewrite nth_error_app2 in Hj by exact L. destruct (j - length (m_results m)) as [|k]; [|destruct k; discriminate].
      injection Hj as <-. cbn. apply andb_false_r.
  - unfold backward. destruct (nth_error (m_results m) i) as [c|] eqn:E; [|exact G].
    destruct (negb (c_graph c)); [exact G|]. destruct (c_freed c); [exact G|]. rewrite (C i c E). exact G.
  - unfold backward. destruct (nth_error (m_results m) i) as [c|] eqn:E; [|exact C].
    destruct (negb (c_graph c)); [exact C|]. destruct (c_freed c); [exact C|]. rewrite (C i c E). cbn [snd m_results].
    intros j d Hj. destruct (Nat.eq_dec i j) as [<-|N].
    + rewrite update_same in Hj by (apply nth_error_Some; congruence). injection Hj as <-. reflexivity.
    + rewrite update_other in Hj by exact N. eapply C. exact Hj.
Qed.

Lemma no_evaluations : forall h, evaluations h = [] -> forall uc, perform h (construct uc) = construct uc.
Proof.
  induction h as [|[r|i] h IH]; intros H uc; [reflexivity|discriminate|]. cbn [perform]. unfold backward, construct. cbn [m_results].
  replace (nth_error (@nil coherence) i) with (@None coherence) by (destruct i; reflexivity). cbn [snd]. apply IH. exact H.
Qed.

Lemma split_first : forall h r l, evaluations h = r :: l -> exists h1 h2, h = h1 ++ Evaluate r :: h2 /\ evaluations h1 = [].
Proof.
  induction h as [|[b|i] h IH]; intros r l H; [discriminate| |].
  - injection H as -> _. exists [], h. split; reflexivity.
  - destruct (IH r l H) as (h1 & h2 & -> & E). exists (Backward i :: h1), h2. split; [reflexivity|exact E].
Qed.

Lemma plain_grid : forall uc h, uc = true \/ nth_error (evaluations h) 0 = Some false -> m_grid (perform h (construct uc)) = Plain.
Proof.
  intros uc h [->|F].
  - apply plain_stays; [reflexivity|]. intros [|i] c H; discriminate.
  - destruct (evaluations h) as [|r l] eqn:E; [discriminate|]. injection F as ->.
    destruct (split_first h false l E) as (h1 & h2 & -> & E1). rewrite perform_app, (no_evaluations h1 E1). cbn [perform].
    apply plain_stays.
    + destruct uc; reflexivity.
    + intros [|[|i]] c H; cbn in H; try discriminate. injection H as <-. reflexivity.
Qed.

Lemma repeat_ok : forall uc h i, uc = true \/ nth_error (evaluations h) 0 = Some false -> unused h i -> differentiate uc h i = Ok tt.
Proof.
  intros uc h i F [R N]. unfold differentiate. pose proof (plain_grid uc h F) as G.
  destruct (perform_matches uc h) as [[_ M] _]. destruct (M i true R) as (c & E1 & E2 & E3 & E4).
  unfold backward. rewrite E1, E2, (E3 N), E4, G. reflexivity.
Qed.

(** A grid with a graph stays so, and once freed stays freed. *)
Lemma freed_stays : forall h m, m_grid m = Tracked true -> m_grid (perform h m) = Tracked true.
Proof.
  induction h as [|[r|i] h IH]; intros m G; [exact G| |]; cbn [perform]; apply IH.
  - unfold evaluate. rewrite G. reflexivity.
  - unfold backward. destruct (nth_error (m_results m) i) as [c|]; [|exact G].
    destruct (negb (c_graph c)); [exact G|]. destruct (c_freed c); [exact G|]. destruct (c_grid c); [rewrite G; reflexivity|exact G].
Qed.

Lemma tracked_stays : forall h m f, m_grid m = Tracked f -> exists f', m_grid (perform h m) = Tracked f'.
Proof.
  induction h as [|[r|i] h IH]; intros m f G; [eexists; exact G| |]; cbn [perform].
  - apply (IH _ f). unfold evaluate. rewrite G. reflexivity.
  - assert (Q : exists f', m_grid (snd (backward i m)) = Tracked f').
    { unfold backward. destruct (nth_error (m_results m) i) as [c|]; [|eexists; exact G].
      destruct (negb (c_graph c)); [eexists; exact G|]. destruct (c_freed c); [eexists; exact G|].
      destruct (c_grid c); [rewrite G; destruct f; cbn; eexists; reflexivity|eexists; exact G]. }
    destruct Q as [f' Q]. apply (IH _ f'). exact Q.
Qed.

Lemma tracked_grid : forall h, nth_error (evaluations h) 0 = Some true -> exists f, m_grid (perform h (construct false)) = Tracked f.
Proof.
  intros h F. destruct (evaluations h) as [|r l] eqn:E; [discriminate|]. injection F as ->.
  destruct (split_first h true l E) as (h1 & h2 & -> & E1). rewrite perform_app, (no_evaluations h1 E1). cbn [perform].
  apply (tracked_stays h2 _ false). reflexivity.
Qed.

Lemma unfreed : forall h, nth_error (evaluations h) 0 = Some true -> (forall i, ~ In (Backward i) h) -> m_grid (perform h (construct false)) = Tracked false.
Proof.
  intros h F N. destruct (evaluations h) as [|r l] eqn:E; [discriminate|]. injection F as ->.
  destruct (split_first h true l E) as (h1 & h2 & -> & E1). rewrite perform_app, (no_evaluations h1 E1). cbn [perform].
  assert (N2 : forall i, ~ In (Backward i) h2) by (intros i I; apply (N i); apply in_or_app; right; right; exact I).
  clear - N2. set (m := evaluate true (construct false)). assert (G : m_grid m = Tracked false) by reflexivity. clearbody m.
  revert m G. induction h2 as [|[r|i] h IH]; intros m G; [exact G| |].
  - cbn [perform]. apply IH; [intros i I; apply (N2 i); right; exact I|]. unfold evaluate. rewrite G. reflexivity.
  - exfalso. apply (N2 i). left. reflexivity.
Qed.

Lemma first_ok : forall h i, nth_error (evaluations h) 0 = Some true -> (forall j, ~ In (Backward j) h) ->
  nth_error (evaluations h) i = Some true -> differentiate false h i = Ok tt.
Proof.
  intros h i F N R. unfold differentiate. pose proof (unfreed h F N) as G.
  destruct (perform_matches false h) as [[_ M] _]. destruct (M i true R) as (c & E1 & E2 & E3 & E4).
  unfold backward. rewrite E1, E2, (E3 (N i)), E4, G. reflexivity.
Qed.

Lemma later_fails : forall h i h' j, nth_error (evaluations h) 0 = Some true -> differentiate false h i = Ok tt ->
  nth_error (evaluations (h ++ Backward i :: h')) j = Some true ->
  differentiate false (h ++ Backward i :: h') j = Err RuntimeError.
Proof.
  intros h i h' j F D R. unfold differentiate in *.
  assert (G : m_grid (perform (h ++ Backward i :: h') (construct false)) = Tracked true).
  { rewrite perform_app. cbn [perform]. apply freed_stays. destruct (tracked_grid h F) as [f G].
    destruct (perform_matches false h) as [[L M] _]. set (m := perform h (construct false)) in *.
    unfold backward in *. destruct (nth_error (m_results m) i) as [c|] eqn:Ei; [|discriminate].
    destruct (c_graph c) eqn:CG; cbn [negb] in *; [|discriminate]. destruct (c_freed c); [discriminate|].
    assert (Ri : nth_error (evaluations h) i = Some true).
    { destruct (nth_error (evaluations h) i) as [r|] eqn:Er.
      - destruct (M i r Er) as (c' & E1 & E2 & _). congruence.
      - apply nth_error_None in Er. rewrite <- L in Er. apply nth_error_None in Er. congruence. }
    destruct (M i true Ri) as (c' & E1 & _ & _ & E4). assert (c' = c) by congruence. subst c'. rewrite G in E4. cbn in E4. rewrite E4 in *.
    rewrite G in *. destruct f; [discriminate|reflexivity]. }
  destruct (perform_matches false (h ++ Backward i :: h')) as [[_ M] _]. destruct (M j true R) as (c & E1 & E2 & _ & E4).
  unfold backward. rewrite E1, E2. cbn [negb]. destruct (c_freed c); [reflexivity|]. rewrite E4, G. reflexivity.
Qed.

(** A used result stays used. *)
Lemma used_stays : forall h m i c, nth_error (m_results m) i = Some c -> c_graph c = true -> c_freed c = true ->
  exists c', nth_error (m_results (perform h m)) i = Some c' /\ c_graph c' = true /\ c_freed c' = true.
Proof.
  induction h as [|[r|j] h IH]; intros m i c E G F; [exists c; auto| |]; cbn [perform].
  - apply (IH _ i c); [|exact G|exact F]. unfold evaluate. cbn [m_results]. rewrite nth_error_app1 by (apply nth_error_Some; congruence). exact E.
  - assert (Q : exists c', nth_error (m_results (snd (backward j m))) i = Some c' /\ c_graph c' = true /\ c_freed c' = true).
    { unfold backward. destruct (nth_error (m_results m) j) as [d|] eqn:Ej; [|exists c; auto].
      destruct (negb (c_graph d)); [exists c; auto|]. destruct (c_freed d) eqn:Fd; [exists c; auto|].
      assert (N : j <> i) by (intros ->; congruence).
      destruct (c_grid d); [destruct (m_grid m) as [| |[|]]|]; cbn [snd m_results]; rewrite update_other by exact N; exists c; auto. }
    destruct Q as (c' & E' & G' & F'). apply (IH _ i c'); assumption.
Qed.

Lemma twice_fails : forall uc h i h', differentiate uc h i = Ok tt -> differentiate uc (h ++ Backward i :: h') i = Err RuntimeError.
Proof.
  intros uc h i h' D. unfold differentiate in *. rewrite perform_app. cbn [perform]. set (m := perform h (construct uc)) in *. clearbody m.
  assert (Q : exists c', nth_error (m_results (snd (backward i m))) i = Some c' /\ c_graph c' = true /\ c_freed c' = true).
  { unfold backward in *. destruct (nth_error (m_results m) i) as [c|] eqn:Ei; [|discriminate].
    destruct (c_graph c) eqn:CG; cbn [negb] in *; [|discriminate]. destruct (c_freed c); [discriminate|].
    exists (Coherence true true (c_grid c)).
    destruct (c_grid c); [destruct (m_grid m) as [| |[|]]|]; cbn [snd m_results]; rewrite update_same by (apply nth_error_Some; congruence); auto. }
  destruct Q as (c' & E & G & F). destruct (used_stays h' _ i c' E G F) as (c2 & E2 & G2 & F2).
  unfold backward at 1. rewrite E2, G2, F2. reflexivity.
Qed.

Lemma graphless_fails : forall uc h i, nth_error (evaluations h) i = Some false -> differentiate uc h i = Err RuntimeError.
Proof.
  intros uc h i R. unfold differentiate. destruct (perform_matches uc h) as [[_ M] _]. destruct (M i false R) as (c & E1 & E2 & _).
  unfold backward. rewrite E1, E2. reflexivity.
Qed.

Lemma once : forall uc h i,
  (differentiate uc h i = Ok tt -> forall h', differentiate uc (h ++ Backward i :: h') i = Err RuntimeError)
  /\ (nth_error (evaluations h) i = Some false -> differentiate uc h i = Err RuntimeError).
Proof. intros uc h i. split; [intros D h'; apply twice_fails; exact D|apply graphless_fails]. Qed.
