From Verif Require Import Base ActorModel ActorSpec CounterModel CounterSpec.

Local Arguments Z.eqb : simpl never.

Section Proofs.
Context (c : counter_codec) (Hc : codec_ok c).

(** The result of one swap. *)
Definition swapped (st : counters) (s : swap) : counters :=
  (apply_compare_and_swap st (sw_name s) (CasRequest (sw_expected s) (sw_new s)) (sw_payload s)).1.
Definition swap_response (st : counters) (s : swap) : counter_response :=
  (apply_compare_and_swap st (sw_name s) (CasRequest (sw_expected s) (sw_new s)) (sw_payload s)).2.

Lemma apply_swap st cx co s :
  counter_apply c st cx (swap_event c co s)
  = Ok (swapped st s, if ec_owned cx then [response_command c co (swap_response st s)] else []).
Proof.
  unfold counter_apply, swap_event; simpl. rewrite (request_round_trip _ Hc); simpl.
  unfold swapped, swap_response. destruct (apply_compare_and_swap _ _ _ _) as [st' r] eqn:E; simpl.
  by destruct (ec_owned cx).
Qed.

Lemma current_swapped st s n :
  current (swapped st s) n =
  if decide ((current st (sw_name s)).1 = sw_expected s /\ n = sw_name s)
  then (sw_new s, sw_payload s) else current st n.
Proof.
  unfold swapped, apply_compare_and_swap, current; simpl.
  destruct (st !! sw_name s) as [v|] eqn:E; simpl.
  - destruct (Z.eqb_spec (cv_value v) (sw_expected s)) as [He|He]; simpl.
    + destruct (decide (n = sw_name s)) as [->|Hn].
      * rewrite lookup_insert. by rewrite decide_True.
      * rewrite !lookup_insert_ne by done. rewrite decide_False; [done|naive_solver].
    + rewrite decide_False by naive_solver.
      destruct (decide (n = sw_name s)) as [->|Hn]; [by rewrite lookup_insert, E|by rewrite lookup_insert_ne].
  - destruct (Z.eqb_spec 0 (sw_expected s)) as [He|He]; simpl.
    + destruct (decide (n = sw_name s)) as [->|Hn].
      * rewrite lookup_insert. by rewrite decide_True.
      * rewrite !lookup_insert_ne by done. rewrite decide_False; [done|naive_solver].
    + rewrite decide_False by naive_solver.
      destruct (decide (n = sw_name s)) as [->|Hn]; [by rewrite lookup_insert, E|by rewrite lookup_insert_ne].
Qed.

Lemma response_of st s :
  swap_response st s =
  if decide ((current st (sw_name s)).1 = sw_expected s)
  then CounterResponse CsSuccess (Some (CasResponse (sw_expected s) (sw_new s)))
  else CounterResponse CsInvalidArgument (Some (CasResponse (current st (sw_name s)).1 0)).
Proof.
  unfold swap_response, apply_compare_and_swap, current; simpl.
  destruct (st !! sw_name s) as [v|] eqn:E; simpl.
  - destruct (Z.eqb_spec (cv_value v) (sw_expected s)) as [He|He]; simpl.
    + rewrite decide_True by done. by rewrite He.
    + by rewrite decide_False.
  - destruct (Z.eqb_spec 0 (sw_expected s)) as [He|He]; simpl.
    + rewrite decide_True by done. by rewrite <- He.
    + by rewrite decide_False.
Qed.

(** Counters are never deleted, and a swap touches only its own. *)
Lemma swapped_dom st s : dom (swapped st s) = {[sw_name s]} ∪ dom st.
Proof.
  unfold swapped, apply_compare_and_swap; simpl.
  destruct (_ =? _)%Z; simpl; rewrite !dom_insert_L; set_solver.
Qed.
Lemma swapped_other st s n : n <> sw_name s -> swapped st s !! n = st !! n.
Proof.
  intros Hn. unfold swapped, apply_compare_and_swap; simpl.
  destruct (_ =? _)%Z; simpl; by rewrite !lookup_insert_ne.
Qed.

(** Applying a whole log. *)
Fixpoint states (st : counters) (l : list swap) : counters :=
  match l with [] => st | s :: l => states (swapped st s) l end.
Fixpoint responses (st : counters) (l : list entry) : list (list actor_command) :=
  match l with
  | [] => []
  | e :: l => (if le_owned e then [response_command c (le_correlation e) (swap_response st (le_swap e))] else [])
              :: responses (swapped st (le_swap e)) l
  end.

Lemma apply_all_log l : forall st,
  apply_all (counter_actor c) st (to_log c l) = Ok (states st (map le_swap l), responses st l).
Proof.
  induction l as [|e l IH]; intros st; simpl; [done|].
  rewrite apply_swap; simpl. fold (to_log c l). rewrite IH. done.
Qed.

Lemma spec_step_ext m1 m2 s : (forall n, m1 n = m2 n) ->
  (spec_step m1 s).2 = (spec_step m2 s).2 /\ forall n, (spec_step m1 s).1 n = (spec_step m2 s).1 n.
Proof.
  intros H. unfold spec_step. rewrite H. destruct (_ =? _)%Z; simpl; [|done].
  split; [done|]. intros n. by destruct (String.eqb _ _).
Qed.
Lemma spec_run_ext ss : forall m1 m2, (forall n, m1 n = m2 n) ->
  (spec_run m1 ss).2 = (spec_run m2 ss).2 /\ forall n, (spec_run m1 ss).1 n = (spec_run m2 ss).1 n.
Proof.
  induction ss as [|s ss IH]; intros m1 m2 H; simpl; [done|].
  destruct (spec_step_ext m1 m2 s H) as [Ha Hm].
  destruct (spec_step m1 s) as [m1' a1] eqn:E1, (spec_step m2 s) as [m2' a2] eqn:E2; simpl in *.
  destruct (IH _ _ Hm) as [Hr Hf].
  destruct (spec_run m1' ss) eqn:F1, (spec_run m2' ss) eqn:F2; simpl in *. by subst.
Qed.

Lemma step_refines st s :
  (forall n, current (swapped st s) n = (spec_step (current st) s).1 n) /\
  reads_as (swap_response st s) s (spec_step (current st) s).2.
Proof.
  rewrite response_of. unfold spec_step. split.
  - intros n. rewrite current_swapped.
    destruct (Z.eqb_spec (current st (sw_name s)).1 (sw_expected s)) as [He|He]; simpl.
    + destruct (String.eqb_spec n (sw_name s)) as [->|Hn]; [by rewrite decide_True|].
      rewrite decide_False; [done|naive_solver].
    + rewrite decide_False; [done|naive_solver].
  - destruct (Z.eqb_spec (current st (sw_name s)).1 (sw_expected s)) as [He|He]; simpl.
    + rewrite decide_True by done. unfold reads_as; simpl. by rewrite He.
    + rewrite decide_False by done. unfold reads_as; simpl. eauto.
Qed.

Lemma run_refines l : forall st,
  (forall n, current (states st (map le_swap l)) n = (spec_run (current st) (map le_swap l)).1 n) /\
  Forall2 (fun e '(out, a) => exists r, reads_as r (le_swap e) a /\
             out = if le_owned e then [response_command c (le_correlation e) r] else [])
    l (zip (responses st l) (spec_run (current st) (map le_swap l)).2) /\
  length (spec_run (current st) (map le_swap l)).2 = length l /\
  length (responses st l) = length l.
Proof.
  induction l as [|e l IH]; intros st; simpl.
  { split_and!; [done|constructor|done|done]. }
  destruct (step_refines st (le_swap e)) as [Hs Hr].
  destruct (spec_step (current st) (le_swap e)) as [m a] eqn:E; simpl in *.
  destruct (IH (swapped st (le_swap e))) as (H1&H2&H3&H4).
  destruct (spec_run_ext (map le_swap l) _ _ Hs) as [Ha Hm].
  destruct (spec_run m (map le_swap l)) as [m' as'] eqn:F; simpl in *.
  split_and!.
  - intros n. by rewrite H1, Hm.
  - constructor; [eauto|]. by rewrite <- Ha.
  - by rewrite <- Ha, H3.
  - by rewrite H4.
Qed.

(** Between two successful swaps that expect the same value, of which the first
    changed it, the value was restored by another successful swap. *)
Lemma value_needs_writer name v ss : forall m,
  (m name).1 <> v ->
  forall (j : nat) s, ss !! j = Some s -> sw_name s = name -> sw_expected s = v ->
  (exists o, (spec_run m ss).2 !! j = Some (Answer true o)) ->
  exists (k : nat) s' o', (k < j)%nat /\ ss !! k = Some s' /\ sw_name s' = name /\ sw_new s' = v /\
    (spec_run m ss).2 !! k = Some (Answer true o').
Proof.
  induction ss as [|s0 ss IH]; intros m Hm j s Hj Hn He [o Ho]; [done|].
  simpl in Ho |- *. unfold spec_step in *.
  destruct (Z.eqb_spec (m (sw_name s0)).1 (sw_expected s0)) as [Heq|Hne].
  - set (m' := fun n => if String.eqb n (sw_name s0) then (sw_new s0, sw_payload s0) else m n) in *.
    destruct (spec_run m' ss) as [mf as'] eqn:F. simpl in *.
    destruct j as [|j].
    { simpl in Hj. injection Hj as ->. subst. done. }
    simpl in Hj, Ho.
    destruct (decide ((m' name).1 = v)) as [Hv|Hv].
    + exists 0%nat, s0, (m (sw_name s0)).1. split_and!; [lia|done| |  |done].
      * unfold m' in Hv. destruct (String.eqb_spec name (sw_name s0)); [done|congruence].
      * unfold m' in Hv. destruct (String.eqb_spec name (sw_name s0)); [done|congruence].
    + destruct (IH m' Hv j s Hj Hn He) as (k&s'&o'&Hk&Hks&H1&H2&H3); [rewrite F; eauto|].
      rewrite F in H3. exists (S k), s', o'. split_and!; [lia|done..].
  - destruct (spec_run m ss) as [mf as'] eqn:F. simpl in *.
    destruct j as [|j]; simpl in Hj, Ho; [congruence|].
    destruct (IH m Hm j s Hj Hn He) as (k&s'&o'&Hk&Hks&H1&H2&H3); [rewrite F; eauto|].
    rewrite F in H3. exists (S k), s', o'. split_and!; [lia|done..].
Qed.

Lemma two_winners ss : forall m (i j : nat) s1 s2 o1 o2,
  (i < j)%nat -> ss !! i = Some s1 -> ss !! j = Some s2 ->
  sw_name s1 = sw_name s2 -> sw_expected s1 = sw_expected s2 -> sw_new s1 <> sw_expected s1 ->
  (spec_run m ss).2 !! i = Some (Answer true o1) ->
  (spec_run m ss).2 !! j = Some (Answer true o2) ->
  exists (k : nat) s o, (i < k < j)%nat /\ ss !! k = Some s /\ sw_name s = sw_name s1 /\ sw_new s = sw_expected s1 /\
    (spec_run m ss).2 !! k = Some (Answer true o).
Proof.
  induction ss as [|s0 ss IH]; intros m i j s1 s2 o1 o2 Hij Hi Hj Hn He Hne Ho1 Ho2; [done|].
  simpl in Ho1, Ho2 |- *. destruct (spec_step m s0) as [m' a0] eqn:E.
  destruct (spec_run m' ss) as [mf as'] eqn:F. simpl in *.
  destruct j as [|j]; [lia|]. simpl in Hj, Ho2.
  destruct i as [|i]; simpl in Hi, Ho1.
  - injection Hi as ->. injection Ho1 as ->.
    unfold spec_step in E. destruct (Z.eqb_spec (m (sw_name s1)).1 (sw_expected s1)); [|congruence].
    injection E as <- _.
    edestruct (value_needs_writer (sw_name s1) (sw_expected s1) ss) as (k&s&o&Hk&H1&H2&H3&H4);
      [|exact Hj|done|done| |].
    2: rewrite F; eauto.
    { simpl. by rewrite String.eqb_refl. }
    rewrite F in H4. exists (S k), s, o. split_and!; [lia|lia|done..].
  - edestruct (IH m' i j s1 s2) as (k&s&o&Hk&H1&H2&H3&H4); [lia|done..| | |].
    1: rewrite F; done. 1: rewrite F; done.
    rewrite F in H4. exists (S k), s, o. split_and!; [lia|lia|done..].
Qed.

Lemma states_dom l : forall st, dom st ⊆ dom (states st l).
Proof.
  induction l as [|s l IH]; intros st; simpl; [done|].
  rewrite <- IH, swapped_dom. set_solver.
Qed.
Lemma states_app l1 l2 : forall st, states st (l1 ++ l2) = states (states st l1) l2.
Proof. induction l1; simpl; auto. Qed.

Lemma union_covers (a b : counters) : dom b ⊆ dom a -> a ∪ b = a.
Proof.
  intros H. apply map_eq. intros k. rewrite lookup_union.
  destruct (a !! k) as [v|] eqn:E; [by destruct (b !! k)|].
  apply not_elem_of_dom in E. assert (Hb : b !! k = None) by (apply not_elem_of_dom; set_solver).
  by rewrite Hb.
Qed.
End Proofs.
