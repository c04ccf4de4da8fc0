(** Theorems about the endpoint services. *)
From Verif Require Import Base CommModel ServiceModel ServiceSpec ServiceProofs.

Section Theorems.
Context {D IN OUT : Type}.
Variable receive : D -> N -> option IN -> res pal_error (D * list OUT).

(** ** C83: calls are handled one at a time *)
(** Whatever calls are made, overlap, return or are cancelled: what callers see can
    be explained by handling the requests one at a time, each between the moment
    it is made and the moment it returns. *)
Theorem C83_calls_are_atomic d0 tr s : serves receive d0 tr s -> exists order, explains receive d0 order tr.
Proof using Type.
  intros Hs. destruct (serves_inv _ _ _ _ Hs) as [order I]. exists order. split.
  - destruct (si_handled _ _ _ _ _ I) as (d & Hd & _). by exists d.
  - apply I.
  - apply I.
  - apply I.
  - intros t1 i r t2 j q t3 o1 o2 qj outj E Eo. eapply (si_real_time _ _ _ _ _ I i j); [|exact Eo]. by exists t1, r, t2, q, t3.
Qed.
(** No call is stuck: whatever happened so far, a call that is outstanding can
    return without any other call being made, returning or being cancelled. *)
Theorem C83_calls_return d0 tr s i : serves receive d0 tr s -> outstanding tr i ->
  exists r s', serves receive d0 (tr ++ [Returned i r]) s'.
Proof using Type.
  intros Hs Hi. destruct (serves_inv _ _ _ _ Hs) as [order I]. eapply can_return; [exact Hs| |done]. by apply (si_open _ _ _ _ _ I).
Qed.
(** The service of the restricted kernel: its calls, one after the other, return
    what the driver sends to the host while it handles them. *)
Fixpoint kernel_calls (d : D) (qs : list (request IN)) : res unit (D * list (list OUT)) :=
  match qs with
  | [] => Ok (d, [])
  | q :: qs =>
    let! (d, out) := kernel_receive receive d q in
    let! (d, outs) := kernel_calls d qs in
    Ok (d, out :: outs)
  end.
Theorem C83_kernel_calls d0 qs d outs : kernel_calls d0 qs = Ok (d, outs) ->
  length outs = length qs /\ handles receive d0 (zip qs outs) d.
Proof using Type.
  assert (forall qs d0 pre d d1 outs, handles receive d1 pre d0 -> kernel_calls d0 qs = Ok (d, outs) ->
    length outs = length qs /\ handles receive d1 (pre ++ zip qs outs) d) as Hgen.
  { clear. intros qs. induction qs as [|q qs IH]; intros d0 pre d d1 outs Hpre Hk; simpl in Hk.
    - injection Hk as <- <-. rewrite app_nil_r. done.
    - unfold kernel_receive in Hk. destruct (receive d0 (rq_instant q) (rq_message q)) as [[d2 out]| |] eqn:E; cbn [res_bind] in Hk; [|done..].
      destruct (kernel_calls d2 qs) as [[d3 outs3]| |] eqn:E3; cbn [res_bind] in Hk; [|done..]. injection Hk as <- <-.
      destruct (IH d2 (pre ++ [(q, out)]) d3 d1 outs3) as [Hl Hh]; [by econstructor|done|]. split; [simpl; by f_equal|]. simpl.
      by rewrite <- app_assoc in Hh. }
  intros Hk. apply (Hgen qs d0 [] d d0 outs); [constructor|done].
Qed.

(** ** C84: unrecoverable errors *)
(** Once a call has returned an error, no call made later gets a reply. *)
Theorem C84_no_reply_after_an_error d0 tr s t1 i t2 j q out : serves receive d0 tr s -> tr = t1 ++ Returned i None :: t2 ->
  Called j q ∈ t2 -> Returned j (Some out) ∉ tr.
Proof using Type.
  intros Hs E Hj Hin. destruct (serves_inv _ _ _ _ Hs) as [order I]. apply elem_of_list_split in Hj as (t3 & t4 & ->).
  destruct (si_returned _ _ _ _ _ I _ _ Hin) as [q' Hq]. eapply (si_after_error _ _ _ _ _ I j); [|by eapply order_open].
  by exists t1, i, t3, q, t4.
Qed.
(** Calls fail only for a reason: a request the driver could not handle, after the
    requests that were, or a caller that gave up (see C85). *)
Theorem C84_errors_have_a_cause d0 tr s i : serves receive d0 tr s -> Returned i None ∈ tr ->
  (exists k, Cancelled k ∈ tr) \/
  exists order d j q, explains receive d0 order tr /\ handles receive d0 (map (fun x => (x.1.2, x.2)) order) d /\
    Called j q ∈ tr /\ j ∉ map (fun x => x.1.1) order /\ forall x, receive d (rq_instant q) (rq_message q) <> Ok x.
Proof using Type.
  intros Hs Hi. destruct (serves_inv _ _ _ _ Hs) as [order I]. pose proof (si_error _ _ _ _ _ I i Hi) as Hd.
  destruct (si_handled _ _ _ _ _ I) as (d & Hh & _ & Hc). destruct (Hc Hd) as [Hx|(j & q & H1 & H2 & H3)]; [by left|]. right.
  exists order, d, j, q. split_and!; [|done..]. split.
  - by exists d.
  - apply I.
  - apply I.
  - apply I.
  - intros t1 i' r t2 j' q' t3 o1 o2 qj outj E Eo. eapply (si_real_time _ _ _ _ _ I i' j'); [|exact Eo]. by exists t1, r, t2, q', t3.
Qed.
(** The service of the restricted kernel aborts on every error of the driver. *)
Theorem C84_kernel_aborts d q : (forall x, receive d (rq_instant q) (rq_message q) <> Ok x) -> kernel_receive receive d q = Panic.
Proof using Type. intros Hx. unfold kernel_receive. destruct (receive d _ _) as [[d' out]| |]; [by destruct (Hx (d', out))|done|done]. Qed.

(** ** C85: callers that give up *)
(** A caller that gives up while its request is in the channel or being handled
    stops the replica: with every driver, after a request it handles, the next
    call returns an error although nothing failed. *)
Theorem C85_cancelled_calls_refuted d0 q d1 out : receive d0 (rq_instant q) (rq_message q) = Ok (d1, out) ->
  exists s, serves receive d0 [Called 0 q; Cancelled 0; Called 1 q; Returned 1 None] s /\ sv_thread s = Dead.
Proof using Type.
  intros Hr. eexists. split.
  - assert (serves receive d0 [Called 0 q] (Service (Idle d0) 1 [(0, q)] [] [0] [])) as H1
      by (apply (serves_step receive d0 [] (service_new d0) (Some (Called 0 q))); [apply serves_new|apply (serve_call receive (Idle d0) 0 [] [] [] [] q)]).
    assert (serves receive d0 [Called 0 q] (Service (Idle d0) 1 [] [(0, q)] [0] [])) as H2
      by (apply (serves_step receive d0 [Called 0 q] _ None _ H1), (serve_send receive (Idle d0) 1 [] (0, q) [] [0] []); done).
    assert (serves receive d0 [Called 0 q; Cancelled 0] (Service (Idle d0) 1 [] [(0, q)] [] [])) as H3
      by apply (serves_step receive d0 [Called 0 q] _ (Some (Cancelled 0)) _ H2), (serve_cancel receive (Idle d0) 1 [] [(0, q)] [] 0 [] []).
    assert (serves receive d0 [Called 0 q; Cancelled 0] (Service (Working d0 0 q) 1 [] [] [] [])) as H4
      by apply (serves_step receive d0 [Called 0 q; Cancelled 0] _ None _ H3), (serve_take receive d0 1 [] 0 q [] [] []).
    assert (serves receive d0 [Called 0 q; Cancelled 0] (Service (Replying d1 0 out) 1 [] [] [] [])) as H5
      by apply (serves_step receive d0 [Called 0 q; Cancelled 0] _ None _ H4), (serve_handle receive d0 1 [] 0 q [] [] [] d1 out Hr).
    assert (serves receive d0 [Called 0 q; Cancelled 0] (Service Dead 1 [] [] [] [])) as H6
      by (apply (serves_step receive d0 [Called 0 q; Cancelled 0] _ None _ H5), (serve_unwanted receive d1 1 [] 0 out [] [] []); set_solver).
    assert (serves receive d0 [Called 0 q; Cancelled 0; Called 1 q] (Service Dead 2 [(1, q)] [] [1] [])) as H7
      by apply (serves_step receive d0 [Called 0 q; Cancelled 0] _ (Some (Called 1 q)) _ H6), (serve_call receive Dead 1 [] [] [] [] q).
    apply (serves_step receive d0 [Called 0 q; Cancelled 0; Called 1 q] _ (Some (Returned 1 None)) _ H7), (serve_error receive 2 [(1, q)] [] [] 1 [] []). set_solver.
  - done.
Qed.
End Theorems.

(** ** Examples *)
(** A driver that counts the requests it has handled, sends the count to the host
    and fails on the instant 13. *)
Definition ex_receive (d : N) (instant : N) (m : option N) : res pal_error (N * list N) :=
  if instant =? 13 then Err Internal else Ok (d + 1, [d + 1]).
Definition ex_q (t : N) : request N := Request t None.
(** Two overlapping calls, the second of which is handled first. *)
Example C83_example : exists s,
  serves ex_receive 0 [Called 0 (ex_q 1); Called 1 (ex_q 2); Returned 1 (Some [1]); Returned 0 (Some [2])] s /\
  explains ex_receive 0 [(1, ex_q 2, [1]); (0, ex_q 1, [2])]
    [Called 0 (ex_q 1); Called 1 (ex_q 2); Returned 1 (Some [1]); Returned 0 (Some [2])].
Proof.
  eexists. split.
  - pose proof (serves_new ex_receive 0) as H.
    assert (forall tr s e s', serves ex_receive 0 tr s -> serve ex_receive s e s' -> serves ex_receive 0 (tr ++ option_list e) s') as Hs by apply serves_step.
    pose proof (Hs _ _ _ _ H (serve_call ex_receive (Idle 0) 0 [] [] [] [] (ex_q 1))) as H1.
    pose proof (Hs _ _ _ _ H1 (serve_call ex_receive (Idle 0) 1 [(0, ex_q 1)] [] [0] [] (ex_q 2))) as H2.
    pose proof (Hs _ _ _ _ H2 (serve_send ex_receive (Idle 0) 2 [(0, ex_q 1)] (1, ex_q 2) [] [0; 1] [] ltac:(done))) as H3.
    pose proof (Hs _ _ _ _ H3 (serve_take ex_receive 0 2 [(0, ex_q 1)] 1 (ex_q 2) [] [0; 1] [])) as H4.
    pose proof (Hs _ _ _ _ H4 (serve_handle ex_receive 0 2 [(0, ex_q 1)] 1 (ex_q 2) [] [0; 1] [] 1 [1] eq_refl)) as H5.
    pose proof (Hs _ _ _ _ H5 (serve_reply ex_receive 1 2 [(0, ex_q 1)] 1 [1] [] [0; 1] [] ltac:(set_solver))) as H6.
    pose proof (Hs _ _ _ _ H6 (serve_return ex_receive (Idle 1) 2 [(0, ex_q 1)] [] [0] 1 [] [(1, [1])] [1] ltac:(set_solver))) as H7.
    pose proof (Hs _ _ _ _ H7 (serve_send ex_receive (Idle 1) 2 [] (0, ex_q 1) [] [0] [(1, [1])] ltac:(done))) as H8.
    pose proof (Hs _ _ _ _ H8 (serve_take ex_receive 1 2 [] 0 (ex_q 1) [] [0] [(1, [1])])) as H9.
    pose proof (Hs _ _ _ _ H9 (serve_handle ex_receive 1 2 [] 0 (ex_q 1) [] [0] [(1, [1])] 2 [2] eq_refl)) as H10.
    pose proof (Hs _ _ _ _ H10 (serve_reply ex_receive 2 2 [] 0 [2] [] [0] [(1, [1])] ltac:(set_solver))) as H11.
    exact (Hs _ _ _ _ H11 (serve_return ex_receive (Idle 2) 2 [] [] [] 0 [] [(1, [1]); (0, [2])] [2] ltac:(set_solver))).
  - split.
    + exists 2. simpl. apply (handles_more ex_receive 0 [(ex_q 2, [1])] 1 (ex_q 1) [2] 2); [|done].
      apply (handles_more ex_receive 0 [] 0 (ex_q 2) [1] 1); [constructor|done].
    + intros i q out. rewrite !elem_of_cons. intros [[= -> -> ->]|[[= -> -> ->]|Hx]]; [set_solver|set_solver|by apply elem_of_nil in Hx].
    + simpl. repeat constructor; set_solver.
    + intros i out. rewrite !elem_of_cons. intros [[=]|[[=]|[[= -> ->]|[[= -> ->]|Hx]]]]; [exists (ex_q 2); set_solver|exists (ex_q 1); set_solver|by apply elem_of_nil in Hx].
    + intros t1 i r t2 j q t3 o1 o2 qj outj E _. exfalso. destruct t1 as [|e1 [|e2 [|e3 [|e4 t1]]]]; simpl in E; try discriminate E.
      * simplify_eq/=. by destruct t2 as [|? [|? ?]].
      * simplify_eq/=. by destruct t2.
      * simplify_eq/=. by destruct t1.
Qed.
Example C84_example : kernel_calls ex_receive 0 [ex_q 1; ex_q 2] = Ok (2, [[1]; [2]]) /\ kernel_receive ex_receive 2 (ex_q 13) = Panic.
Proof. done. Qed.
Example C85_example : exists s,
  serves ex_receive 0 [Called 0 (ex_q 1); Cancelled 0; Called 1 (ex_q 1); Returned 1 None] s /\ sv_thread s = Dead.
Proof. by apply (C85_cancelled_calls_refuted ex_receive 0 (ex_q 1) 1 [1]). Qed.
