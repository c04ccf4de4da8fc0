(** Proofs about the endpoint services. *)
From Verif Require Import Base CommModel ServiceModel ServiceSpec.

Section Proofs.
Context {D IN OUT : Type}.
Variable receive : D -> N -> option IN -> res pal_error (D * list OUT).
Notation service := (service D IN OUT).
Notation request := (request IN).
Notation event := (event IN OUT).
Notation serve := (serve receive).
Notation serves := (serves receive).
Notation handles := (handles receive).
Notation explains := (explains receive).
Notation ids := (map (fun x : N * request * list OUT => x.1.1)).

Definition working (t : thread D IN OUT) : list (N * request) := match t with Working _ i q => [(i, q)] | _ => [] end.
Definition pending (s : service) : list (N * request) := sv_waiting s ++ sv_channel s ++ working (sv_thread s).
Definition driver_of (t : thread D IN OUT) : option D :=
  match t with Idle d | Working d _ _ | Replying d _ _ => Some d | Dead => None end.
Definition returned_before (tr : list event) (i j : N) : Prop :=
  exists t1 r t2 q t3, tr = t1 ++ Returned i r :: t2 ++ Called j q :: t3.

Definition error_before (tr : list event) (j : N) : Prop :=
  exists t1 i t2 q t3, tr = t1 ++ Returned i None :: t2 ++ Called j q :: t3.

Record sinv (d0 : D) (tr : list event) (s : service) (order : list (N * request * list OUT)) : Prop := SInv {
  si_handled : exists d, handles d0 (map (fun x => (x.1.2, x.2)) order) d /\
    (forall d', driver_of (sv_thread s) = Some d' -> d' = d) /\
    (sv_thread s = Dead -> (exists i, Cancelled i ∈ tr) \/
      exists j q, Called j q ∈ tr /\ j ∉ ids order /\ forall x, receive d (rq_instant q) (rq_message q) <> Ok x);
  si_made : forall i q out, (i, q, out) ∈ order -> Called i q ∈ tr;
  si_once : NoDup (ids order);
  si_pending : forall i q, (i, q) ∈ pending s -> Called i q ∈ tr /\ i ∉ ids order;
  si_pending_once : NoDup (map fst (pending s));
  si_fresh_call : forall i q, Called i q ∈ tr -> i < sv_next s;
  si_fresh_return : forall i r, Returned i r ∈ tr -> i < sv_next s;
  si_fresh_cancel : forall i, Cancelled i ∈ tr -> i < sv_next s;
  si_replies : forall i out, (i, out) ∈ sv_replies s -> exists q, (i, q, out) ∈ order;
  si_replying : forall d i out, sv_thread s = Replying d i out -> exists q, (i, q, out) ∈ order;
  si_returned : forall i out, Returned i (Some out) ∈ tr -> exists q, (i, q, out) ∈ order;
  si_gone : forall i r, Returned i r ∈ tr -> i ∉ map fst (pending s);
  si_real_time : forall i j, returned_before tr i j ->
    forall o1 qj outj o2, order = o1 ++ (j, qj, outj) :: o2 -> i ∉ ids o2;
  si_dead : sv_thread s = Dead -> sv_channel s = [];
  si_open : forall i, i ∈ sv_open s <-> outstanding tr i;
  si_open_once : NoDup (sv_open s);
  si_next : forall i, i ∈ calls_made tr -> i < sv_next s;
  si_somewhere : forall i, i ∈ sv_open s -> i ∈ map fst (pending s) \/ (exists d out, sv_thread s = Replying d i out) \/
    i ∈ map fst (sv_replies s) \/ sv_thread s = Dead;
  si_error : forall i, Returned i None ∈ tr -> sv_thread s = Dead;
  si_wanted : (forall i, Cancelled i ∉ tr) -> forall i, i ∈ map fst (pending s) \/ (exists d out, sv_thread s = Replying d i out) -> i ∈ sv_open s;
  si_reply_once : forall d i out, sv_thread s = Replying d i out -> i ∉ map fst (sv_replies s) /\ forall r, Returned i r ∉ tr;
  si_not_replied : forall i, i ∈ map fst (pending s) -> i ∉ map fst (sv_replies s);
  si_after_error : forall j, error_before tr j -> j ∉ ids order;
}.

Lemma order_open (order : list (N * request * list OUT)) i q out : (i, q, out) ∈ order -> i ∈ ids order.
Proof using Type. intros Hin. apply elem_of_list_fmap. by exists (i, q, out). Qed.
Lemma elem_fst {A} (l : list (N * A)) i : i ∈ map fst l <-> exists a, (i, a) ∈ l.
Proof using Type.
  rewrite elem_of_list_fmap. split; [intros ([j a] & -> & Hin); by exists a|intros [a Hin]; by exists (i, a)].
Qed.
Lemma elem_snoc {A} (l : list A) x y : x ∈ l ++ [y] <-> x ∈ l \/ x = y.
Proof using Type. by rewrite elem_of_app, elem_of_list_singleton. Qed.
Lemma fst_snoc {A} (l : list (N * A)) i j a : i ∈ map fst (l ++ [(j, a)]) <-> i ∈ map fst l \/ i = j.
Proof using Type. rewrite map_app. apply elem_snoc. Qed.
Lemma fst_app {A} (l1 l2 : list (N * A)) i : i ∈ map fst (l1 ++ l2) <-> i ∈ map fst l1 \/ i ∈ map fst l2.
Proof using Type. rewrite map_app. apply elem_of_app. Qed.
Lemma returned_before_snoc (tr : list event) e i j : returned_before (tr ++ [e]) i j ->
  returned_before tr i j \/ exists q r, e = Called j q /\ Returned i r ∈ tr.
Proof using Type.
  intros (t1 & r & t2 & q & t3 & E). destruct t3 as [|e' t3 _] using rev_ind.
  - right. assert (t1 ++ Returned i r :: t2 ++ [Called j q] = (t1 ++ Returned i r :: t2) ++ [Called j q]) as E' by (by rewrite <- app_assoc).
    rewrite E' in E. apply app_inj_tail in E as [-> ->]. exists q, r. split; [done|]. apply elem_of_app. right. by left.
  - left. exists t1, r, t2, q, t3.
    assert (t1 ++ Returned i r :: t2 ++ Called j q :: t3 ++ [e'] = (t1 ++ Returned i r :: t2 ++ Called j q :: t3) ++ [e']) as E'
      by (rewrite <- app_assoc; simpl; by rewrite <- app_assoc).
    rewrite E' in E. apply app_inj_tail in E as [-> _]. done.
Qed.
Lemma error_before_snoc (tr : list event) e j : error_before (tr ++ [e]) j ->
  error_before tr j \/ exists q i, e = Called j q /\ Returned i None ∈ tr.
Proof using Type.
  intros (t1 & i & t2 & q & t3 & E). destruct t3 as [|e' t3 _] using rev_ind.
  - right. assert (t1 ++ Returned i None :: t2 ++ [Called j q] = (t1 ++ Returned i None :: t2) ++ [Called j q]) as E' by (by rewrite <- app_assoc).
    rewrite E' in E. apply app_inj_tail in E as [-> ->]. exists q, i. split; [done|]. apply elem_of_app. right. by left.
  - left. exists t1, i, t2, q, t3.
    assert (t1 ++ Returned i None :: t2 ++ Called j q :: t3 ++ [e'] = (t1 ++ Returned i None :: t2 ++ Called j q :: t3) ++ [e']) as E'
      by (rewrite <- app_assoc; simpl; by rewrite <- app_assoc).
    rewrite E' in E. apply app_inj_tail in E as [-> _]. done.
Qed.
Lemma outstanding_new (tr : list event) n q i : (forall i, i ∈ calls_made tr -> i < n) -> (forall i r, Returned i r ∈ tr -> i < n) ->
  (forall i, Cancelled i ∈ tr -> i < n) -> outstanding (tr ++ [Called n q]) i <-> outstanding tr i \/ i = n.
Proof using Type.
  intros H1 H2 H3. unfold outstanding, calls_made. rewrite omap_app. simpl. rewrite elem_snoc. split.
  - intros ([Hc|Hc] & Hr & Hx); [left|by right]. split_and!; [done|intros r Hin; apply (Hr r), elem_snoc; by left|intros Hin; apply Hx, elem_snoc; by left].
  - intros [(Hc & Hr & Hx)| ->].
    + split_and!; [by left|intros r [Hin|[=]]%elem_snoc; by apply (Hr r)|intros [Hin|[=]]%elem_snoc; done].
    + split_and!; [by right|intros r [Hin|[=]]%elem_snoc; apply H2 in Hin; lia|intros [Hin|[=]]%elem_snoc; apply H3 in Hin; lia].
Qed.
Lemma outstanding_gone (tr : list event) e k i : (e = Cancelled k \/ exists r, e = Returned k r) ->
  outstanding (tr ++ [e]) i <-> outstanding tr i /\ i <> k.
Proof using Type.
  intros He. unfold outstanding, calls_made. rewrite omap_app, elem_of_app.
  assert (omap (fun e => match e with Called i _ => Some i | _ => None end) [e] = @nil N) as -> by (by destruct He as [->|[r ->]]).
  split.
  - intros ([Hc|Hc] & Hr & Hx); [|by apply elem_of_nil in Hc]. split_and!; [done|intros r Hin; apply (Hr r), elem_of_app; by left|intros Hin; apply Hx, elem_of_app; by left|].
    intros ->. destruct He as [->|[r ->]]; [apply Hx|apply (Hr r)]; apply elem_of_app; right; by left.
  - intros [(Hc & Hr & Hx) Hne]. split_and!; [by left|intros r [Hin|Hin]%elem_of_app; [by apply (Hr r)|]|intros [Hin|Hin]%elem_of_app; [done|]];
      apply elem_of_list_singleton in Hin; destruct He as [->|[r' ->]]; congruence.
Qed.

Lemma sinv_call d0 tr t n w c o r q order : sinv d0 tr (Service t n w c o r) order ->
  sinv d0 (tr ++ [Called n q]) (Service t (n + 1) (w ++ [(n, q)]) c (o ++ [n]) r) order.
Proof using Type.
  intros [Hh Hm Ho Hp Hpo Hfc Hfr Hfx Hr Hrp Hret Hg Hrt Hd Hop Hopo Hn Hs He Hw Hro Hnr Hae]. unfold pending in *. simpl in *.
  assert (n ∉ ids order) as Hnew.
  { intros ([[i q'] out] & -> & Hin)%elem_of_list_fmap. apply Hm, Hfc in Hin. simpl in Hin. lia. }
  assert (forall i, i ∈ map fst (w ++ c ++ working t) -> i < n) as Hlt.
  { intros i [q' Hin]%elem_fst. apply Hp in Hin as [Hin _]. by apply Hfc in Hin. }
  assert (forall i, i ∈ map fst r -> i < n) as Hltr.
  { intros i [out Hin]%elem_fst. apply Hr in Hin as [q' Hin]. by apply Hm, Hfc in Hin. }
  assert ((w ++ [(n, q)]) ++ c ++ working t ≡ₚ (w ++ c ++ working t) ++ [(n, q)]) as Hperm.
  { rewrite <- app_assoc, (Permutation_app_comm [(n, q)]). by rewrite app_assoc. }
  assert (forall i, i ∈ map fst ((w ++ [(n, q)]) ++ c ++ working t) <-> i ∈ map fst (w ++ c ++ working t) \/ i = n) as Hpn.
  { intros i. rewrite Hperm. apply fst_snoc. }
  split; unfold pending; simpl.
  - destruct Hh as (d & H1 & H2 & H3). exists d. split_and!; [done|done|]. intros Ht.
    destruct (H3 Ht) as [[i Hi]|(j & q' & Hj & Hj')]; [left; exists i|right; exists j, q'; split; [|done]]; apply elem_snoc; by left.
  - intros i q' out Hin. apply elem_snoc. left. by eapply Hm.
  - done.
  - intros i q' Hin. rewrite Hperm in Hin. apply elem_snoc in Hin as [Hin|[= -> ->]].
    + apply Hp in Hin as [H1 H2]. split; [|done]. apply elem_snoc. by left.
    + split; [|done]. apply elem_snoc. by right.
  - rewrite Hperm, map_app. apply NoDup_app. split_and!; [done| |apply NoDup_singleton].
    intros i Hin Hi. apply elem_of_list_singleton in Hi. apply Hlt in Hin. simpl in Hi. lia.
  - intros i q' [Hin|[= -> ->]]%elem_snoc; [apply Hfc in Hin|]; lia.
  - intros i r' [Hin|[=]]%elem_snoc. apply Hfr in Hin. lia.
  - intros i [Hin|[=]]%elem_snoc. apply Hfx in Hin. lia.
  - done.
  - done.
  - intros i out [Hin|[=]]%elem_snoc. by apply Hret.
  - intros i r' [Hin|[=]]%elem_snoc. intros [Hx| ->]%Hpn; [by apply (Hg i r')|]. apply Hfr in Hin. lia.
  - intros i j Hij o1 qj outj o2 E. apply returned_before_snoc in Hij as [Hij|(q' & r' & [= <- <-] & Hin)]; [by eapply Hrt|].
    exfalso. apply Hnew. rewrite E, map_app. apply elem_of_app. right. by left.
  - done.
  - intros i. rewrite elem_snoc, Hop. symmetry. by apply outstanding_new.
  - apply NoDup_app. split_and!; [done| |apply NoDup_singleton]. intros i Hi Hx. apply elem_of_list_singleton in Hx. apply Hop in Hi as [Hi _]. apply Hn in Hi. lia.
  - intros i. unfold calls_made. rewrite omap_app. simpl. rewrite elem_snoc. intros [Hi| ->]; [apply Hn in Hi; lia|lia].
  - intros i [Hi| ->]%elem_snoc; [|left; apply Hpn; by right]. destruct (Hs i Hi) as [Hx|Hx]; [left; apply Hpn; by left|by right].
  - intros i [Hin|[=]]%elem_snoc. by apply (He i).
  - intros Hnc i Hi. assert (forall k, Cancelled k ∉ tr) as Hnc' by (intros k Hk; apply (Hnc k), elem_snoc; by left).
    apply elem_snoc. destruct Hi as [[Hi| ->]%Hpn|Hi]; [left; apply Hw; [done|by left]|by right|left; apply Hw; [done|by right]].
  - intros d i out Ht. destruct (Hro d i out Ht) as [H1 H2]. split; [done|]. intros r' [Hin|[=]]%elem_snoc. by apply (H2 r').
  - intros i [Hi| ->]%Hpn Hx; [by apply (Hnr i)|]. apply Hltr in Hx. lia.
  - intros j [Hj|(q' & i & [= <- <-] & _)]%error_before_snoc; [by apply Hae|done].
Qed.
(** Steps nobody sees. *)
Lemma sinv_quiet d0 tr s s' order order' : sinv d0 tr s order -> sv_next s' = sv_next s -> sv_open s' = sv_open s ->
  (exists d, handles d0 (map (fun x => (x.1.2, x.2)) order') d /\
    (forall d', driver_of (sv_thread s') = Some d' -> d' = d) /\
    (sv_thread s' = Dead -> (exists i, Cancelled i ∈ tr) \/
      exists j q, Called j q ∈ tr /\ j ∉ ids order' /\ forall x, receive d (rq_instant q) (rq_message q) <> Ok x)) ->
  (order' = order \/ exists i q out, order' = order ++ [(i, q, out)] /\ (i, q) ∈ pending s /\ i ∉ map fst (pending s') /\ sv_thread s <> Dead) ->
  (exists l, pending s ≡ₚ pending s' ++ l) ->
  (forall i out, (i, out) ∈ sv_replies s' -> exists q, (i, q, out) ∈ order') ->
  (forall d i out, sv_thread s' = Replying d i out -> exists q, (i, q, out) ∈ order') ->
  (sv_thread s' = Dead -> sv_channel s' = []) ->
  (sv_thread s = Dead -> sv_thread s' = Dead) ->
  (forall i, i ∈ sv_open s -> i ∈ map fst (pending s') \/ (exists d out, sv_thread s' = Replying d i out) \/
    i ∈ map fst (sv_replies s') \/ sv_thread s' = Dead) ->
  (forall d i out, sv_thread s' = Replying d i out -> i ∈ map fst (pending s) \/ (sv_thread s = sv_thread s' /\ sv_replies s' = sv_replies s)) ->
  (forall i, i ∈ map fst (sv_replies s') -> i ∈ map fst (sv_replies s) \/ exists d out, sv_thread s = Replying d i out) ->
  sinv d0 tr s' order'.
Proof using Type.
  intros [Hh Hm Ho Hp Hpo Hfc Hfr Hfx Hr Hrp Hret Hg Hrt Hd Hop Hopo Hn Hs He Hw Hro Hnr Hae] En Eo Ah Aorder [l Hl] Arep Arpl Adead Akeep Asome Ath Arr.
  assert (forall i q, (i, q) ∈ pending s' -> (i, q) ∈ pending s) as Hsub by (intros i q Hin; rewrite Hl; apply elem_of_app; by left).
  assert (forall i, i ∈ map fst (pending s') -> i ∈ map fst (pending s)) as Hsubi.
  { intros i [q Hin]%elem_fst. apply elem_fst. exists q. by apply Hsub. }
  assert (forall x, x ∈ order -> x ∈ order') as Hmore.
  { intros x Hx. destruct Aorder as [->|(i & q & out & -> & _)]; [done|]. apply elem_snoc. by left. }
  split; rewrite ?En, ?Eo; try done.
  - intros i q out Hin. destruct Aorder as [->|(i' & q' & out' & -> & Hi' & _)]; [by eapply Hm|]. apply elem_snoc in Hin as [Hin|[= -> -> ->]]; [by eapply Hm|]. by apply Hp in Hi' as [Hi' _].
  - destruct Aorder as [->|(i' & q' & out' & -> & Hi' & _)]; [done|]. rewrite map_app. apply NoDup_app. split_and!; [done| |apply NoDup_singleton].
    intros i Hi Hx. apply elem_of_list_singleton in Hx as ->. apply Hp in Hi' as [_ Hi']. done.
  - intros i q Hin. pose proof (Hsub _ _ Hin) as Hin'. apply Hp in Hin' as [H1 H2]. split; [done|].
    destruct Aorder as [->|(i' & q' & out' & -> & Hi' & Hx & _)]; [done|]. rewrite map_app; simpl; rewrite elem_snoc; intros [Hy| ->]; [done|]. apply Hx, elem_fst. by exists q.
  - rewrite Hl, map_app in Hpo. by apply NoDup_app in Hpo as [Hpo _].
  - intros i out Hin. destruct (Hret i out Hin) as [q Hq]. exists q. by apply Hmore.
  - intros i r Hin Hx. by apply (Hg i r), Hsubi.
  - intros i j Hij o1 qj outj o2 E. destruct Aorder as [->|(i' & q' & out' & -> & Hi' & Hx & _)]; [by eapply Hrt|].
    destruct o2 as [|y o2 _] using rev_ind; [set_solver|].
    assert (o1 ++ (j, qj, outj) :: o2 ++ [y] = (o1 ++ (j, qj, outj) :: o2) ++ [y]) as E' by (by rewrite <- app_assoc).
    rewrite E' in E. apply app_inj_tail in E as [E <-]. rewrite map_app; simpl; rewrite elem_snoc; intros [Hy| ->]; [by eapply Hrt|].
    destruct Hij as (t1 & r & t2 & q & t3 & ->). apply (Hg i' r); [apply elem_of_app; right; by left|]. apply elem_fst. by exists q'.
  - intros i Hi. by apply Akeep, (He i).
  - intros Hnc i [Hi|(d & out & Hi)]; apply Hw; [done|left; by apply Hsubi|done|].
    destruct (Ath _ _ _ Hi) as [Hx|[E _]]; [by left|right]. exists d, out. by rewrite E.
  - intros d i out Ht. destruct (Ath _ _ _ Ht) as [Hi|[E E']]; [split|rewrite E'; rewrite <- E in Ht; by eapply Hro].
    + intros Hx. apply Arr in Hx as [Hx|(d' & out' & Hx)]; [by eapply Hnr|]. destruct (Hrp _ _ _ Hx) as [q Hq].
      apply elem_fst in Hi as [q' Hi]. apply Hp in Hi as [_ Hi]. apply Hi. by eapply order_open.
    + intros r Hx. by eapply Hg.
  - intros i Hi Hx. apply Hsubi in Hi. apply Arr in Hx as [Hx|(d' & out' & Hx)]; [by eapply Hnr|]. destruct (Hrp _ _ _ Hx) as [q Hq].
    apply elem_fst in Hi as [q' Hi]. apply Hp in Hi as [_ Hi]. apply Hi. by eapply order_open.
  - intros j Hj. destruct Aorder as [->|(i' & q' & out' & -> & Hi' & _ & Alive)]; [by apply Hae|]. rewrite map_app; simpl; rewrite elem_snoc. intros [Hx| ->]; [by eapply Hae|].
    destruct Hj as (t1 & i & t2 & q & t3 & ->). apply Alive. eapply (He i), elem_of_app. right. by left.
Qed.
(** A caller leaves. *)
Lemma sinv_leave d0 tr t n w c o1 k o2 r w' e order : sinv d0 tr (Service t n w c (o1 ++ k :: o2) r) order ->
  ((exists out, e = Returned k (Some out) /\ (k, out) ∈ r /\ w' = w) \/
   (e = Returned k None /\ t = Dead /\ k ∉ map fst r /\ w' = filter (fun x => x.1 <> k) w) \/
   (e = Cancelled k /\ w' = filter (fun x => x.1 <> k) w)) ->
  sinv d0 (tr ++ [e]) (Service t n w' c (o1 ++ o2) r) order.
Proof using Type.
  intros [Hh Hm Ho Hp Hpo Hfc Hfr Hfx Hr Hrp Hret Hg Hrt Hd Hop Hopo Hn Hs He Hw Hro Hnr Hae] Hc. unfold pending in *. simpl in *.
  assert (e = Cancelled k \/ exists r, e = Returned k r) as Hek.
  { destruct Hc as [(out & -> & _)|[(-> & _)|(-> & _)]]; [right; by eexists|right; by eexists|by left]. }
  assert (forall i q, e <> Called i q) as Hnc by (intros i q ->; destruct Hek as [Hek|[? Hek]]; discriminate Hek).
  assert (k ∈ o1 ++ k :: o2) as Hko by (apply elem_of_app; right; by left).
  assert (k < n) as Hkn by (apply Hop in Hko as [Hko _]; by apply Hn).
  assert (exists l, w ≡ₚ w' ++ l) as [l Hl].
  { assert (forall w : list (N * request), w ≡ₚ filter (fun x => x.1 <> k) w ++ filter (fun x => ~ x.1 <> k) w) as Hf.
    { clear. intros w. induction w as [|x w IH]; [done|]. rewrite !filter_cons. destruct (decide (x.1 <> k)) as [H|H].
      - rewrite decide_False by tauto. simpl. by rewrite <- IH.
      - rewrite decide_True by done. rewrite <- Permutation_middle. by rewrite <- IH. }
    destruct Hc as [(out & _ & _ & ->)|[(_ & _ & _ & ->)|(_ & ->)]]; [exists []; by rewrite app_nil_r|by eexists|by eexists]. }
  assert (exists l, w ++ c ++ working t ≡ₚ (w' ++ c ++ working t) ++ l) as [l' Hl'].
  { exists l. rewrite Hl, <- !app_assoc. f_equiv. rewrite (Permutation_app_comm l). by rewrite <- app_assoc. }
  assert (forall i q, (i, q) ∈ w' ++ c ++ working t -> (i, q) ∈ w ++ c ++ working t) as Hsub by (intros i q Hin; rewrite Hl'; apply elem_of_app; by left).
  assert (forall i, i ∈ map fst (w' ++ c ++ working t) -> i ∈ map fst (w ++ c ++ working t)) as Hsubi.
  { intros i [q Hin]%elem_fst. apply elem_fst. exists q. by apply Hsub. }
  assert (forall i, i <> k -> i ∈ map fst (w ++ c ++ working t) -> i ∈ map fst (w' ++ c ++ working t)) as Hkeep.
  { intros i Hne Hi. apply elem_fst in Hi as [q Hi]. apply elem_fst. exists q. apply elem_of_app in Hi as [Hi|Hi]; apply elem_of_app; [left|by right].
    destruct Hc as [(out & _ & _ & ->)|[(_ & _ & _ & ->)|(_ & ->)]]; [done|by apply elem_of_list_filter..]. }
  assert (forall i, i ∈ o1 ++ o2 <-> i ∈ o1 ++ k :: o2 /\ i <> k) as Ho12.
  { intros i. rewrite NoDup_app in Hopo. destruct Hopo as (N1 & N2 & N3). apply NoDup_cons in N3 as [N3 _].
    rewrite !elem_of_app, elem_of_cons. split; [|tauto]. intros [Hi|Hi]; (split; [tauto|]); intros ->; [apply (N2 k Hi); by left|done]. }
  split; unfold pending; simpl.
  - destruct Hh as (d & H1 & H2 & H3). exists d. split_and!; [done|done|]. intros Ht.
    destruct (H3 Ht) as [[i Hi]|(j & q' & Hj & Hj')]; [left; exists i|right; exists j, q'; split; [|done]]; apply elem_snoc; by left.
  - intros i q' out Hin. apply elem_snoc. left. by eapply Hm.
  - done.
  - intros i q' Hin. apply Hsub, Hp in Hin as [H1 H2]. split; [|done]. apply elem_snoc. by left.
  - rewrite Hl', map_app in Hpo. by apply NoDup_app in Hpo as [Hpo _].
  - intros i q' [Hin|Hx]%elem_snoc; [by eapply Hfc|]. by destruct (Hnc i q').
  - intros i r' [Hin|Hx]%elem_snoc; [by eapply Hfr|]. destruct Hek as [->|[r'' ->]]; [done|]. by injection Hx as -> _.
  - intros i [Hin|Hx]%elem_snoc; [by eapply Hfx|]. destruct Hek as [->|[r'' ->]]; [|done]. by injection Hx as ->.
  - done.
  - done.
  - intros i out [Hin|Hx]%elem_snoc; [by apply Hret|]. destruct Hc as [(out' & -> & Hin & _)|[(-> & _)|(-> & _)]]; [|done|done]. injection Hx as -> ->. by apply Hr.
  - intros i r' [Hin|Hx]%elem_snoc Hy; [by apply (Hg i r'), Hsubi|].
    destruct Hc as [(out & -> & Hk & ->)|[(-> & -> & Hk & ->)|(-> & ->)]]; [| |done].
    + injection Hx as -> ->. apply (Hnr k); [done|]. apply elem_fst. by exists out.
    + injection Hx as -> ->. rewrite (Hd eq_refl) in Hy. simpl in Hy. rewrite app_nil_r in Hy. apply elem_fst in Hy as [q Hy]. by apply elem_of_list_filter in Hy as [Hy _].
  - intros i j Hij o1' qj outj o2' E. apply returned_before_snoc in Hij as [Hij|(q' & r' & -> & Hin)]; [by eapply Hrt|]. by destruct (Hnc j q').
  - done.
  - intros i. rewrite Ho12, Hop. symmetry. by apply outstanding_gone.
  - rewrite NoDup_app in Hopo. destruct Hopo as (N1 & N2 & N3). apply NoDup_cons in N3 as [_ N3]. apply NoDup_app. split_and!; [done| |done].
    intros i Hi Hx. apply (N2 i Hi). by right.
  - intros i. unfold calls_made. rewrite omap_app, elem_of_app. intros [Hi|Hi]; [by apply Hn|].
    destruct Hek as [->|[r'' ->]]; by apply elem_of_nil in Hi.
  - intros i [Hi Hne]%Ho12. destruct (Hs i Hi) as [Hx|Hx]; [left; by apply Hkeep|by right].
  - intros i [Hin|Hx]%elem_snoc; [by apply (He i)|]. destruct Hc as [(out & -> & _)|[(_ & -> & _)|(-> & _)]]; done.
  - intros Hnx i Hi. assert (forall k, Cancelled k ∉ tr) as Hnx' by (intros k' Hk'; apply (Hnx k'), elem_snoc; by left).
    apply Ho12. split.
    + apply Hw; [done|]. destruct Hi as [Hi|Hi]; [left; by apply Hsubi|by right].
    + intros ->. destruct Hc as [(out & -> & Hk & ->)|[(-> & -> & Hk & ->)|(-> & ->)]].
      * destruct Hi as [Hi|(d & out' & Hi)].
        -- apply (Hnr k Hi). apply elem_fst. by exists out.
        -- apply Hro in Hi as [Hi _]. apply Hi, elem_fst. by exists out.
      * destruct Hi as [Hi|(d & out' & Hi)]; [|done]. rewrite (Hd eq_refl) in Hi. simpl in Hi. rewrite app_nil_r in Hi. apply elem_fst in Hi as [q Hi].
        by apply elem_of_list_filter in Hi as [Hi _].
      * apply (Hnx k), elem_snoc. by right.
  - intros d i out Ht. destruct (Hro d i out Ht) as [H1 H2]. split; [done|]. intros r' [Hin|Hx]%elem_snoc; [by apply (H2 r')|].
    destruct Hc as [(out' & -> & Hk & ->)|[(-> & -> & Hk & ->)|(-> & ->)]]; [| |done].
    + injection Hx as -> ->. apply H1, elem_fst. by exists out'.
    + done.
  - intros i Hi. by apply Hnr, Hsubi.
  - intros j [Hj|(q' & i & -> & _)]%error_before_snoc; [by apply Hae|]. by destruct (Hnc j q').
Qed.

Lemma any_cancelled (tr : list event) : (exists i, Cancelled i ∈ tr) \/ (forall i, Cancelled i ∉ tr).
Proof using Type.
  induction tr as [|e tr [[i Hi]|IH]]; [right; intros i Hi; by apply elem_of_nil in Hi|left; exists i; by right|].
  destruct e as [i q|i r|i]; [right|right|left; exists i; by left]; intros k Hk; apply elem_of_cons in Hk as [Hk|Hk]; [discriminate Hk|by apply (IH k)|discriminate Hk|by apply (IH k)].
Qed.
Lemma serves_inv d0 tr s : serves d0 tr s -> exists order, sinv d0 tr s order.
Proof using Type.
  induction 1 as [|tr s e s' Hs [order I] Hstep].
  - exists []. split; unfold pending, service_new, outstanding, calls_made; simpl; try (intros; set_solver).
    + exists d0. split_and!; [constructor|by intros d' [= ->]|done].
    + constructor.
    + constructor.
    + intros i j (t1 & r & t2 & q & t3 & E). by destruct t1.
    + constructor.
  - destruct Hstep as [t n w c o r q|t n w1 x w2 o r Ht|d n w i q c o r|d n w i q c o r d' out Hrec|d n w i q c o r Hrec|d n w i out c o r Hi|d n w i out c o r Hi|t n w c o1 i o2 r out Hi|n w c o1 i o2 r Hi|t n w c o1 i o2 r]; simpl; rewrite ?app_nil_r.
    + exists order. by apply sinv_call.
    + exists order. assert (w1 ++ x :: w2 ++ working t ≡ₚ (w1 ++ w2) ++ [x] ++ working t) as Hp.
      { rewrite <- app_assoc. f_equiv. simpl. by rewrite Permutation_middle. }
      eapply sinv_quiet; [exact I|done|done|..]; unfold pending; simpl.
      * apply I.
      * by left.
      * exists []. rewrite app_nil_r, <- Hp. by rewrite <- app_assoc.
      * apply I.
      * apply I.
      * done.
      * done.
      * intros k Hk. destruct (si_somewhere _ _ _ _ I k Hk) as [Hx|Hx]; [left|by right]. unfold pending in Hx. simpl in Hx. rewrite <- app_assoc in Hx. simpl in Hx. by rewrite Hp in Hx.
      * intros d k out E. by right.
      * intros k Hk. by left.
    + exists order. assert (w ++ ((i, q) :: c) ++ [] ≡ₚ w ++ c ++ [(i, q)]) as Hp.
      { rewrite app_nil_r. f_equiv. by rewrite Permutation_cons_append. }
      eapply sinv_quiet; [exact I|done|done|..]; unfold pending; simpl.
      * destruct (si_handled _ _ _ _ I) as (d1 & H1 & H2 & _). exists d1. done.
      * by left.
      * exists []. rewrite (app_nil_r (w ++ c ++ _)). exact Hp.
      * apply I.
      * done.
      * done.
      * done.
      * intros k Hk. destruct (si_somewhere _ _ _ _ I k Hk) as [Hx|[(d' & out & Hx)|[Hx|Hx]]]; [|done|right; right; by left|done].
        left. unfold pending in Hx. simpl in Hx. by rewrite Hp in Hx.
      * done.
      * intros k Hk. by left.
    + exists (order ++ [(i, q, out)]). assert ((i, q) ∈ pending (Service (Working d i q) n w c o r)) as Hin.
      { unfold pending. simpl. apply elem_of_app. right. apply elem_of_app. right. by left. }
      destruct (si_handled _ _ _ _ I) as (d1 & H1 & H2 & _). specialize (H2 d eq_refl) as <-.
      assert (i ∉ map fst (w ++ c)) as Hni.
      { pose proof (si_pending_once _ _ _ _ I) as Hx. unfold pending in Hx. simpl in Hx. rewrite app_assoc, map_app in Hx. apply NoDup_app in Hx as (_ & Hx & _).
        intros Hy. apply (Hx i Hy). by left. }
      eapply sinv_quiet; [exact I|done|done|..]; unfold pending; simpl; rewrite ?app_nil_r.
      * exists d'. split_and!; [|by intros ? [= ->]|done]. rewrite map_app. simpl. by econstructor.
      * right. exists i, q, out. split_and!; [done|done|done|done].
      * exists [(i, q)]. by rewrite app_assoc.
      * intros k out' Hk. destruct (si_replies _ _ _ _ I k out' Hk) as [q' Hq']. exists q'. apply elem_snoc. by left.
      * intros d2 k out' [= -> -> ->]. exists q. apply elem_snoc. by right.
      * done.
      * done.
      * intros k Hk. destruct (si_somewhere _ _ _ _ I k Hk) as [Hx|[(d2 & out' & Hx)|[Hx|Hx]]]; [|done|right; right; by left|done].
        unfold pending in Hx. simpl in Hx. rewrite app_assoc in Hx. apply fst_snoc in Hx as [Hx| ->]; [by left|]. right. left. by eexists _, _.
      * intros d2 k out' [= -> -> ->]. left. rewrite app_assoc. apply fst_snoc. by right.
      * intros k Hk. by left.
    + exists order. assert ((i, q) ∈ pending (Service (Working d i q) n w c o r)) as Hin.
      { unfold pending. simpl. apply elem_of_app. right. apply elem_of_app. right. by left. }
      destruct (si_handled _ _ _ _ I) as (d1 & H1 & H2 & _). specialize (H2 d eq_refl) as <-.
      eapply sinv_quiet; [exact I|done|done|..]; unfold pending; simpl; rewrite ?app_nil_r.
      * exists d. split_and!; [done|done|]. intros _. right. exists i, q. destruct (si_pending _ _ _ _ I _ _ Hin) as [H3 H4]. done.
      * by left.
      * by eexists.
      * apply I.
      * done.
      * done.
      * done.
      * intros k Hk. by repeat right.
      * done.
      * intros k Hk. by left.
    + exists order. destruct (si_handled _ _ _ _ I) as (d1 & H1 & H2 & _). specialize (H2 d eq_refl) as <-.
      eapply sinv_quiet; [exact I|done|done|..]; unfold pending; simpl; rewrite ?app_nil_r.
      * exists d. split_and!; [done|by intros ? [= ->]|done].
      * by left.
      * exists []. by rewrite app_nil_r.
      * intros k out' [Hk|[= -> ->]]%elem_snoc; [by apply I|]. by apply (si_replying _ _ _ _ I d).
      * done.
      * done.
      * done.
      * intros k Hk. destruct (si_somewhere _ _ _ _ I k Hk) as [Hx|[(d2 & out' & Hx)|[Hx|Hx]]].
        -- left. unfold pending in Hx. simpl in Hx. by rewrite app_nil_r in Hx.
        -- injection Hx as -> -> ->. right. right. left. apply fst_snoc. by right.
        -- right. right. left. apply fst_snoc. by left.
        -- done.
      * done.
      * intros k [Hk| ->]%fst_snoc; [by left|]. right. by eexists _, _.
    + exists order. destruct (si_handled _ _ _ _ I) as (d1 & H1 & H2 & _). specialize (H2 d eq_refl) as <-.
      eapply sinv_quiet; [exact I|done|done|..]; unfold pending; simpl; rewrite ?app_nil_r.
      * exists d. split_and!; [done|done|]. intros _. left. destruct (any_cancelled tr) as [Hany|Hno]; [done|]. destruct Hi.
        apply (si_wanted _ _ _ _ I); [done|]. right. by eexists _, _.
      * by left.
      * exists c. done.
      * apply I.
      * done.
      * done.
      * done.
      * intros k Hk. by repeat right.
      * done.
      * intros k Hk. by left.
    + exists order. eapply sinv_leave; [exact I|]. left. by exists out.
    + exists order. eapply sinv_leave; [exact I|]. right. by left.
    + exists order. eapply sinv_leave; [exact I|]. right. by right.
Qed.

(** ** Calls can return *)
Lemma quiet_step d0 tr s s' : serves d0 tr s -> serve s None s' -> serves d0 tr s'.
Proof using Type. intros H1 H2. rewrite <- (app_nil_r tr). by eapply (serves_step _ _ _ s None). Qed.
Definition at_rest (t : thread D IN OUT) : Prop := match t with Idle _ | Dead => True | _ => False end.
Lemma finish d0 tr s : serves d0 tr s ->
  exists s', serves d0 tr s' /\ sv_open s' = sv_open s /\ sv_waiting s' = sv_waiting s /\ at_rest (sv_thread s') /\
    (sv_channel s' = sv_channel s \/ sv_thread s' = Dead).
Proof using Type.
  assert (forall d i out n w c o r, serves d0 tr (Service (Replying d i out) n w c o r) ->
    exists s', serves d0 tr s' /\ sv_open s' = o /\ sv_waiting s' = w /\ at_rest (sv_thread s') /\ (sv_channel s' = c \/ sv_thread s' = Dead)) as Hr.
  { intros d i out n w c o r Hs. destruct (decide (i ∈ o)) as [Hi|Hi].
    - eexists. split; [eapply quiet_step; [exact Hs|by apply serve_reply]|]. simpl. auto.
    - eexists. split; [eapply quiet_step; [exact Hs|by apply serve_unwanted]|]. simpl. auto. }
  destruct s as [t n w c o r]. intros Hs. destruct t as [d|d i q|d i out|]; simpl.
  - eexists. split; [exact Hs|]. simpl. auto.
  - destruct (receive d (rq_instant q) (rq_message q)) as [[d' out]| |] eqn:E.
    + eapply (Hr d' i out n w c o r), quiet_step; [exact Hs|by apply serve_handle].
    + eexists. split; [eapply quiet_step; [exact Hs|apply serve_fail; by rewrite E]|]. simpl. auto.
    + eexists. split; [eapply quiet_step; [exact Hs|apply serve_fail; by rewrite E]|]. simpl. auto.
  - by eapply Hr.
  - eexists. split; [exact Hs|]. simpl. auto.
Qed.
Lemma settle d0 tr : forall k s, serves d0 tr s -> length (sv_channel s) = k ->
  exists s', serves d0 tr s' /\ sv_open s' = sv_open s /\ sv_waiting s' = sv_waiting s /\
    (((exists d, sv_thread s' = Idle d) /\ sv_channel s' = []) \/ sv_thread s' = Dead).
Proof using Type.
  induction k as [|k IH]; intros s Hs Hk; destruct (finish _ _ _ Hs) as (s1 & H1 & Eo & Ew & Hrest & Hch).
  - exists s1. split_and!; [done..|]. destruct Hch as [Hch|Hch]; [|by right]. destruct (sv_thread s1) as [d| | |]; [left|done|done|by right].
    split; [by exists d|]. rewrite Hch. by apply nil_length_inv.
  - destruct Hch as [Hch|Hch]; [|exists s1; split_and!; [done..|by right]]. destruct s1 as [[d| | |] n w c o r]; simpl in *; [|done|done|].
    + subst c. destruct (sv_channel s) as [|[i q] c]; [done|]. simpl in Hk. injection Hk as Hk.
      edestruct (IH (Service (Working d i q) n w c o r)) as (s2 & H2 & Eo2 & Ew2 & Hx); [|done|].
      * eapply quiet_step; [exact H1|]. apply serve_take.
      * exists s2. rewrite Eo2, Ew2. simpl. done.
    + eexists. split; [exact H1|]. simpl. auto.
Qed.
Lemma can_return d0 tr i : forall k s, serves d0 tr s -> i ∈ sv_open s -> length (sv_waiting s) = k ->
  exists r s', serves d0 (tr ++ [Returned i r]) s'.
Proof using Type.
  assert (forall s, serves d0 tr s -> i ∈ sv_open s -> i ∈ map fst (sv_replies s) -> exists r s', serves d0 (tr ++ [Returned i r]) s') as Hrep.
  { intros [t n w c o r] Hs Hi Hr. simpl in *. apply elem_of_list_split in Hi as (o1 & o2 & ->). apply elem_fst in Hr as [out Hr].
    eexists (Some out), _. eapply (serves_step _ _ _ _ (Some _)); [exact Hs|by apply serve_return]. }
  assert (forall s, serves d0 tr s -> i ∈ sv_open s -> sv_thread s = Dead -> exists r s', serves d0 (tr ++ [Returned i r]) s') as Hdead.
  { intros s Hs Hi Hd. destruct (decide (i ∈ map fst (sv_replies s))) as [Hr|Hr]; [by eapply Hrep|].
    destruct s as [t n w c o r]. simpl in *. subst t. apply elem_of_list_split in Hi as (o1 & o2 & ->).
    eexists None, _. eapply (serves_step _ _ _ _ (Some _)); [exact Hs|by apply serve_error]. }
  induction k as [|k IH]; intros s Hs Hi Hk; destruct (settle _ _ _ _ Hs eq_refl) as (s1 & H1 & Eo & Ew & [[[d Hd] Hc]|Hd]);
    try (eapply Hdead; [exact H1|by rewrite Eo|done]).
  - destruct (serves_inv _ _ _ H1) as [order I]. rewrite <- Eo in Hi. destruct (si_somewhere _ _ _ _ I i Hi) as [Hx|[(d' & out & Hx)|[Hx|Hx]]]; [|congruence|by eapply Hrep|congruence].
    unfold pending in Hx. rewrite Ew, Hc, Hd in Hx. apply nil_length_inv in Hk. rewrite Hk in Hx. by apply elem_of_nil in Hx.
  - destruct s1 as [t n w c o r]. simpl in *. subst. destruct (sv_waiting s) as [|[j q] w] eqn:Es; [done|]. simpl in Hk. injection Hk as Hk.
    eapply (IH (Service (Idle d) n w [(j, q)] (sv_open s) r)); [|done|done].
    eapply quiet_step; [exact H1|]. by apply (serve_send _ _ _ [] (j, q) w).
Qed.
End Proofs.
