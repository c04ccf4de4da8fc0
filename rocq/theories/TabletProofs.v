From Verif Require Import Base Btree ActorModel ActorSpec TabletModel TabletSpec.

(** * Preparing and committing *)
Lemma tablet_in_table ts name t i : ts !! name = Some t -> tablet ts name i = t !! i.
Proof. intros H. unfold tablet. by rewrite H. Qed.

Lemma prepare_op_ok ts op :
  supported op -> versions_below_max ts ->
  exists r, prepare_op ts op = Ok r.
Proof.
  intros Hs Hv. unfold prepare_op, supported in *.
  destruct (ts !! op_table op) as [t|] eqn:Et; [|eauto].
  destruct (op_kind_of op) as [[from to|i v|m|m|i v]|]; try done; simpl; eauto.
  - destruct (t !! i) as [m|]; [|eauto]. destruct (_ =? _); eauto.
  - destruct m as [u|]; [|eauto]. destruct (t !! tm_id u) as [m|] eqn:Em; [|eauto].
    specialize (Hv (op_table op) (tm_id u) m). rewrite (tablet_in_table _ _ _ _ Et) in Hv.
    destruct (N.eqb_spec (tm_version m) u32_max) as [E|]; [by specialize (Hv Em)|].
    destruct (_ =? _); eauto.
Qed.

Lemma prepare_op_spec ts op r :
  prepare_op ts op = Ok r ->
  or_table r = op_table op /\ (or_status r = OpSucceeded <-> precondition ts op) /\
  (or_status r = OpSucceeded -> is_Some (or_detail r)) /\
  expected_detail ts op (or_detail r).
Proof.
  unfold prepare_op, precondition, expected_detail. intros H.
  destruct (ts !! op_table op) as [t|] eqn:Et.
  2: { injection H as <-. simpl. split_and!; try done. split; [done|]. intros [[? ?] _]; done. }
  destruct (op_kind_of op) as [k|].
  2: { injection H as <-. simpl. split_and!; try done. split; [done|]. by intros [? ?]. }
  destruct k as [from to|i v|m|[u|]|]; simpl in H; try done.
  - injection H as <-. simpl. split_and!; eauto. split; eauto.
  - rewrite (tablet_in_table _ _ _ _ Et).
    destruct (t !! i) as [m|] eqn:Em; simpl.
    + destruct (N.eqb_spec (tm_version m) v) as [E|E]; injection H as <-; simpl.
      * rewrite decide_True by done. split_and!; eauto. split; eauto.
      * rewrite decide_False by done. split_and!; eauto. split; [done|].
        intros [_ (m'&Hm&?)]. congruence.
    + injection H as <-. simpl. split_and!; eauto. split; [done|]. intros [_ (m'&Hm&?)]. congruence.
  - rewrite (tablet_in_table _ _ _ _ Et).
    destruct (t !! tm_id u) as [m|] eqn:Em; simpl.
    + destruct (tm_version m =? u32_max); [done|].
      destruct (N.eqb_spec (tm_version u) (tm_version m + 1)) as [E|E]; injection H as <-; simpl.
      * split_and!; eauto. split; eauto.
      * split_and!; eauto. split; [done|]. intros [_ (m'&Hm&?)]. congruence.
    + injection H as <-. simpl. split_and!; eauto. split; [done|]. intros [_ (m'&Hm&?)]. congruence.
  - injection H as <-. simpl. split_and!; eauto. split; [done|]. by intros [_ ?].
Qed.

Lemma prepare_all_ok ts ops :
  Forall supported ops -> versions_below_max ts -> exists rs, prepare_all ts ops = Ok rs.
Proof.
  intros Hs Hv. induction Hs as [|op ops Ho Hs IH]; simpl; [eauto|].
  destruct (prepare_op_ok ts op Ho Hv) as [r ->]. destruct IH as [rs ->]. simpl. eauto.
Qed.
Lemma prepare_all_spec ts ops rs :
  prepare_all ts ops = Ok rs -> Forall2 (fun op r => prepare_op ts op = Ok r) ops rs.
Proof.
  revert rs. induction ops as [|op ops IH]; intros rs H; simpl in H; [injection H as <-; constructor|].
  destruct (prepare_op ts op) as [r| |] eqn:E; try done. simpl in H.
  destruct (prepare_all ts ops) as [rs'| |] eqn:F; try done. simpl in H. injection H as <-.
  constructor; auto.
Qed.

Lemma all_succeeded_iff ts ops rs :
  prepare_all ts ops = Ok rs ->
  forallb (fun r => bool_decide (or_status r = OpSucceeded)) rs = true <-> Forall (precondition ts) ops.
Proof.
  intros H%prepare_all_spec. induction H as [|op r ops rs Hr H IH]; simpl.
  { split; [constructor|done]. }
  rewrite andb_true_iff, bool_decide_eq_true, Forall_cons, IH.
  destruct (prepare_op_spec _ _ _ Hr) as (_&Hs&_). naive_solver.
Qed.

Lemma commit_op_spec ts op r :
  is_Some (ts !! op_table op) -> is_Some (or_detail r) ->
  match op_kind_of op with
  | Some (OpList _ _) | Some (OpCheck _ _) | Some (OpUpdate (Some _)) => True | _ => False end ->
  exists ts', commit_op ts op r = Ok (ts', r) /\
    (forall name, is_Some (ts' !! name) <-> is_Some (ts !! name)) /\
    forall name i, tablet ts' name i =
      match update_of op with
      | Some (n, u) => if decide (n = name /\ tm_id u = i) then Some u else tablet ts name i
      | None => tablet ts name i
      end.
Proof.
  intros [t Ht] [d Hd] Hk. unfold commit_op, update_of. rewrite Ht. simpl.
  assert (Hr : OpResult (or_table r) (or_status r) (Some d) = r) by (destruct r; simpl in *; by subst).
  assert (Hdom : forall t' name, is_Some (<[op_table op:=t']> ts !! name) <-> is_Some (ts !! name)).
  { intros t' name. destruct (decide (name = op_table op)) as [->|Hn].
    - rewrite lookup_insert, Ht. naive_solver.
    - by rewrite lookup_insert_ne. }
  assert (Hsame : forall name i, tablet (<[op_table op:=t]> ts) name i = tablet ts name i).
  { intros name i. by rewrite insert_id. }
  destruct (op_kind_of op) as [[| | |[u|]|]|]; try done; simpl; rewrite Hd; simpl; rewrite Hr;
    eexists; (split; [reflexivity|]); (split; [apply Hdom|]); try apply Hsame.
  intros name i. unfold tablet. destruct (decide (op_table op = name)) as [<-|Hn].
  - rewrite lookup_insert, Ht. simpl. destruct (decide (tm_id u = i)) as [<-|Hi].
    + rewrite lookup_insert. by rewrite decide_True.
    + rewrite lookup_insert_ne by done. rewrite decide_False; [done|naive_solver].
  - rewrite lookup_insert_ne by done. rewrite decide_False; [done|naive_solver].
Qed.

Lemma last_update_nil name i : last_update [] name i = None.
Proof. done. Qed.
Lemma last_update_cons op ops name i :
  last_update (op :: ops) name i =
  match last_update ops name i with
  | Some u => Some u
  | None => match update_of op with
            | Some (n, u) => if decide (n = name /\ tm_id u = i) then Some u else None
            | None => None
            end
  end.
Proof.
  unfold last_update, updates; simpl. destruct (update_of op) as [[n u]|]; simpl.
  - destruct (decide (n = name /\ tm_id u = i)); simpl.
    + rewrite last_cons. by destruct (last _).
    + by destruct (last _).
  - by destruct (last _).
Qed.

Lemma commit_all_spec ops : forall rs ts,
  Forall2 (fun op r => is_Some (ts !! op_table op) /\ is_Some (or_detail r) /\
     match op_kind_of op with
     | Some (OpList _ _) | Some (OpCheck _ _) | Some (OpUpdate (Some _)) => True | _ => False end) ops rs ->
  exists ts', commit_all ts ops rs = Ok (ts', rs) /\
    (forall name, is_Some (ts' !! name) <-> is_Some (ts !! name)) /\
    forall name i, tablet ts' name i =
      match last_update ops name i with Some u => Some u | None => tablet ts name i end.
Proof.
  induction ops as [|op ops IH]; intros rs ts H.
  { inversion H; subst. simpl. exists ts. split_and!; [done|done|]. done. }
  inversion H as [|? r ? rs' (H1&H2&H3) HF]; subst. simpl.
  destruct (commit_op_spec ts op r H1 H2 H3) as (ts1&->&Hd1&Ht1). simpl.
  destruct (IH rs' ts1) as (ts2&->&Hd2&Ht2).
  { eapply Forall2_impl; [exact HF|]. intros op' r' (A&B&C). by rewrite Hd1. }
  simpl. exists ts2. split; [done|]. split; [intros name; by rewrite Hd2, Hd1|].
  intros name i. rewrite Ht2, Ht1, last_update_cons.
  destruct (last_update ops name i); [done|].
  destruct (update_of op) as [[n u]|]; [|done]. by destruct (decide _).
Qed.

Lemma precondition_kind ts op : precondition ts op ->
  is_Some (ts !! op_table op) /\
  match op_kind_of op with
  | Some (OpList _ _) | Some (OpCheck _ _) | Some (OpUpdate (Some _)) => True | _ => False end.
Proof. intros [? H]. split; [done|]. by destruct (op_kind_of op) as [[| | |[]|]|]. Qed.

(** One request that did not abort. *)
Lemma apply_request_spec ts ops ts' resp :
  apply_tablets_request ts ops = Ok (ts', resp) ->
  prepare_all ts ops = Ok (rs_results resp) /\
  (rs_succeeded resp = true <-> Forall (precondition ts) ops) /\
  (rs_succeeded resp = true ->
     (forall name, is_Some (ts' !! name) <-> is_Some (ts !! name)) /\
     forall name i, tablet ts' name i =
       match last_update ops name i with Some u => Some u | None => tablet ts name i end) /\
  (rs_succeeded resp = false -> ts' = ts).
Proof.
  unfold apply_tablets_request. intros H.
  destruct (prepare_all ts ops) as [rs| |] eqn:E; try done. simpl in H.
  pose proof (all_succeeded_iff _ _ _ E) as Hiff.
  destruct (forallb _ rs) eqn:Ef.
  - assert (HP : Forall (precondition ts) ops) by (by apply Hiff).
    destruct (commit_all_spec ops rs ts) as (ts1&Hc&Hd&Ht).
    { pose proof (prepare_all_spec _ _ _ E) as HF. clear H E Ef Hiff.
      induction HF as [|op r ops rs Hr HF IH]; constructor; [|by apply IH; inversion HP].
      inversion HP; subst. destruct (precondition_kind _ _ H1). split_and!; [done| |done].
      destruct (prepare_op_spec _ _ _ Hr) as (_&Hs&Hdet&_). apply Hdet. by apply Hs. }
    rewrite Hc in H. simpl in H. injection H as <- <-. simpl. split_and!; try done.
  - injection H as <- <-. simpl. split_and!; try done; try naive_solver.
Qed.

Lemma apply_request_ok ts ops :
  Forall supported ops -> versions_below_max ts ->
  exists ts' resp, apply_tablets_request ts ops = Ok (ts', resp).
Proof.
  intros Hs Hv. unfold apply_tablets_request.
  destruct (prepare_all_ok ts ops Hs Hv) as [rs E]. rewrite E. simpl.
  pose proof (all_succeeded_iff _ _ _ E) as Hiff. destruct (forallb _ rs) eqn:Ef; [|eauto].
  assert (HP : Forall (precondition ts) ops) by (by apply Hiff).
  destruct (commit_all_spec ops rs ts) as (ts1&Hc&_&_).
  { pose proof (prepare_all_spec _ _ _ E) as HF. clear E Ef Hiff Hs.
    induction HF as [|op r ops rs Hr HF IH]; constructor; [|by apply IH; inversion HP].
    inversion HP; subst. destruct (precondition_kind _ _ H1). split_and!; [done| |done].
    destruct (prepare_op_spec _ _ _ Hr) as (_&Hs&Hdet&_). apply Hdet. by apply Hs. }
  rewrite Hc. simpl. eauto.
Qed.

(** * Histories *)
Lemma last_update_in ops name i u : last_update ops name i = Some u ->
  exists op, op ∈ ops /\ update_of op = Some (name, u) /\ tm_id u = i.
Proof.
  induction ops as [|op ops IH]; [done|]. rewrite last_update_cons.
  destruct (last_update ops name i) as [u'|] eqn:E.
  - intros [= ->]. destruct (IH eq_refl) as (op'&?&?&?). exists op'. split_and!; [by right|done..].
  - destruct (update_of op) as [[n u']|] eqn:Eu; [|done].
    destruct (decide _) as [[-> <-]|]; [|done]. intros [= ->]. exists op. split_and!; [by left|done..].
Qed.
Lemma last_update_some ops name op u : op ∈ ops -> update_of op = Some (name, u) ->
  is_Some (last_update ops name (tm_id u)).
Proof.
  intros Hin Hu. induction ops as [|o ops IH]; [by apply elem_of_nil in Hin|].
  rewrite last_update_cons. destruct (last_update ops name (tm_id u)) eqn:E; [eauto|].
  apply elem_of_cons in Hin as [<-|Hin].
  - rewrite Hu. rewrite decide_True by done. eauto.
  - destruct (IH Hin). congruence.
Qed.
Lemma update_precondition ts op name u : update_of op = Some (name, u) -> precondition ts op ->
  exists m, tablet ts name (tm_id u) = Some m /\ tm_version u = tm_version m + 1.
Proof.
  unfold update_of, precondition. intros Hu [_ H].
  destruct (op_kind_of op) as [[| | |[v|]|]|]; try done. by injection Hu as <- <-.
Qed.

(** What a request does to one tablet. *)
Lemma request_tablet ts ops ts' resp name i :
  apply_tablets_request ts ops = Ok (ts', resp) ->
  (rs_succeeded resp = true /\ exists op u m, op ∈ ops /\ update_of op = Some (name, u) /\ tm_id u = i /\
     tablet ts name i = Some m /\ tablet ts' name i = Some u /\ tm_version u = tm_version m + 1) \/
  (tablet ts' name i = tablet ts name i /\
   (rs_succeeded resp = true -> forall op u, op ∈ ops -> update_of op = Some (name, u) -> tm_id u <> i)).
Proof.
  intros H. destruct (apply_request_spec _ _ _ _ H) as (_&Hs&Hok&Hno).
  destruct (rs_succeeded resp).
  2: { right. rewrite Hno by done. split; [done|]. done. }
  destruct (Hok eq_refl) as [_ Ht]. specialize (Ht name i).
  destruct (last_update ops name i) as [u|] eqn:E.
  - left. split; [done|]. destruct (last_update_in _ _ _ _ E) as (op&Hin&Hu&Hi).
    destruct Hs as [Hs _]. specialize (Hs eq_refl). rewrite Forall_forall in Hs.
    destruct (update_precondition _ _ _ _ Hu (Hs _ Hin)) as (m&Hm&Hv). subst i. eauto 10.
  - right. split; [done|]. intros _ op u Hin Hu <-.
    destruct (last_update_some _ _ _ _ Hin Hu). congruence.
Qed.

Lemma request_tables ts ops ts' resp name :
  apply_tablets_request ts ops = Ok (ts', resp) -> is_Some (ts' !! name) <-> is_Some (ts !! name).
Proof.
  intros H. destruct (apply_request_spec _ _ _ _ H) as (_&_&Hok&Hno).
  destruct (rs_succeeded resp); [by apply Hok|by rewrite Hno].
Qed.

Lemma request_well_keyed ts ops ts' resp :
  apply_tablets_request ts ops = Ok (ts', resp) -> well_keyed ts -> well_keyed ts'.
Proof.
  intros H Hw name i m Hm.
  destruct (request_tablet _ _ _ _ name i H) as [(_&op&u&m0&_&_&Hi&_&Hu&_)|[E _]].
  - congruence.
  - rewrite E in Hm. eauto.
Qed.

Lemma run_requests_app ts l1 l2 :
  run_requests ts (l1 ++ l2) =
  (let! (ts1, r1) := run_requests ts l1 in
   let! (ts2, r2) := run_requests ts1 l2 in Ok (ts2, r1 ++ r2)).
Proof.
  revert ts. induction l1 as [|ops l1 IH]; intros ts; simpl.
  { by destruct (run_requests ts l2) as [[]| |]. }
  destruct (apply_tablets_request ts ops) as [[ts1 r]| |]; simpl; [|done..].
  rewrite IH. destruct (run_requests ts1 l1) as [[ts2 rs]| |]; simpl; [|done..].
  by destruct (run_requests ts2 l2) as [[]| |].
Qed.
Lemma run_requests_length reqs : forall ts ts' rs,
  run_requests ts reqs = Ok (ts', rs) -> length rs = length reqs.
Proof.
  induction reqs as [|ops reqs IH]; intros ts ts' rs H; simpl in H; [by injection H as _ <-|].
  destruct (apply_tablets_request ts ops) as [[ts1 r]| |]; try done. simpl in H.
  destruct (run_requests ts1 reqs) as [[ts2 rs']| |] eqn:E; try done. simpl in H.
  injection H as _ <-. simpl. by erewrite IH.
Qed.

Lemma run_tablet reqs : forall ts ts' rs name i,
  run_requests ts reqs = Ok (ts', rs) ->
  match tablet ts name i with
  | None => tablet ts' name i = None
  | Some m => exists m', tablet ts' name i = Some m' /\ tm_version m <= tm_version m'
  end.
Proof.
  induction reqs as [|ops reqs IH]; intros ts ts' rs name i H; simpl in H.
  { injection H as <- _. destruct (tablet ts name i); eauto using N.le_refl. }
  destruct (apply_tablets_request ts ops) as [[ts1 r]| |] eqn:E1; try done. simpl in H.
  destruct (run_requests ts1 reqs) as [[ts2 rs']| |] eqn:E2; try done. simpl in H. injection H as <- _.
  specialize (IH _ _ _ name i E2).
  destruct (request_tablet _ _ _ _ name i E1) as [(_&op&u&m&_&_&_&Hm&Hu&Hv)|[Hsame _]].
  - rewrite Hu in IH. rewrite Hm. destruct IH as (m'&?&?). exists m'. split; [done|lia].
  - by rewrite Hsame in IH.
Qed.
Lemma run_tables reqs : forall ts ts' rs name,
  run_requests ts reqs = Ok (ts', rs) -> is_Some (ts' !! name) <-> is_Some (ts !! name).
Proof.
  induction reqs as [|ops reqs IH]; intros ts ts' rs name H; simpl in H.
  { by injection H as <- _. }
  destruct (apply_tablets_request ts ops) as [[ts1 r]| |] eqn:E1; try done. simpl in H.
  destruct (run_requests ts1 reqs) as [[ts2 rs']| |] eqn:E2; try done. simpl in H. injection H as <- _.
  rewrite (IH _ _ _ name E2). by apply (request_tables _ _ _ _ name E1).
Qed.
Lemma run_well_keyed reqs : forall ts ts' rs,
  run_requests ts reqs = Ok (ts', rs) -> well_keyed ts -> well_keyed ts'.
Proof.
  induction reqs as [|ops reqs IH]; intros ts ts' rs H Hw; simpl in H.
  { by injection H as <- _. }
  destruct (apply_tablets_request ts ops) as [[ts1 r]| |] eqn:E1; try done. simpl in H.
  destruct (run_requests ts1 reqs) as [[ts2 rs']| |] eqn:E2; try done. simpl in H. injection H as <- _.
  eapply IH; [exact E2|]. by eapply request_well_keyed.
Qed.

(** * Listing *)
Definition ListInv (t : table) (seen : gset N) (listed : list tablet_metadata) : Prop :=
  NoDup (map tm_id listed) /\ (forall i, i ∈ seen <-> i ∈ map tm_id listed) /\
  forall m, m ∈ listed -> t !! tm_id m = Some m.

Lemma ListInv_push t seen listed i m :
  ListInv t seen listed -> i ∉ seen -> t !! i = Some m -> tm_id m = i ->
  ListInv t ({[i]} ∪ seen) (listed ++ [m]).
Proof.
  intros (Hn&Hs&Ht) Hi Hm <-. split_and!.
  - rewrite map_app. simpl. apply NoDup_app. split_and!; [done| |apply NoDup_singleton].
    intros x Hx Hx'. apply elem_of_list_singleton in Hx' as ->. by apply Hi, Hs.
  - intros x. rewrite map_app, elem_of_app, elem_of_union, Hs. simpl.
    rewrite elem_of_singleton, elem_of_list_singleton. tauto.
  - intros m' [?|Hl]%elem_of_app; [auto|]. apply elem_of_list_singleton in Hl as ->. done.
Qed.

Lemma scan_spec t to items : forall seen listed,
  ListInv t seen listed ->
  StronglySorted key_lt items ->
  (forall i m, (i, m) ∈ items -> t !! i = Some m /\ tm_id m = i) ->
  let '(seen', listed', found) := scan_interval to items seen listed in
  ListInv t seen' listed' /\
  (forall i, i ∈ seen' <-> i ∈ seen \/
     exists m, (i, m) ∈ items /\ forall j m', (j, m') ∈ items -> j < i -> j < to) /\
  (found = true <-> exists i m, (i, m) ∈ items /\ to <= i).
Proof.
  induction items as [|[i m] items IH]; intros seen listed Hinv Hsort Hit; simpl.
  { split_and!; [done| |]; [|split; [done|]]; set_solver. }
  apply StronglySorted_inv in Hsort as [Hsort Hlt]. rewrite Forall_forall in Hlt.
  destruct (Hit i m) as [Htm Hid]; [by left|].
  set (p := if decide (i ∈ seen) then (seen, listed) else ({[i]} ∪ seen, listed ++ [m])).
  assert (Hp : ListInv t p.1 p.2 /\ forall x, x ∈ p.1 <-> x ∈ seen \/ x = i).
  { unfold p. destruct (decide (i ∈ seen)); simpl.
    - split; [done|]. intros x. set_solver.
    - split; [by apply ListInv_push|]. set_solver. }
  destruct p as [seen1 listed1]. simpl in Hp. destruct Hp as [Hinv1 Hseen1].
  destruct (N.leb_spec to i) as [Hle|Hgt].
  - split_and!; [done| |].
    + intros x. rewrite Hseen1. split.
      * intros [?| ->]; [by left|]. right. exists m. split; [by left|].
        intros j m' [?|Hj]%elem_of_cons; [simplify_eq; lia|]. intros Hlt'.
        specialize (Hlt _ Hj). unfold key_lt in Hlt. simpl in Hlt. lia.
      * intros [?|(m'&[?|Hx]%elem_of_cons&Hall)]; [by left|by right; simplify_eq|].
        specialize (Hlt _ Hx). unfold key_lt in Hlt. simpl in Hlt.
        specialize (Hall i m ltac:(by left) Hlt). lia.
    + split; [|done]. intros _. exists i, m. split; [by left|done].
  - specialize (IH seen1 listed1 Hinv1 Hsort). 
    destruct (scan_interval to items seen1 listed1) as [[seen2 listed2] found].
    destruct IH as (Hinv2&Hseen2&Hf). { intros ???. apply Hit. by right. }
    split_and!; [done| |].
    + intros x. rewrite Hseen2, Hseen1. split.
      * intros [[?| ->]|(m'&Hx&Hall)]; [by left| |].
        -- right. exists m. split; [by left|]. intros j m' [?|Hj]%elem_of_cons; [simplify_eq; lia|].
           intros Hlt'. specialize (Hlt _ Hj). unfold key_lt in Hlt. simpl in Hlt. lia.
        -- right. exists m'. split; [by right|]. intros j m'' [?|Hj]%elem_of_cons; [simplify_eq; lia|]. eauto.
      * intros [?|(m'&[?|Hx]%elem_of_cons&Hall)]; [by left; left|by simplify_eq; left; right|].
        right. exists m'. split; [done|]. intros j m'' Hj. apply (Hall j m''). by right.
    + rewrite Hf. split; intros (x&mx&Hx&Hle); exists x, mx; split; try done; [by right|].
      apply elem_of_cons in Hx as [?|?]; [simplify_eq; lia|done].
Qed.

Lemma interval_spec t from to seen listed :
  (forall i m, t !! i = Some m -> tm_id m = i) ->
  from <= to -> ListInv t seen listed ->
  let '(seen', listed') := list_interval t (seen, listed) (from, to) in
  ListInv t seen' listed' /\
  forall i, i ∈ seen' <-> i ∈ seen \/ exists h, from <= h <= to /\ owner t h i.
Proof.
  intros Hk Hft Hinv. unfold list_interval.
  set (items := List.filter (fun x : N * tablet_metadata => from <=? x.1) (btree_list t)).
  assert (Hit : forall i m, (i, m) ∈ items <-> t !! i = Some m /\ from <= i).
  { intros i m. unfold items. rewrite elem_of_list_In, filter_In, <- elem_of_list_In, elem_of_btree_list.
    simpl. by rewrite N.leb_le. }
  assert (Hsort : StronglySorted key_lt items).
  { unfold items. pose proof (btree_list_sorted t) as Hs. clear Hit. revert Hs.
    generalize (btree_list t) as l. clear. intros l Hs.
    induction Hs as [|x l Hs IH Hx]; simpl; [constructor|].
    destruct (from <=? x.1); [|done]. constructor; [done|]. rewrite Forall_forall in Hx |- *.
    intros y Hy. apply Hx. apply elem_of_list_In in Hy. apply filter_In in Hy as [Hy _]. by apply elem_of_list_In. }
  pose proof (scan_spec t to items seen listed Hinv Hsort) as Hscan.
  destruct (scan_interval to items seen listed) as [[seen1 listed1] found].
  destruct Hscan as (Hinv1&Hseen1&Hf).
  { intros i m H%Hit. destruct H. split; [done|eauto]. }
  assert (Hvis : forall i, (exists m, (i, m) ∈ items /\ forall j m', (j, m') ∈ items -> j < i -> j < to) <->
     exists h, from <= h <= to /\ is_Some (t !! i) /\ h <= i /\ forall j, is_Some (t !! j) -> h <= j -> i <= j).
  { intros i. split.
    - intros (m&[Hm Hfi]%Hit&Hall). destruct (N.le_gt_cases i to) as [Hi|Hi].
      + exists i. split_and!; [done..|eauto|lia|]. done.
      + exists to. split_and!; [lia|lia|eauto|lia|]. intros j [mj Hj] Hle.
        destruct (N.le_gt_cases i j) as [|Hlt]; [done|].
        specialize (Hall j mj). assert (j < to); [apply Hall; [apply Hit; split; [done|lia]|done]|lia].
    - intros (h&[Hh1 Hh2]&[m Hm]&Hhi&Hmin). exists m. split; [apply Hit; split; [done|lia]|].
      intros j mj [Hj Hfj]%Hit Hlt. destruct (N.lt_ge_cases j h) as [|Hge]; [lia|].
      specialize (Hmin j (mk_is_Some _ _ Hj) Hge). lia. }
  assert (Hown : forall h i, owner t h i <->
     (is_Some (t !! i) /\ h <= i /\ forall j, is_Some (t !! j) -> h <= j -> i <= j) \/
     (is_Some (t !! i) /\ (forall j, is_Some (t !! j) -> j < h) /\ forall j, is_Some (t !! j) -> i <= j)).
  { intros h i. unfold owner. tauto. }
  destruct found.
  - split; [done|]. intros i. rewrite Hseen1, Hvis. destruct (proj1 Hf eq_refl) as (x&mx&[Hx _]%Hit&Hle).
    split.
    + intros [?|(h&Hh&H1&H2)]; [by left|]. right. exists h. split; [done|]. apply Hown. by left.
    + intros [?|(h&Hh&Ho)]; [by left|]. right. exists h. split; [done|].
      apply Hown in Ho as [(H1&H2)|(_&H2&_)]; [done|]. specialize (H2 x (mk_is_Some _ _ Hx)). lia.
  - assert (Hall : forall j, is_Some (t !! j) -> j < to).
    { intros j [mj Hj]. destruct (N.lt_ge_cases j to) as [|Hge]; [done|].
      assert (false = true); [|done]. apply Hf. exists j, mj. split; [apply Hit; split; [done|lia]|done]. }
    assert (Hmin : forall x mx l, btree_list t = (x, mx) :: l -> t !! x = Some mx /\
              forall j, is_Some (t !! j) -> x <= j).
    { intros x mx l E. split; [apply elem_of_btree_list; rewrite E; by left|].
      intros j [mj Hj]. apply elem_of_btree_list in Hj. rewrite E in Hj.
      pose proof (btree_list_sorted t) as Hs. rewrite E in Hs.
      apply StronglySorted_inv in Hs as [_ Hx]. rewrite Forall_forall in Hx.
      apply elem_of_cons in Hj as [?|Hj]; [simplify_eq; lia|].
      specialize (Hx _ Hj). unfold key_lt in Hx. simpl in Hx. lia. }
    assert (Hset : forall first, (forall j, is_Some (t !! j) -> first <= j) -> is_Some (t !! first) ->
       forall i, (i ∈ seen1 \/ i = first) <-> i ∈ seen \/ exists h, from <= h <= to /\ owner t h i).
    { intros first Hfirst Hex i. rewrite Hseen1, Hvis. split.
      - intros [[?|(h&Hh&H1&H2)]| ->]; [by left| |].
        + right. exists h. split; [done|]. apply Hown. by left.
        + right. exists to. split; [done|]. apply Hown. right. auto.
      - intros [?|(h&Hh&Ho)]; [by left; left|].
        apply Hown in Ho as [(H1&H2)|(H1&H2&H3)]; [left; right; eauto|]. right.
        apply N.le_antisymm; [by apply H3|by apply Hfirst]. }
    destruct (btree_list t) as [|[x mx] l] eqn:E.
    + split; [done|]. intros i. rewrite Hseen1, Hvis.
      assert (Hnone : forall j, t !! j = None).
      { intros j. destruct (t !! j) as [mj|] eqn:Ej; [|done]. apply elem_of_btree_list in Ej.
        rewrite E in Ej. by apply elem_of_nil in Ej. }
      split; (intros [?|(h&Hh&H1)]; [by left|]); [destruct H1 as [[? H1] _]|destruct H1 as [[? H1] _]];
        by rewrite Hnone in H1.
    + destruct (Hmin x mx l eq_refl) as [Hx Hm]. destruct (decide (x ∈ seen1)) as [Hin|Hout].
      * split; [done|]. intros i. rewrite <- (Hset x); [|done|eauto]. split; [by left|].
        intros [?| ->]; done.
      * split; [apply ListInv_push; eauto|]. intros i. rewrite <- (Hset x); [|done|eauto].
        rewrite elem_of_union, elem_of_singleton. tauto.
Qed.

Lemma find_tablets_spec t from to :
  (forall i m, t !! i = Some m -> tm_id m = i) -> from <= u32_max ->
  NoDup (map tm_id (find_tablets t from to)) /\
  (forall m, m ∈ find_tablets t from to -> t !! tm_id m = Some m) /\
  (forall i, i ∈ map tm_id (find_tablets t from to) <-> exists h, closed_range from to h /\ owner t h i).
Proof.
  intros Hk Hmax. unfold find_tablets, closed_range.
  assert (H0 : ListInv t ∅ []). { split_and!; [constructor|set_solver|set_solver]. }
  destruct (N.ltb_spec from to) as [Hlt|Hge].
  - cbn [foldl]. pose proof (interval_spec t from to ∅ [] Hk ltac:(lia) H0) as H.
    destruct (list_interval t (∅, []) (from, to)) as [seen listed]. destruct H as [(H1&H2&H3) Hs].
    cbn [snd]. split_and!; [done..|]. intros i. rewrite <- H2, Hs. set_solver.
  - cbn [foldl]. pose proof (interval_spec t from u32_max ∅ [] Hk ltac:(lia) H0) as H.
    destruct (list_interval t (∅, []) (from, u32_max)) as [seen listed]. destruct H as [Hinv Hs].
    pose proof (interval_spec t 0 to seen listed Hk ltac:(lia) Hinv) as H.
    destruct (list_interval t (seen, listed) (0, to)) as [seen' listed']. destruct H as [(H1&H2&H3) Hs'].
    cbn [snd]. split_and!; [done..|]. intros i. rewrite <- H2, Hs', Hs. split.
    + intros [[?|(h&Hh&Ho)]|(h&Hh&Ho)]; [set_solver|exists h..]; split; try done; lia.
    + intros (h&[Hh|Hh]&Ho); [left; right|right]; exists h; split; try done; lia.
Qed.

(** * Snapshots *)
Lemma load_list_lookup l : forall (acc : table) i,
  NoDup (map tm_id l) ->
  foldl (fun t m => <[tm_id m := m]> t) acc l !! i =
  match list_find (fun m => tm_id m = i) l with Some (_, m) => Some m | None => acc !! i end.
Proof.
  induction l as [|m l IH]; intros acc i Hn; simpl; [done|].
  apply NoDup_cons in Hn as [Hm Hn]. rewrite IH by done.
  destruct (decide (tm_id m = i)) as [<-|Hi].
  - destruct (list_find (fun m0 => tm_id m0 = tm_id m) l) as [[k m']|] eqn:E; simpl.
    + apply list_find_Some in E as (Hl&He&_). exfalso. apply Hm. rewrite <- He.
      apply elem_of_list_fmap. exists m'. split; [done|]. by eapply elem_of_list_lookup_2.
    + by rewrite lookup_insert.
  - destruct (list_find (fun m0 => tm_id m0 = i) l) as [[k m']|]; simpl; [done|].
    by rewrite lookup_insert_ne.
Qed.

Lemma load_save_table name t :
  (forall i m, t !! i = Some m -> tm_id m = i) -> load_table (save_table name t) = t.
Proof.
  intros Hk. unfold load_table, save_table; simpl.
  set (l := merge_sort tm_le (map snd (btree_list t))).
  assert (Hl : l ≡ₚ map snd (btree_list t)) by apply merge_sort_Permutation.
  assert (Hmem : forall m, m ∈ l <-> t !! tm_id m = Some m).
  { intros m. rewrite Hl. change (map snd) with (fmap (M:=list) (@snd N tablet_metadata)).
    rewrite elem_of_list_fmap. split.
    - intros ([i m']&->&H). simpl. apply elem_of_btree_list in H. by rewrite (Hk _ _ H).
    - intros H. exists (tm_id m, m). split; [done|]. by apply elem_of_btree_list. }
  assert (Hn : NoDup (map tm_id l)).
  { change (map tm_id) with (fmap (M:=list) tm_id). rewrite Hl.
    replace (tm_id <$> map snd (btree_list t)) with (map fst (btree_list t)); [apply btree_list_NoDup|].
    assert (HF : Forall (fun x : N * tablet_metadata => tm_id x.2 = x.1) (btree_list t)).
    { apply Forall_forall. intros [i m] H%elem_of_btree_list. simpl. eauto. }
    revert HF. generalize (btree_list t) as xs. clear. intros xs HF.
    induction HF as [|x xs Hx HF IH]; simpl; [done|]. rewrite Hx. f_equal. exact IH. }
  apply map_eq. intros i. rewrite (load_list_lookup l ∅ i Hn).
  destruct (list_find _ l) as [[k m]|] eqn:E.
  - apply list_find_Some in E as (E&<-&_). symmetry. apply Hmem. by eapply elem_of_list_lookup_2.
  - rewrite lookup_empty. symmetry. destruct (t !! i) as [m|] eqn:Em; [|done].
    apply list_find_None in E. rewrite Forall_forall in E. destruct (E m).
    + apply Hmem. by rewrite (Hk _ _ Em).
    + eauto.
Qed.

Lemma load_tables_spec l : forall ts,
  (forall s, s ∈ l -> is_Some (ts !! ts_name s)) -> NoDup (map ts_name l) ->
  exists ts', load_tables ts l = Ok ts' /\
    (forall s, s ∈ l -> ts' !! ts_name s = Some (load_table s)) /\
    (forall name, name ∉ map ts_name l -> ts' !! name = ts !! name).
Proof.
  induction l as [|s l IH]; intros ts Hin Hn; simpl.
  { exists ts. split_and!; [done|set_solver|done]. }
  apply NoDup_cons in Hn as [Hs Hn].
  destruct (Hin s) as [t Ht]; [by left|]. rewrite Ht.
  destruct (IH (<[ts_name s := load_table s]> ts)) as (ts'&->&H1&H2); [|done|].
  { intros s' Hs'. destruct (decide (ts_name s' = ts_name s)) as [->|Hne].
    - rewrite lookup_insert. eauto.
    - rewrite lookup_insert_ne by done. apply Hin. by right. }
  exists ts'. split; [done|]. split.
  - intros s' [->|Hs']%elem_of_cons; [|by apply H1]. rewrite H2 by done. by rewrite lookup_insert.
  - intros name Hname. apply not_elem_of_cons in Hname as [??]. rewrite H2 by done. by rewrite lookup_insert_ne.
Qed.

Lemma load_tables_unknown l s : forall ts,
  s ∈ l -> ts !! ts_name s = None -> load_tables ts l = Err ASnapshotLoading.
Proof.
  induction l as [|s' l IH]; intros ts Hin Hn; [by apply elem_of_nil in Hin|]. simpl.
  destruct (ts !! ts_name s') as [t|] eqn:E; [|done].
  apply elem_of_cons in Hin as [<-|Hin]; [congruence|]. apply IH; [done|].
  rewrite lookup_insert_ne; [done|]. congruence.
Qed.

Lemma load_save c order ts old :
  tablet_codec_ok c -> order_ok order -> well_keyed ts -> dom old = dom ts ->
  exists b, tablet_save c order ts = Ok b /\ tablet_load c old b = Ok ts.
Proof.
  intros Hc Ho Hw Hd. eexists. split; [reflexivity|]. unfold tablet_load.
  rewrite (tables_round_trip _ Hc). specialize (Ho ts).
  set (l := map (fun '(name, t) => save_table name t) (order ts)).
  assert (Hmem : forall s, s ∈ l <-> exists name t, s = save_table name t /\ ts !! name = Some t).
  { intros s. unfold l. rewrite elem_of_list_In, in_map_iff. split.
    - intros ([name t]&<-&Hin). apply elem_of_list_In in Hin. rewrite Ho in Hin.
      apply elem_of_map_to_list in Hin. eauto.
    - intros (name&t&->&Ht). exists (name, t). split; [done|]. apply elem_of_list_In. rewrite Ho.
      by apply elem_of_map_to_list. }
  assert (Hnames : map ts_name l = map fst (order ts)).
  { unfold l. rewrite map_map. apply map_ext. by intros [name t]. }
  destruct (load_tables_spec l old) as (ts'&Hl&H1&H2).
  { intros s (name&t&->&Ht)%Hmem. simpl. apply elem_of_dom. rewrite Hd. apply elem_of_dom. eauto. }
  { rewrite Hnames. change (map fst) with (fmap (M:=list) (@fst string table)). rewrite Ho.
    apply NoDup_fst_map_to_list. }
  rewrite Hl. f_equal. apply map_eq. intros name. destruct (ts !! name) as [t|] eqn:Et.
  - assert (Hin : save_table name t ∈ l) by (apply Hmem; eauto). specialize (H1 _ Hin). simpl in H1.
    rewrite H1. f_equal. apply load_save_table. intros i m Hm. apply (Hw name). unfold tablet. by rewrite Et.
  - rewrite H2.
    + apply not_elem_of_dom. rewrite Hd. by apply not_elem_of_dom.
    + rewrite Hnames. intros Hin. apply elem_of_list_In, in_map_iff in Hin as ([n t]&Hn&Hin). simpl in Hn. subst n.
      apply elem_of_list_In in Hin. rewrite Ho in Hin. apply elem_of_map_to_list in Hin. congruence.
Qed.

Lemma create_table_keyed ids i m : create_table ids !! i = Some m -> m = fresh_tablet i /\ i ∈ ids.
Proof.
  unfold create_table.
  assert (H : forall l (acc : table), (forall i m, acc !! i = Some m -> m = fresh_tablet i /\ i ∈ ids) ->
     l ⊆ ids -> forall i m, foldl (fun t i => <[i := fresh_tablet i]> t) acc l !! i = Some m ->
       m = fresh_tablet i /\ i ∈ ids).
  { intros l. induction l as [|x l IH]; intros acc Hacc Hsub i' m'; simpl; [by apply Hacc|].
    apply IH; [|set_solver]. intros j mj. destruct (decide (j = x)) as [->|Hj].
    - rewrite lookup_insert. intros [= <-]. split; [done|]. set_solver.
    - rewrite lookup_insert_ne by done. apply Hacc. }
  apply H; [|done]. set_solver.
Qed.
Lemma create_tables_keyed generate configs : well_keyed (create_tables generate configs).
Proof.
  unfold create_tables. generalize (imap (fun n c => (n, c)) configs) as l.
  assert (H0 : well_keyed ∅) by (intros n i m H; unfold tablet in H; by rewrite lookup_empty in H).
  revert H0. generalize (∅ : tables) as acc. intros acc Hacc l. revert acc Hacc.
  induction l as [|[n [name count]] l IH]; intros acc Hacc; simpl; [done|]. apply IH.
  intros nm i m. unfold tablet. destruct (decide (nm = name)) as [->|Hn].
  - rewrite lookup_insert. simpl. intros H%create_table_keyed. destruct H as [-> _]. done.
  - rewrite lookup_insert_ne by done. apply Hacc.
Qed.
