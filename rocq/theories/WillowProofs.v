From Verif Require Import Base ActorModel ActorSpec WillowModel WillowSpec.

Lemma key_list_perm st : key_list st ≡ₚ map_to_list st.
Proof. apply merge_sort_Permutation. Qed.
Lemma elem_of_key_list st k kp : (k, kp) ∈ key_list st <-> st !! k = Some kp.
Proof. by rewrite key_list_perm, elem_of_map_to_list. Qed.

Lemma min_entry_aux l : forall b,
  let best := foldl (fun best x => match best with None => Some x
                | Some b => if (kp_order x.2 <? kp_order b.2)%Z then Some x else Some b end) (Some b) l in
  exists m, best = Some m /\ (m = b \/ m ∈ l) /\ (kp_order m.2 <= kp_order b.2)%Z /\
    forall x, x ∈ l -> (kp_order m.2 <= kp_order (x : bytes * key_pair).2)%Z.
Proof.
  induction l as [|x l IH]; intros b; simpl.
  { exists b. split_and!; [done|by left|lia|]. intros x Hx. by apply elem_of_nil in Hx. }
  destruct (Z.ltb_spec (kp_order x.2) (kp_order b.2)) as [Hlt|Hge].
  - destruct (IH x) as (m&->&Hm&Hle&Hall). exists m. split_and!; [done| |lia|].
    + right. destruct Hm as [->|?]; [by left|by right].
    + intros y [->|Hy]%elem_of_cons; [lia|auto].
  - destruct (IH b) as (m&->&Hm&Hle&Hall). exists m. split_and!; [done| |lia|].
    + destruct Hm as [->|?]; [by left|right; by right].
    + intros y [->|Hy]%elem_of_cons; [lia|auto].
Qed.
Lemma oldest_key_spec st : st <> ∅ -> exists k, oldest_key st = Some k /\ is_oldest st k.
Proof.
  intros Hne. unfold oldest_key, min_entry. destruct (key_list st) as [|b l] eqn:E.
  { destruct Hne. apply map_to_list_empty_iff. apply Permutation_nil_r. rewrite <- E.
    symmetry. apply key_list_perm. }
  cbn [foldl]. destruct (min_entry_aux l b) as (m&->&Hm&Hle&Hall). exists m.1. split; [done|].
  destruct m as [k kp]. simpl in *.
  assert (Hin : (k, kp) ∈ key_list st) by (rewrite E; destruct Hm as [->|?]; [by left|by right]).
  apply elem_of_key_list in Hin. exists kp. split; [done|].
  intros k' kp' Hk'%elem_of_key_list. rewrite E in Hk'. apply elem_of_cons in Hk' as [<-|Hk']; [done|].
  apply (Hall _ Hk').
Qed.

Lemma highest_order_spec st k kp : st !! k = Some kp -> (kp_order kp <= highest_order st)%Z.
Proof.
  intros Hk%elem_of_key_list. unfold highest_order.
  assert (Hin : kp_order kp ∈ map (fun x => kp_order x.2) (key_list st)).
  { apply elem_of_list_In, in_map_iff. exists (k, kp). split; [done|]. by apply elem_of_list_In. }
  destruct (map _ (key_list st)) as [|o os]; [by apply elem_of_nil in Hin|].
  assert (Hf : forall l a, (a <= foldl Z.max a l)%Z /\ forall x, x ∈ l -> (x <= foldl Z.max a l)%Z).
  { clear. induction l as [|y l IH]; intros a; simpl.
    - split; [lia|]. intros x Hx. by apply elem_of_nil in Hx.
    - destruct (IH (Z.max a y)) as [H1 H2]. split; [lia|]. intros x [->|Hx]%elem_of_cons; [lia|auto]. }
  destruct (Hf os o) as [H1 H2]. apply elem_of_cons in Hin as [->|Hin]; auto.
Qed.

(** * Storing a key *)
Lemma store_key_spec st k pub priv o :
  store_key st k pub priv o !! k = Some (KeyPair pub priv o) /\
  (size st <> max_key_pairs -> forall k', k' <> k -> store_key st k pub priv o !! k' = st !! k') /\
  (size st = max_key_pairs -> exists victim, is_oldest st victim /\
     forall k', k' <> k -> store_key st k pub priv o !! k' = if decide (k' = victim) then None else st !! k').
Proof.
  unfold store_key. split; [apply lookup_insert|]. split.
  - intros Hs k' Hk'. rewrite (proj2 (Nat.eqb_neq _ _) Hs). by rewrite lookup_insert_ne.
  - intros Hs. rewrite (proj2 (Nat.eqb_eq _ _) Hs).
    destruct (oldest_key_spec st) as (v&->&Hv). { intros ->. by rewrite map_size_empty in Hs. }
    exists v. split; [done|]. intros k' Hk'. rewrite lookup_insert_ne by done.
    destruct (decide (k' = v)) as [->|?]; [by rewrite lookup_delete|by rewrite lookup_delete_ne].
Qed.

Lemma store_key_size st k pub priv o :
  (size st <= max_key_pairs)%nat -> (size (store_key st k pub priv o) <= max_key_pairs)%nat.
Proof.
  intros Hs. unfold store_key. destruct (Nat.eqb_spec (size st) max_key_pairs) as [He|He].
  - destruct (oldest_key_spec st) as (v&->&kp&Hv&_). { intros ->. by rewrite map_size_empty in He. }
    rewrite map_size_insert. rewrite map_size_delete_Some by eauto.
    destruct (delete v st !! k); simpl; unfold max_key_pairs in *; lia.
  - rewrite map_size_insert. destruct (st !! k); simpl; lia.
Qed.

Local Arguments willow_command : simpl never.
Ltac case_command E :=
  match goal with |- context [willow_command ?a ?b ?c ?d ?e ?f ?g] =>
    destruct (willow_command a b c d e f g) as [[st out]| |] eqn:E end.

Section History.
Context (codec : willow_codec) (keygen : bytes -> N -> bytes * bytes)
        (decrypt : bytes -> bytes -> bytes -> N -> res w_code bytes) (Hc : willow_codec_ok codec).
Notation S_ := (replay codec).
Notation ev_of := (event_of codec).

Definition effect (st : key_store) (ev : actor_event) : key_store :=
  match willow_apply codec st (EventContext 0 false) ev with Ok (st', _) => st' | _ => st end.
Lemma replay_snoc log ev : S_ (log ++ [ev]) = effect (S_ log) ev.
Proof using. unfold replay. by rewrite foldl_app. Qed.
Lemma effect_spec st ev :
  effect st ev = match ev_of ev with
                 | Some (GenerateKeyEvent k pub priv o) => store_key st k pub priv o
                 | Some (DecryptEvent k _) => delete k st
                 | None => st
                 end.
Proof using.
  unfold effect, willow_apply, event_of. destruct (dec_wevent codec (ae_contents ev)) as [[[]|]|]; done.
Qed.
(** Only an event that generates [k] can bring [k] in. *)
Lemma effect_brings st ev k : st !! k = None -> is_Some (effect st ev !! k) -> generates codec k ev.
Proof using.
  rewrite effect_spec. intros Hn [kp H]. unfold generates.
  destruct (ev_of ev) as [[k' pub priv o|k' r]|]; [|apply lookup_delete_Some in H as [_ H]; congruence|congruence].
  destruct (decide (k = k')) as [->|Hk]; [eauto|].
  destruct (store_key_spec st k' pub priv o) as (_&H1&H2).
  destruct (decide (size st = max_key_pairs)) as [Hs|Hs].
  - destruct (H2 Hs) as (v&_&Hv). rewrite Hv in H by done. destruct (decide (k = v)); congruence.
  - rewrite H1 in H by done. congruence.
Qed.
(** An event that does not generate [k] keeps or removes its pair. *)
Lemma effect_keeps st ev k kp : ~ generates codec k ev ->
  effect st ev !! k = Some kp -> st !! k = Some kp.
Proof using.
  rewrite effect_spec. intros Hn H. unfold generates in Hn.
  destruct (ev_of ev) as [[k' pub priv o|k' r]|]; [| |done].
  - destruct (decide (k = k')) as [->|Hk]; [destruct Hn; eauto|].
    destruct (store_key_spec st k' pub priv o) as (_&H1&H2).
    destruct (decide (size st = max_key_pairs)) as [Hs|Hs].
    + destruct (H2 Hs) as (v&_&Hv). rewrite Hv in H by done. by destruct (decide (k = v)).
    + by rewrite H1 in H.
  - by apply lookup_delete_Some in H as [_ H].
Qed.
Lemma take_S_replay log j ev : log !! j = Some ev -> S_ (take (S j) log) = effect (S_ (take j log)) ev.
Proof using. intros H. erewrite take_S_r by done. apply replay_snoc. Qed.

(** If [k] is absent at [i] and present at [j], it was generated between. *)
Lemma generated_between log k i j :
  (i <= j <= length log)%nat -> S_ (take i log) !! k = None -> is_Some (S_ (take j log) !! k) ->
  exists m ev, (i <= m < j)%nat /\ log !! m = Some ev /\ generates codec k ev.
Proof using.
  intros [Hij Hj] Hn. induction Hij as [|j Hij IH]; intros Hs.
  { rewrite Hn in Hs. by destruct Hs. }
  destruct (lookup_lt_is_Some_2 log j) as [ev Hev]; [lia|].
  rewrite (take_S_replay _ _ _ Hev) in Hs.
  destruct (S_ (take j log) !! k) as [kp|] eqn:E.
  - destruct IH as (m&ev'&?&?&?); [lia|eauto|]. exists m, ev'. split_and!; [lia|lia|done..].
  - exists j, ev. split_and!; [lia|lia|done|]. by eapply effect_brings.
Qed.
Lemma absent_without_generation log k i j :
  (i <= j <= length log)%nat -> S_ (take i log) !! k = None ->
  (forall m ev, (i <= m < j)%nat -> log !! m = Some ev -> ~ generates codec k ev) ->
  S_ (take j log) !! k = None.
Proof using.
  intros H Hn Hg. destruct (S_ (take j log) !! k) eqn:E; [|done].
  destruct (generated_between log k i j H Hn) as (m&ev&?&?&?); [eauto|]. by destruct (Hg m ev).
Qed.

(** Where the entries of the log come from. *)
Definition origin (log : list actor_event) (j : nat) (ev : actor_event) : Prop :=
  exists a, (a <= j)%nat /\
    match ev_of ev with
    | Some (GenerateKeyEvent k pub priv o) =>
        S_ (take a log) !! k = None /\ (exists e, keygen k e = (pub, priv)) /\
        o = (highest_order (S_ (take a log)) + 1)%Z
    | Some (DecryptEvent k r) =>
        exists kp req e, S_ (take a log) !! k = Some kp /\ decrypt k req (kp_private kp) e = Ok r
    | None => False
    end.
(** ... and without overlap. *)
Definition origin_no (log : list actor_event) (j : nat) (ev : actor_event) : Prop :=
  exists a, (a <= j)%nat /\
    match ev_of ev with
    | Some (GenerateKeyEvent k pub priv o) =>
        S_ (take a log) !! k = None /\
        forall i ev', (a <= i < j)%nat -> log !! i = Some ev' -> ~ generates codec k ev'
    | Some (DecryptEvent k r) =>
        is_Some (S_ (take a log) !! k) /\
        forall i ev', (a <= i < j)%nat -> log !! i = Some ev' -> ~ decrypts codec k ev'
    | None => False
    end.

Definition sinv (s : service) : Prop := (sv_applied s <= length (sv_log s))%nat.

Lemma command_event e st cmd st' out ev :
  willow_command codec keygen decrypt e leader_context st (Some cmd) = Ok (st', out) ->
  co_event out = Some ev ->
  st' = st /\ ae_correlation ev = ac_correlation cmd /\ co_commands out = [] /\
  match dec_wrequest codec (ac_header cmd) with
  | Some (Some (WGenerate k)) => st !! k = None /\ exists pub priv,
      keygen k e = (pub, priv) /\ ev_of ev = Some (GenerateKeyEvent k pub priv (highest_order st + 1))
  | Some (Some (WDecrypt k req)) => exists kp r, st !! k = Some kp /\
      decrypt k req (kp_private kp) e = Ok r /\ ev_of ev = Some (DecryptEvent k r)
  | _ => False
  end.
Proof using Hc.
  unfold willow_command, leader_context, event_of; simpl.
  destruct (dec_wrequest codec (ac_header cmd)) as [[[k|k req]|]|]; simpl; try done.
  - unfold generate_command. destruct (st !! k) as [kp|] eqn:E.
    + intros [= <- <-]. done.
    + destruct (keygen k e) as [pub priv] eqn:Ek. intros [= <- <-] [= <-]. simpl.
      rewrite (wevent_round_trip _ Hc). simpl. split_and!; eauto.
  - unfold decrypt_command. destruct (st !! k) as [kp|] eqn:E; simpl.
    + destruct (decrypt k req (kp_private kp) e) as [r|c|] eqn:Ed; simpl; try done.
      * intros [= <- <-] [= <-]. simpl. rewrite (wevent_round_trip _ Hc). simpl. split_and!; eauto 10.
      * intros [= <- <-]. done.
    + intros [= <- <-]. done.
  - intros [= <- <-]. done.
Qed.

Notation rstep := (step codec keygen decrypt).
Lemma step_sinv s x : sinv s -> sinv (rstep s x).
Proof using.
  unfold sinv, step. intros H. destruct x as [e cmd| |n a]; cbn [sv_log sv_applied].
  - case_command E; simpl; [|done..].
    rewrite app_length. lia.
  - lia.
  - rewrite take_length. lia.
Qed.

Lemma origin_app log ev j x : (j < length log)%nat -> origin log j x -> origin (log ++ [ev]) j x.
Proof using.
  intros Hj (a&Ha&H). exists a. split; [done|]. rewrite take_app_le by lia. done.
Qed.
Lemma origin_take log n j x : (j < n)%nat -> origin log j x -> origin (take n log) j x.
Proof using.
  intros Hj (a&Ha&H). exists a. split; [done|]. rewrite take_take, Nat.min_l by lia. done.
Qed.
Lemma step_origin s x : sinv s ->
  (forall j ev, sv_log s !! j = Some ev -> origin (sv_log s) j ev) ->
  (forall j ev, sv_log (rstep s x) !! j = Some ev -> origin (sv_log (rstep s x)) j ev).
Proof using Hc.
  intros Hs H. destruct x as [e cmd| |n a]; simpl; [|done|].
  - case_command E; simpl; [|done..].
    destruct (co_event out) as [ev|] eqn:Eo; simpl; [|by rewrite app_nil_r].
    destruct (command_event _ _ _ _ _ _ E Eo) as (_&_&_&Hev).
    intros j ev' Hl. destruct (decide (j < length (sv_log s))%nat) as [Hj|Hj].
    + rewrite lookup_app_l in Hl by done. apply origin_app; auto.
    + rewrite lookup_app_r in Hl by lia. apply list_lookup_singleton_Some in Hl as [Hj' <-].
      exists (sv_applied s). split; [unfold sinv in Hs; lia|]. rewrite take_app_le by done.
      destruct (dec_wrequest codec (ac_header cmd)) as [[[k|k req]|]|]; try done.
      * destruct Hev as (Hn&pub&priv&Hk&->). eauto.
      * destruct Hev as (kp&r&Hk&Hd&->). eauto 10.
  - intros j ev Hl. apply lookup_take_Some in Hl as [Hl Hj]. apply origin_take; auto.
Qed.
Lemma origin_no_app log ev j x : (j < length log)%nat -> origin_no log j x -> origin_no (log ++ [ev]) j x.
Proof using.
  intros Hj (a&Ha&H). exists a. split; [done|]. rewrite take_app_le by lia.
  destruct (ev_of x) as [[k pub priv o|k r]|]; [| |done]; destruct H as [H1 H2]; split; try done;
    intros i ev' Hi Hl; apply (H2 i ev' Hi); by rewrite lookup_app_l in Hl by lia.
Qed.
Lemma origin_no_take log n j x : (j < n)%nat -> origin_no log j x -> origin_no (take n log) j x.
Proof using.
  intros Hj (a&Ha&H). exists a. split; [done|]. rewrite take_take, Nat.min_l by lia.
  destruct (ev_of x) as [[k pub priv o|k r]|]; [| |done]; destruct H as [H1 H2]; split; try done;
    intros i ev' Hi Hl; apply (H2 i ev' Hi); by rewrite lookup_take in Hl by lia.
Qed.
Lemma step_origin_no s x : sinv s -> no_overlap_step codec s x ->
  (forall j ev, sv_log s !! j = Some ev -> origin_no (sv_log s) j ev) ->
  (forall j ev, sv_log (rstep s x) !! j = Some ev -> origin_no (sv_log (rstep s x)) j ev).
Proof using Hc.
  intros Hs Hno H. destruct x as [e cmd| |n a]; simpl; [|done|].
  - case_command E; simpl; [|done..].
    destruct (co_event out) as [ev|] eqn:Eo; simpl; [|by rewrite app_nil_r].
    destruct (command_event _ _ _ _ _ _ E Eo) as (_&_&_&Hev).
    intros j ev' Hl. destruct (decide (j < length (sv_log s))%nat) as [Hj|Hj].
    + rewrite lookup_app_l in Hl by done. apply origin_no_app; auto.
    + rewrite lookup_app_r in Hl by lia. apply list_lookup_singleton_Some in Hl as [Hj' <-].
      exists (sv_applied s). split; [unfold sinv in Hs; lia|]. rewrite take_app_le by done.
      unfold no_overlap_step, waiting in Hno.
      assert (Hw : forall i ev', (sv_applied s <= i < j)%nat -> (sv_log s ++ [ev]) !! i = Some ev' ->
                    ev' ∈ drop (sv_applied s) (sv_log s)).
      { intros i ev'' Hi Hli. rewrite lookup_app_l in Hli by lia.
        apply elem_of_list_lookup. exists (i - sv_applied s)%nat. rewrite lookup_drop.
        by replace (sv_applied s + (i - sv_applied s))%nat with i by lia. }
      destruct (dec_wrequest codec (ac_header cmd)) as [[[k|k req]|]|]; try done.
      * destruct Hev as (Hn&pub&priv&Hk&->). split; [done|]. intros. eapply Hno, Hw; eauto.
      * destruct Hev as (kp&r&Hk&Hd&->). split; [eauto|]. intros. eapply Hno, Hw; eauto.
  - intros j ev Hl. apply lookup_take_Some in Hl as [Hl Hj]. apply origin_no_take; auto.
Qed.

Lemma run_inv xs :
  let s := run_service codec keygen decrypt xs in
  sinv s /\ forall j ev, sv_log s !! j = Some ev -> origin (sv_log s) j ev.
Proof using Hc.
  unfold run_service.
  assert (H : forall s, sinv s -> (forall j ev, sv_log s !! j = Some ev -> origin (sv_log s) j ev) ->
    let s' := foldl rstep s xs in
    sinv s' /\ forall j ev, sv_log s' !! j = Some ev -> origin (sv_log s') j ev).
  { induction xs as [|x xs IH]; intros s H1 H2; simpl; [done|]. apply IH; [by apply step_sinv|by apply step_origin]. }
  apply H; [unfold sinv; simpl; lia|done].
Qed.
Lemma run_inv_no xs : no_overlap codec keygen decrypt service0 xs ->
  let s := run_service codec keygen decrypt xs in
  forall j ev, sv_log s !! j = Some ev -> origin_no (sv_log s) j ev.
Proof using Hc.
  unfold run_service.
  assert (H : forall s, sinv s -> (forall j ev, sv_log s !! j = Some ev -> origin_no (sv_log s) j ev) ->
    no_overlap codec keygen decrypt s xs ->
    let s' := foldl rstep s xs in
    forall j ev, sv_log s' !! j = Some ev -> origin_no (sv_log s') j ev).
  { induction xs as [|x xs IH]; intros s H1 H2 H3; simpl; [done|]. destruct H3 as [H3 H4].
    apply IH; [by apply step_sinv|by apply step_origin_no|done]. }
  intros Hno. apply H; [unfold sinv; simpl; lia|done|done].
Qed.

Lemma delete_after log k i ev : log !! i = Some ev -> decrypts codec k ev -> S_ (take (S i) log) !! k = None.
Proof using.
  intros Hl [r Hr]. rewrite (take_S_replay _ _ _ Hl), effect_spec, Hr. apply lookup_delete.
Qed.
End History.
