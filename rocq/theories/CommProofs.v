(** Proofs about the secure channels. *)
From Verif Require Import Base CommModel CommSpec.

(** ** Queues with superseded heartbeats *)

Lemma hb_split l : (Forall (fun m => ~ is_hb m) l) \/
  exists a x b, l = a ++ x :: b /\ Forall (fun m => ~ is_hb m) a /\ is_hb x.
Proof.
  destruct (list_find is_hb l) as [[i x]|] eqn:E.
  - right. apply list_find_Some in E as (Hl & Hx & Hj).
    exists (take i l), x, (drop (S i) l). split; [by rewrite take_drop_middle|]. split; [|done].
    apply Forall_forall. intros y Hy. apply elem_of_take in Hy as (j & Hj1 & Hj2). eauto.
  - left. by apply list_find_None in E.
Qed.

Lemma collapse_none l : Forall (fun m => ~ is_hb m) l -> collapse l = l.
Proof. intros H. unfold collapse. by rewrite (proj2 (list_find_None is_hb l) H). Qed.

Lemma collapse_split a x b : Forall (fun m => ~ is_hb m) a -> is_hb x ->
  collapse (a ++ x :: b) =
    a ++ default x (last (filter is_hb (x :: b))) :: filter (fun m => ~ is_hb m) b.
Proof.
  intros Ha Hx. unfold collapse.
  assert (list_find is_hb (a ++ x :: b) = Some (length a, x)) as ->.
  { apply list_find_Some. split_and!; [by rewrite list_lookup_middle|done|].
    intros j y Hj Hlt. rewrite lookup_app_l in Hj by done. rewrite Forall_lookup in Ha. eauto. }
  rewrite take_app. f_equal.
  assert (filter is_hb (a ++ x :: b) = filter is_hb (x :: b)) as ->.
  { rewrite filter_app. assert (filter is_hb a = []) as ->; [|done].
    clear -Ha. induction Ha; [done|]. by rewrite filter_cons_False. }
  f_equal. f_equal. change (S (length a)) with (1 + length a)%nat.
  rewrite Nat.add_comm, <- drop_drop, drop_app. done.
Qed.

Lemma replace_none q m : Forall (fun m => ~ is_hb m) q -> replace_heartbeat q m = None.
Proof.
  induction 1 as [|x q Hx _ IH]; [done|]. simpl. unfold is_hb in Hx.
  destruct (om_heartbeat x); [done|]. by rewrite IH.
Qed.

Lemma replace_split a x b m : Forall (fun m => ~ is_hb m) a -> is_hb x ->
  replace_heartbeat (a ++ x :: b) m = Some (a ++ m :: b).
Proof.
  intros Ha Hx. induction Ha as [|y a Hy _ IH]; simpl.
  - by rewrite Hx.
  - unfold is_hb in Hy. destruct (om_heartbeat y); [done|]. by rewrite IH.
Qed.

Lemma last_filter_hb x b : is_hb x ->
  exists y, last (filter is_hb (x :: b)) = Some y /\ is_hb y.
Proof.
  intros Hx. destruct (last (filter is_hb (x :: b))) as [y|] eqn:E.
  - exists y. split; [done|]. apply last_Some in E as (l' & E).
    assert (y ∈ filter is_hb (x :: b)) as Hin by (rewrite E; set_solver).
    by apply elem_of_list_filter in Hin as [? _].
  - apply last_None in E. rewrite filter_cons_True in E by done. done.
Qed.

Lemma push_collapse l m : push_or_replace (collapse l) m = collapse (l ++ [m]).
Proof.
  unfold push_or_replace. destruct (om_heartbeat m) eqn:Hm.
  - destruct (hb_split l) as [Hn|(a & x & b & -> & Ha & Hx)].
    + rewrite (collapse_none l) by done. rewrite replace_none by done.
      rewrite collapse_split by done. rewrite filter_cons_True by done.
      by rewrite !filter_nil.
    + rewrite (collapse_split a x b) by done.
      destruct (last_filter_hb x b Hx) as (y & -> & Hy). simpl.
      rewrite replace_split by done. rewrite <- app_assoc. cbn [app].
      rewrite collapse_split by done.
      rewrite app_comm_cons, filter_app, (filter_cons_True _ m), filter_nil by done.
      rewrite last_snoc. simpl. f_equal. f_equal.
      rewrite filter_app, (filter_cons_False _ m), filter_nil, app_nil_r; [done|].
      by intros Hf; apply Hf.
  - destruct (hb_split l) as [Hn|(a & x & b & -> & Ha & Hx)].
    + rewrite (collapse_none l) by done. rewrite collapse_none; [done|].
      apply Forall_app. split; [done|]. apply Forall_singleton. unfold is_hb. by rewrite Hm.
    + rewrite (collapse_split a x b) by done. rewrite <- !app_assoc. cbn [app].
      rewrite collapse_split by done.
      assert (~ is_hb m) as Hnm by (unfold is_hb; by rewrite Hm).
      rewrite (app_comm_cons b [m] x), (filter_app is_hb), (filter_cons_False _ m), filter_nil, app_nil_r by done.
      f_equal. f_equal.
      rewrite filter_app, (filter_cons_True _ m), filter_nil by done. done.
Qed.

Lemma collapse_elem l m : m ∈ collapse l -> m ∈ l.
Proof.
  destruct (hb_split l) as [Hn|(a & x & b & -> & Ha & Hx)].
  - by rewrite collapse_none.
  - rewrite collapse_split by done. destruct (last_filter_hb x b Hx) as (y & Hy & _).
    rewrite Hy. simpl. intros Hin.
    assert (y ∈ filter is_hb (x :: b)) as Hf.
    { apply last_Some in Hy as (l' & ->). set_solver. }
    apply elem_of_list_filter in Hf as [_ Hf].
    apply elem_of_app in Hin as [Hin|Hin]; [set_solver|].
    apply elem_of_cons in Hin as [->|Hin]; [set_solver|].
    apply elem_of_list_filter in Hin as [_ Hin]. set_solver.
Qed.

(** ** Histories *)
Section Inv.
Context {REQ RESP HS EN : Type}.
Variable ops : session_ops REQ RESP HS EN.
Notation comm := (comm REQ RESP HS EN).
Notation chan := (chan REQ RESP HS EN).
Notation ctrace := (@ctrace REQ RESP HS EN).

Lemma session_mono t t' r h : session_from ops t r h -> session_from ops (t ++ t') r h.
Proof.
  induction 1.
  - eapply sf_initiator; [apply elem_of_app; left; done|done|done].
  - eapply sf_recipient; [apply elem_of_app; left; done|done|done].
  - eapply sf_process; [done|apply elem_of_app; left; done|done|done].
  - by eapply sf_take.
Qed.

Lemma encryptor_mono t t' r e : encryptor_from ops t r e -> encryptor_from ops (t ++ t') r e.
Proof.
  induction 1.
  - eapply ef_session; [by apply session_mono|done|done].
  - by eapply ef_encrypt.
  - by eapply ef_decrypt.
Qed.

Record kinv (t : ctrace) (timeout r : N) (c : chan) : Prop := {
  k_timeout : ch_timeout c = timeout;
  k_pending : forall hm, ch_pending c = Some hm -> made_by ops t r hm;
  k_session : forall h, ch_session c = Some h -> session_from ops t r h;
  k_encryptor : forall e, ch_encryptor c = Some e -> encryptor_from ops t r e;
  k_phase : match ch_phase c with
            | PhUnknown => ch_pending c = None /\ ch_session c = None /\ ch_encryptor c = None
            | PhInitialized => False
            | PhInitiated n => is_Some (ch_session c) /\ ch_encryptor c = None
            | PhCompleted => exists h, session_from ops t r h /\ hs_completed ops h = true /\
                               (is_Some (hs_encryptor ops h) -> is_Some (ch_encryptor c))
            | PhFailed _ => True
            end;
}.

Lemma kinv_mono t t' to r c : kinv t to r c -> kinv (t ++ t') to r c.
Proof.
  intros [A B C D E]. constructor; [done|..].
  - intros hm H. destruct (B hm H) as (h & h' & X & Y). exists h, h'. split; [by apply session_mono|done].
  - intros h H. by apply session_mono, C.
  - intros e H. by apply encryptor_mono, D.
  - destruct (ch_phase c); try done. destruct E as (h & X & Y & Z). exists h. split; [by apply session_mono|done].
Qed.

Lemma kinv_new t to r : kinv t to r (chan_new to).
Proof. by constructor. Qed.

Lemma kinv_queue t to r c q : kinv t to r c -> kinv t to r (with_queue c q).
Proof. intros [A B C D E]. by constructor. Qed.

Lemma kinv_failed t to r c n : kinv t to r c -> kinv t to r (with_phase c (PhFailed n)).
Proof. intros [A B C D E]. by constructor. Qed.

(** The initialised channel right after the provider returned [h]. *)
Lemma kinv_out t to r c m c' b :
  (kinv t to r c \/ exists h c0, kinv t to r c0 /\ session_from ops t r h /\
                     ch_phase c0 = PhUnknown /\ c = with_phase (with_session c0 (Some h)) PhInitialized) ->
  ch_phase c <> PhUnknown ->
  chan_out ops c m = Ok (c', b) -> kinv t to r c' /\ ch_phase c' <> PhUnknown /\
    ch_queue c' = if b then push_or_replace (ch_queue c) m else ch_queue c.
Proof.
  intros Hc Hne H. unfold chan_out in H. destruct Hc as [Hk|(h & c0 & Hk & Hs & Hu & ->)].
  - pose proof (k_phase _ _ _ _ Hk) as Hp. destruct (ch_phase c) eqn:Ep; try done;
      injection H as <- <-; (split_and!; [by apply kinv_queue|simpl; by rewrite Ep|done]).
  - simpl in H. pose proof (k_phase _ _ _ _ Hk) as Hp. rewrite Hu in Hp. destruct Hp as (Hp1 & Hp2 & Hp3).
    destruct Hk as [A B C D E].
    destruct (hs_take ops h) as [h' [[hm|]|]] eqn:Et; injection H as <- <-; (split_and!; [|done|done]);
      constructor; simpl; try done.
    + intros hm' [= <-]. exists h, h'. done.
    + intros h1 [= <-]. by eapply sf_take.
    + intros h1 [= <-]. by eapply sf_take.
    + intros h1 [= <-]. by eapply sf_take.
Qed.

Lemma kinv_in t to r c m c' o :
  (kinv t to r c \/ exists h c0, kinv t to r c0 /\ session_from ops t r h /\
                     ch_phase c0 = PhUnknown /\ c = with_phase (with_session c0 (Some h)) PhInitialized) ->
  ch_phase c <> PhUnknown ->
  (exists s g ret, (s, CIn g m, ret) ∈ t) -> in_sender m = Some r ->
  chan_in ops c m = Ok (c', o) ->
  kinv t to r c' /\ ch_phase c' <> PhUnknown /\ ch_queue c' = ch_queue c /\
  (forall m', o = Some m' -> ch_phase c = PhCompleted /\
     exists pm p e e' plain, m = IPeer pm /\ pm_payload pm = Some p /\ encryptor_from ops t r e /\
       ch_encryptor c = Some e /\
       en_decrypt ops e p = (e', Some plain) /\ m' = IPeer (with_payload pm (Payload plain []))) /\
  (ch_phase c <> PhCompleted -> ch_phase c' = PhCompleted ->
     exists hm h h1 h2 o2, m = IHandshake hm /\ ch_session c = Some h /\
       hs_process ops h hm = (h1, true) /\ hs_take ops h1 = (h2, Some o2) /\
       hs_completed ops h2 = true /\ ch_encryptor c' = hs_encryptor ops h2) /\
  (ch_phase c = PhCompleted -> ch_phase c' = PhCompleted \/ (ch_phase c' = PhFailed 0 /\ exists hm, m = IHandshake hm)).
Proof.
  intros Hc Hne (s0 & g0 & ret0 & Hin) Hsend H.
  assert (forall n, ch_phase c = PhInitialized \/ ch_phase c = PhInitiated n ->
    ch_timeout c = to -> (forall hm, ch_pending c = Some hm -> made_by ops t r hm) ->
    (forall h, ch_session c = Some h -> session_from ops t r h) -> is_Some (ch_session c) ->
    ch_encryptor c = None ->
    kinv t to r c' /\ ch_phase c' <> PhUnknown /\ ch_queue c' = ch_queue c /\ o = None /\
    (ch_phase c <> PhCompleted -> ch_phase c' = PhCompleted ->
     exists hm h h1 h2 o2, m = IHandshake hm /\ ch_session c = Some h /\
       hs_process ops h hm = (h1, true) /\ hs_take ops h1 = (h2, Some o2) /\
       hs_completed ops h2 = true /\ ch_encryptor c' = hs_encryptor ops h2)) as Hmain.
  { intros n Hph Hto Hpe Hse [h Hh] Hen.
    unfold chan_in in H.
    assert (match m with IHandshake _ => True | _ => c' = with_phase c (PhFailed 0) /\ o = None end) as Hother.
    { destruct Hph as [Hph|Hph]; rewrite Hph in H; destruct m; try done; by simplify_eq. }
    destruct m as [hm| |].
    2,3: destruct Hother as [-> ->]; split_and!; try done; constructor; simpl; try done; by rewrite Hen.
    assert (exists X, match ch_session c with
      | None => Panic
      | Some h =>
        match hs_process ops h hm with
        | (h1, false) => Ok (with_phase (with_session c (Some h1)) (PhFailed 0), None)
        | (h1, true) =>
          match hs_take ops h1 with
          | (h2, None) => Ok (with_phase (with_session c (Some h2)) (PhFailed 0), None)
          | (h2, Some pending) =>
            let c' := with_hs_pending (with_session c (Some h2)) pending in
            if hs_completed ops h2 then
              Ok (with_phase (with_encryptor (with_session c' None) (hs_encryptor ops h2)) PhCompleted, None)
            else Ok (with_phase c' X, None)
          end
        end
      end = (Ok (c', o) : res pal_error _) /\ X = PhInitiated (match ch_phase c with PhInitiated n => n | _ => 0 end)) as (X & HX & HXe).
    { exists (PhInitiated (match ch_phase c with PhInitiated n => n | _ => 0 end)). split; [|done]. rewrite <- H.
      destruct Hph as [Hph|Hph]; rewrite Hph; [done|].
      rewrite Hh. destruct (hs_process ops h hm) as [h1 []]; [|done].
      destruct (hs_take ops h1) as [h2 [pend|]]; [|done]. simpl. destruct (hs_completed ops h2); [done|].
      unfold with_phase, with_hs_pending, with_session. simpl. by rewrite Hph. }
    clear H. rewrite Hh in HX. simpl in Hsend.
    assert (session_from ops t r h) as Hsh by eauto.
    assert (hm_sender hm = r) as Hsr by congruence.
    destruct (hs_process ops h hm) as [h1 b1] eqn:Ep.
    assert (session_from ops t r h1) as Hs1 by (by eapply sf_process).
    destruct b1.
    2:{ injection HX as <- <-. split_and!; try done. constructor; simpl; try done; [by intros ? [= <-]|by rewrite Hen]. }
    destruct (hs_take ops h1) as [h2 o2] eqn:Et.
    assert (session_from ops t r h2) as Hs2 by (by eapply sf_take).
    destruct o2 as [pend|].
    2:{ injection HX as <- <-. split_and!; try done. constructor; simpl; try done; [by intros ? [= <-]|by rewrite Hen]. }
    assert (forall hm0, pend = Some hm0 -> made_by ops t r hm0) as Hmade.
    { intros hm0 ->. by exists h1, h2. }
    simpl in HX. destruct (hs_completed ops h2) eqn:Eco.
    - injection HX as <- <-. split_and!; try done.
      + constructor; simpl; try done.
        * intros e He. by eapply ef_session.
        * exists h2. split_and!; done.
      + intros _ _. eexists _, _, _, _, _. done.
    - injection HX as <- <-. subst X. split_and!; try done.
      constructor; simpl; try done; [by intros ? [= <-]|by rewrite Hen]. }
  destruct Hc as [Hk|(h & c0 & Hk & Hs & Hu & ->)].
  - pose proof (k_phase _ _ _ _ Hk) as Hp. destruct (ch_phase c) as [| |n| |n] eqn:Ep; [done|done| | |].
    + destruct Hp as [Hss Hee]. destruct Hk as [A B C D E].
      destruct (Hmain n) as (M1 & M2 & M3 & -> & M5); try done. by right.
    + unfold chan_in in H. rewrite Ep in H. unfold chan_decrypt in H.
      destruct (ch_encryptor c) as [e|] eqn:Ee; [|done]. pose proof (k_encryptor _ _ _ _ Hk _ Ee) as Hef.
      destruct Hp as (h0 & P1 & P2 & P3).
      destruct m as [hm|pm|]; [| |done].
      * injection H as <- <-. split_and!; try done; [by apply kinv_failed|]. right. eauto.
      * destruct (pm_payload pm) as [p|] eqn:Epl; [|done].
        destruct (en_decrypt ops e p) as [e' [plain|]] eqn:Ed; injection H as <- <-.
        -- split_and!; try done; [|by simpl; rewrite Ep| |by intros; left].
           ++ destruct Hk as [A B C D E]. constructor; simpl; try done; [intros ? [= <-]; by eapply ef_decrypt|].
              rewrite Ep. exists h0. split_and!; try done.
           ++ intros m' [= <-]. split; [done|]. eexists _, _, _, _, _. done.
        -- split_and!; try done; [|by simpl; rewrite Ep|by intros; left].
           destruct Hk as [A B C D E]. constructor; simpl; try done; [intros ? [= <-]; by eapply ef_decrypt|].
           rewrite Ep. exists h0. split_and!; try done.
    + unfold chan_in in H. rewrite Ep in H. injection H as <- <-. split_and!; try done. by rewrite Ep.
      all: by rewrite Ep.
  - pose proof (k_phase _ _ _ _ Hk) as Hp. rewrite Hu in Hp. destruct Hp as (P1 & P2 & P3). destruct Hk as [A B C D E].
    destruct (Hmain 0) as (M1 & M2 & M3 & -> & M5); try done; simpl; try done.
    + by left.
    + by intros ? [= <-].
Qed.

Record cinv (id retry timeout : N) (t : ctrace) (s : comm) : Prop := {
  v_id : cm_id s = id;
  v_retry : cm_retry s = retry;
  v_timeout : cm_timeout s = timeout;
  v_chan : forall r c, cm_replicas s !! r = Some c ->
             kinv t timeout r c /\ ch_queue c = collapse (unsent ops r t);
  v_none : forall r, cm_replicas s !! r = None -> unsent ops r t = [];
  v_recipient : forall r m, m ∈ unsent ops r t -> pm_recipient (om_msg m) = r;
}.

Definition chan0 (s : comm) (r : N) : chan :=
  match cm_replicas s !! r with Some c => c | None => chan_new (cm_timeout s) end.

Lemma chan0_inv id retry timeout t s r : cinv id retry timeout t s ->
  kinv t timeout r (chan0 s r) /\ ch_queue (chan0 s r) = collapse (unsent ops r t) /\
  ch_phase (chan0 s r) = phase s r.
Proof.
  intros V. unfold chan0, phase. destruct (cm_replicas s !! r) as [c|] eqn:E.
  - destruct (v_chan _ _ _ _ _ V _ _ E). done.
  - rewrite (v_timeout _ _ _ _ _ V), (v_none _ _ _ _ _ V _ E). split_and!; [apply kinv_new|done|done].
Qed.

Lemma unsent_snoc r t s op ret : unsent ops r (t ++ [(s, op, ret)]) =
  match op with
  | COut g m =>
      if (pm_recipient (om_msg m) =? r) && accepted ops s r g then unsent ops r t ++ [m] else unsent ops r t
  | CTake _ => if flushes s r then [] else unsent ops r t
  | CCluster ids => if stays s r ids then unsent ops r t else []
  | _ => unsent ops r t
  end.
Proof. unfold unsent. by rewrite foldl_app. Qed.

(** What asking for a peer's channel yields. *)
Lemma get_channel_spec (s : comm) r g s1 rc : get_channel s r g = (s1, rc) ->
  s1 = with_replicas s (<[r := chan0 s r]> (cm_replicas s)) /\
  match rc with
  | Ok c => (phase s r <> PhUnknown /\ c = chan0 s r) \/
            (phase s r = PhUnknown /\ exists h, g = Some h /\
               c = with_phase (with_session (chan0 s r) (Some h)) PhInitialized)
  | Err e => phase s r = PhUnknown /\ g = None /\ e = Internal
  | Panic => False
  end.
Proof.
  unfold get_channel. fold (chan0 s r). intros H.
  assert (ch_phase (chan0 s r) = phase s r) as Hp.
  { unfold chan0, phase. by destruct (cm_replicas s !! r). }
  unfold chan_initialized, chan_init in H. rewrite Hp in H.
  destruct (phase s r) eqn:E; try (injection H as <- <-; split; [done|]; left; done).
  destruct g as [h|]; injection H as <- <-; (split; [done|]); [|done]. right. eauto.
Qed.

Lemma lookup_with (s : comm) r c r' :
  cm_replicas (with_replicas s (<[r := c]> (cm_replicas s))) !! r' =
  if r =? r' then Some c else cm_replicas s !! r'.
Proof.
  simpl. destruct (N.eqb_spec r r') as [->|Hne]; [by rewrite lookup_insert|by rewrite lookup_insert_ne].
Qed.

Lemma with_with (s : comm) a b : with_replicas (with_replicas s a) b = with_replicas s b.
Proof. done. Qed.

(** A call on one channel keeps the invariant. *)
Lemma cinv_update id retry timeout t s r c op ret :
  cinv id retry timeout t s ->
  (forall r', r' <> r -> unsent ops r' (t ++ [(s, op, ret)]) = unsent ops r' t) ->
  kinv (t ++ [(s, op, ret)]) timeout r c ->
  ch_queue c = collapse (unsent ops r (t ++ [(s, op, ret)])) ->
  (forall m, m ∈ unsent ops r (t ++ [(s, op, ret)]) -> pm_recipient (om_msg m) = r) ->
  cinv id retry timeout (t ++ [(s, op, ret)])
    (with_replicas s (<[r := c]> (cm_replicas s))).
Proof.
  intros V Ho Hk Hq Hr. constructor; try apply V.
  - intros r' c'. rewrite lookup_with. destruct (N.eqb_spec r r') as [<-|Hne].
    + intros [= <-]. done.
    + intros H. destruct (v_chan _ _ _ _ _ V _ _ H) as [A B]. split; [by apply kinv_mono|].
      rewrite Ho by done. done.
  - intros r'. rewrite lookup_with. destruct (N.eqb_spec r r') as [<-|Hne]; [done|].
    intros H. rewrite Ho by done. by apply (v_none _ _ _ _ _ V).
  - intros r' m. destruct (N.eqb_spec r r') as [<-|Hne]; [by apply Hr|].
    rewrite Ho by done. by apply (v_recipient _ _ _ _ _ V).
Qed.

Lemma step_out id retry timeout t s g m s' ret : id <> 0 -> cinv id retry timeout t s ->
  comm_step ops s (COut g m) = Some (s', ret) ->
  cinv id retry timeout (t ++ [(s, COut g m, ret)]) s'.
Proof.
  intros Hid V H. simpl in H. unfold comm_out in H.
  rewrite (v_id _ _ _ _ _ V), (proj2 (N.eqb_neq _ _) Hid) in H.
  set (r := pm_recipient (om_msg m)) in *.
  destruct (get_channel s r (g Initiator)) as [s1 rc] eqn:Eg.
  destruct (get_channel_spec _ _ _ _ _ Eg) as [-> Hrc].
  destruct (chan0_inv _ _ _ _ _ r V) as (K & Q & P).
  assert (forall r' ret', r' <> r -> unsent ops r' (t ++ [(s, COut g m, ret')]) = unsent ops r' t) as Ho.
  { intros r' ret' Hne. rewrite unsent_snoc. fold r. by rewrite (proj2 (N.eqb_neq r r')) by done. }
  assert (forall ret' b, accepted ops s r g = b ->
     unsent ops r (t ++ [(s, COut g m, ret')]) = if b then unsent ops r t ++ [m] else unsent ops r t) as Hu.
  { intros ret' b <-. rewrite unsent_snoc. fold r. by rewrite N.eqb_refl. }
  assert (forall ret' m', m' ∈ unsent ops r (t ++ [(s, COut g m, ret')]) -> pm_recipient (om_msg m') = r) as Hrr.
  { intros ret' m'. rewrite (Hu ret' _ eq_refl). pose proof (v_recipient _ _ _ _ _ V r) as Hv.
    destruct (accepted ops s r g); [|by apply Hv].
    intros [Hin|Hin]%elem_of_app; [by apply Hv|]. by apply elem_of_list_singleton in Hin as ->. }
  destruct rc as [c|e|].
  - assert (forall ret', kinv (t ++ [(s, COut g m, ret')]) timeout r c \/
       exists h c0, kinv (t ++ [(s, COut g m, ret')]) timeout r c0 /\
         session_from ops (t ++ [(s, COut g m, ret')]) r h /\
         ch_phase c0 = PhUnknown /\ c = with_phase (with_session c0 (Some h)) PhInitialized) as Hc.
    { intros ret'. destruct Hrc as [[Hp ->]|(Hp & h & Hg & ->)].
      - left. by apply kinv_mono.
      - right. exists h, (chan0 s r). split_and!; [by apply kinv_mono| |congruence|done].
        eapply sf_initiator; [|done|done]. apply elem_of_app. right. by apply elem_of_list_singleton. }
    assert (ch_phase c <> PhUnknown) as Hne.
    { destruct Hrc as [[Hp ->]|(Hp & h & Hg & ->)]; [by rewrite P|done]. }
    assert (ch_queue c = collapse (unsent ops r t)) as Hq.
    { destruct Hrc as [[Hp ->]|(Hp & h & Hg & ->)]; done. }
    destruct (chan_out ops c m) as [[c' b]|e|] eqn:Eo; [| |done].
    + injection H as <- <-. destruct (kinv_out _ _ _ _ _ _ _ (Hc (RUnit (Ok tt))) Hne Eo) as (K' & _ & Q').
      rewrite with_with. simpl. rewrite insert_insert.
      apply cinv_update; [done|by intros; apply Ho|done| |by apply Hrr].
      rewrite Q', (Hu _ b).
      * destruct b; [|done]. by rewrite Hq, push_collapse.
      * unfold accepted. destruct Hrc as [[Hp ->]|(Hp & h & Hg & ->)].
        -- unfold chan_out in Eo. rewrite P in Eo. pose proof (k_phase _ _ _ _ K) as Kp. rewrite P in Kp.
           destruct (phase s r); try done; by simplify_eq.
        -- rewrite Hp, Hg. unfold chan_out in Eo. simpl in Eo.
           destruct (hs_take ops h) as [h' [[hm|]|]]; by simplify_eq.
    + exfalso. clear -Eo. unfold chan_out in Eo.
      repeat (case_match; try done).
  - destruct Hrc as (Hp & Hg & ->). injection H as <- <-.
    apply cinv_update; [done|by intros; apply Ho|by apply kinv_mono| |by apply Hrr].
    rewrite (Hu _ false); [done|]. unfold accepted. by rewrite Hp, Hg.
  - done.
Qed.

Lemma step_in id retry timeout t s g m s' ret : id <> 0 -> cinv id retry timeout t s ->
  comm_step ops s (CIn g m) = Some (s', ret) ->
  cinv id retry timeout (t ++ [(s, CIn g m, ret)]) s'.
Proof.
  intros Hid V H. simpl in H. unfold comm_in in H.
  rewrite (v_id _ _ _ _ _ V), (proj2 (N.eqb_neq _ _) Hid) in H.
  assert (forall r' ret', unsent ops r' (t ++ [(s, CIn g m, ret')]) = unsent ops r' t) as Ho.
  { intros r' ret'. by rewrite unsent_snoc. }
  destruct (in_sender m) as [r|] eqn:Es.
  2:{ injection H as <- <-. destruct V as [A B C D E F]. constructor; try done.
      - intros r c Hr. destruct (D r c Hr). split; [by apply kinv_mono|by rewrite Ho].
      - intros r Hr. rewrite Ho. eauto.
      - intros r m'. rewrite Ho. eauto. }
  destruct (get_channel s r (g Recipient)) as [s1 rc] eqn:Eg.
  destruct (get_channel_spec _ _ _ _ _ Eg) as [-> Hrc].
  destruct (chan0_inv _ _ _ _ _ r V) as (K & Q & P).
  assert (forall ret' m', m' ∈ unsent ops r (t ++ [(s, CIn g m, ret')]) -> pm_recipient (om_msg m') = r) as Hrr.
  { intros ret' m'. rewrite Ho. by apply (v_recipient _ _ _ _ _ V r). }
  destruct rc as [c|e|].
  - assert (forall ret', kinv (t ++ [(s, CIn g m, ret')]) timeout r c \/
       exists h c0, kinv (t ++ [(s, CIn g m, ret')]) timeout r c0 /\
         session_from ops (t ++ [(s, CIn g m, ret')]) r h /\
         ch_phase c0 = PhUnknown /\ c = with_phase (with_session c0 (Some h)) PhInitialized) as Hc.
    { intros ret'. destruct Hrc as [[Hp ->]|(Hp & h & Hg & ->)].
      - left. by apply kinv_mono.
      - right. exists h, (chan0 s r). split_and!; [by apply kinv_mono| |congruence|done].
        eapply sf_recipient; [|done|done]. apply elem_of_app. right. by apply elem_of_list_singleton. }
    assert (ch_phase c <> PhUnknown) as Hne.
    { destruct Hrc as [[Hp ->]|(Hp & h & Hg & ->)]; [by rewrite P|done]. }
    assert (ch_queue c = collapse (unsent ops r t)) as Hq.
    { destruct Hrc as [[Hp ->]|(Hp & h & Hg & ->)]; done. }
    destruct (chan_in ops c m) as [[c' b]|e|] eqn:Eo; [| |done].
    + injection H as <- <-.
      assert (exists s0 g0 ret0, (s0, CIn g0 m, ret0) ∈ t ++ [(s, CIn g m, RIn (Ok b))]) as Hin.
      { exists s, g, (RIn (Ok b)). apply elem_of_app. right. by apply elem_of_list_singleton. }
      destruct (kinv_in _ _ _ _ _ _ _ (Hc (RIn (Ok b))) Hne Hin Es Eo) as (K' & _ & Q' & _).
      rewrite with_with. simpl. rewrite insert_insert.
      apply cinv_update; [done|by intros; apply Ho|done| |by apply Hrr].
      rewrite Q', Ho. done.
    + exfalso. clear -Eo. unfold chan_in, chan_decrypt in Eo.
      repeat (case_match; try done).
  - destruct Hrc as (Hp & Hg & ->). injection H as <- <-.
    apply cinv_update; [done|by intros; apply Ho|by apply kinv_mono| |by apply Hrr].
    rewrite Ho. done.
  - done.
Qed.

(** ** Handing out *)
Lemma take_all_spec ord : forall (m m' : gmap N chan) ws, NoDup ord ->
  take_all ops m ord = Ok (m', ws) ->
  exists f : N -> list (wire REQ RESP),
    ws = concat (map f ord) /\
    (forall k, k ∉ ord -> m' !! k = m !! k) /\
    (forall k, m !! k = None -> m' !! k = None /\ (k ∈ ord -> f k = [])) /\
    (forall k c, k ∈ ord -> m !! k = Some c -> exists c', chan_take ops c = Ok (c', f k) /\ m' !! k = Some c').
Proof.
  induction ord as [|k ord IH]; intros m m' ws Hn H; simpl in H.
  { injection H as <- <-. exists (fun _ => []). split_and!; try done. intros k c Hk. by apply elem_of_nil in Hk. }
  apply NoDup_cons in Hn as [Hk Hn].
  destruct (m !! k) as [c|] eqn:Ek.
  - destruct (chan_take ops c) as [[c' w]|e|] eqn:Ec; try done. simpl in H.
    destruct (take_all ops (<[k:=c']> m) ord) as [[m1 ws1]|e|] eqn:Et; try done. simpl in H. injection H as <- <-.
    destruct (IH _ _ _ Hn Et) as (f & -> & F1 & F2 & F3).
    exists (fun x => if x =? k then w else f x). split_and!.
    + simpl. rewrite N.eqb_refl. f_equal. f_equal. apply map_ext_in. intros x Hx.
      destruct (N.eqb_spec x k) as [->|]; [|done]. by apply elem_of_list_In in Hx.
    + intros x Hx. apply not_elem_of_cons in Hx as [Hx1 Hx2]. rewrite F1 by done. by rewrite lookup_insert_ne.
    + intros x Hx. assert (x <> k) by congruence. destruct (F2 x) as [G1 G2]; [by rewrite lookup_insert_ne|].
      split; [done|]. intros Hin. destruct (N.eqb_spec x k); [done|]. apply G2.
      by apply elem_of_cons in Hin as [?|?].
    + intros x cx Hin Hx. destruct (N.eqb_spec x k) as [->|Hne].
      * assert (cx = c) as -> by congruence. exists c'. split; [done|]. rewrite F1 by done. by rewrite lookup_insert.
      * apply elem_of_cons in Hin as [?|Hin]; [done|]. apply F3; [done|]. by rewrite lookup_insert_ne.
  - destruct (IH _ _ _ Hn H) as (f & -> & F1 & F2 & F3).
    exists (fun x => if x =? k then [] else f x). split_and!.
    + simpl. rewrite N.eqb_refl. simpl. f_equal. apply map_ext_in. intros x Hx.
      destruct (N.eqb_spec x k) as [->|]; [|done]. by apply elem_of_list_In in Hx.
    + intros x Hx. apply not_elem_of_cons in Hx as [Hx1 Hx2]. by rewrite F1.
    + intros x Hx. destruct (F2 x Hx) as [G1 G2]. split; [done|]. intros Hin.
      destruct (N.eqb_spec x k); [done|]. apply G2. by apply elem_of_cons in Hin as [?|?].
    + intros x cx Hin Hx. destruct (N.eqb_spec x k) as [->|Hne]; [congruence|].
      apply elem_of_cons in Hin as [?|Hin]; [done|]. eauto.
Qed.

Lemma encrypt_all_spec q : forall e e' ws, encrypt_all ops e q = Ok (e', ws) ->
  exists os, encrypted ops e q os e' /\ ws = omap id os.
Proof.
  induction q as [|m q IH]; intros e e' ws H; simpl in H.
  { injection H as <- <-. exists []. split; [constructor|done]. }
  destruct (pm_payload (om_msg m)) as [p|] eqn:Ep; [|done].
  destruct (en_encrypt ops e (pl_contents p)) as [e1 o] eqn:Ee.
  destruct (encrypt_all ops e1 q) as [[e2 ws1]|x|] eqn:Eq; try done. simpl in H. injection H as <- <-.
  destruct (IH _ _ _ Eq) as (os & O1 & ->).
  eexists. split; [by eapply enc_cons|]. simpl. by destruct o.
Qed.

Lemma encrypted_from t r e q os e' : encrypted ops e q os e' -> encryptor_from ops t r e ->
  encryptor_from ops t r e'.
Proof. induction 1; [done|]. intros Hf. apply IHencrypted. by eapply ef_encrypt. Qed.

(** What a peer's channel hands out. *)
Lemma chan_take_spec t to r c c' ws : kinv t to r c -> chan_take ops c = Ok (c', ws) ->
  kinv t to r c' /\ ch_phase c' = ch_phase c /\
  match ch_pending c, ch_phase c with
  | Some hm, _ => made_by ops t r hm /\ ws = [WHandshake hm] /\ ch_queue c' = ch_queue c
  | None, PhCompleted => exists e e' os, ch_encryptor c = Some e /\ encryptor_from ops t r e /\
       encrypted ops e (ch_queue c) os e' /\ ws = omap id os /\ ch_queue c' = []
  | None, _ => ws = [] /\ c' = c
  end.
Proof.
  intros K H. pose proof (k_phase _ _ _ _ K) as Kp. unfold chan_take in H.
  destruct (ch_pending c) as [hm|] eqn:Ep.
  - injection H as <- <-. split_and!; try done; [|by apply (k_pending _ _ _ _ K)].
    destruct K as [A B C D E]. constructor; simpl; try done. destruct (ch_phase c); try done.
    destruct E as (? & ? & ?). done.
  - destruct (ch_phase c) eqn:Eph; try (injection H as <- <-; split_and!; done).
    destruct (ch_encryptor c) as [e|] eqn:Ee; [|done].
    destruct (encrypt_all ops e (ch_queue c)) as [[e' ws']|x|] eqn:Ea; try done. simpl in H. injection H as <- <-.
    destruct (encrypt_all_spec _ _ _ _ Ea) as (os & O1 & O2).
    pose proof (k_encryptor _ _ _ _ K _ Ee) as Hef.
    split_and!; [|done|].
    + destruct K as [A B C D E]. constructor; simpl; try done.
      * intros x [= <-]. by eapply encrypted_from.
      * rewrite Eph. rewrite Eph in E. destruct E as (h & X & Y & Z). exists h. split_and!; done.
    + exists e, e', os. split_and!; done.
Qed.

Lemma step_take me retry timeout t s ord s' ret : me <> 0 -> cinv me retry timeout t s ->
  cop_ok s (CTake ord : comm_op REQ RESP HS) ->
  comm_step ops s (CTake ord) = Some (s', ret) ->
  cinv me retry timeout (t ++ [(s, CTake ord, ret)]) s' /\
  (forall r, phase s' r = phase s r) /\
  exists f, ret = RTake (concat (map f ord)) /\ forall r,
    match handshake_waiting s r, phase s r with
    | Some hm, _ => made_by ops t r hm /\ f r = [WHandshake hm]
    | None, PhCompleted => exists e e' os, encryptor_from ops t r e /\
         encrypted ops e (collapse (unsent ops r t)) os e' /\ f r = omap id os
    | None, _ => r ∈ ord -> f r = []
    end.
Proof.
  intros Hid V Hok H. simpl in H, Hok. unfold comm_take in H.
  destruct (take_all ops (cm_replicas s) ord) as [[m' ws]|x|] eqn:Et; try done. simpl in H. injection H as <- <-.
  assert (NoDup ord) as Hnd.
  { rewrite Hok. apply NoDup_fst_map_to_list. }
  assert (forall k, k ∈ ord <-> is_Some (cm_replicas s !! k)) as Hdom.
  { intros k. rewrite Hok. rewrite elem_of_list_fmap. split.
    - intros ([k' c] & -> & Hin). apply elem_of_map_to_list in Hin. eauto.
    - intros [c Hc]. exists (k, c). split; [done|]. by apply elem_of_map_to_list. }
  destruct (take_all_spec _ _ _ _ Hnd Et) as (f & -> & F1 & F2 & F3).
  assert (forall r c, cm_replicas s !! r = Some c -> exists c', chan_take ops c = Ok (c', f r) /\ m' !! r = Some c') as F3'.
  { intros r c Hr. apply F3; [|done]. apply Hdom. eauto. }
  clear F3 Et. split_and!.
  - constructor; try apply V.
    + intros r c' Hr. simpl in Hr. destruct (cm_replicas s !! r) as [c|] eqn:Ec.
      2:{ destruct (F2 r Ec). congruence. }
      destruct (F3' _ _ Ec) as (c1 & T1 & T2). assert (c1 = c') as -> by congruence.
      destruct (v_chan _ _ _ _ _ V _ _ Ec) as [K Q].
      destruct (chan_take_spec _ _ _ _ _ _ K T1) as (K' & P' & M). split; [by apply kinv_mono|].
      rewrite unsent_snoc. unfold flushes, handshake_waiting, phase. rewrite Ec.
      destruct (ch_pending c) as [hm|]; [destruct M as (_ & _ & ->); done|].
      destruct (ch_phase c); try (destruct M as (_ & ->); done).
      destruct M as (e & e' & os & _ & _ & _ & _ & ->). done.
    + intros r Hr. simpl in Hr. destruct (cm_replicas s !! r) as [c|] eqn:Ec.
      { destruct (F3' _ _ Ec) as (c1 & T1 & T2). congruence. }
      rewrite unsent_snoc. case_match; [done|]. by apply (v_none _ _ _ _ _ V).
    + intros r m. rewrite unsent_snoc. case_match; [set_solver|]. by apply (v_recipient _ _ _ _ _ V).
  - intros r. unfold phase. simpl. destruct (cm_replicas s !! r) as [c|] eqn:Ec.
    + destruct (F3' _ _ Ec) as (c1 & T1 & ->). destruct (v_chan _ _ _ _ _ V _ _ Ec) as [K Q].
      by destruct (chan_take_spec _ _ _ _ _ _ K T1) as (K' & P' & M).
    + by destruct (F2 r Ec) as [-> _].
  - exists f. split; [done|]. intros r. unfold handshake_waiting, phase.
    destruct (cm_replicas s !! r) as [c|] eqn:Ec.
    + destruct (F3' _ _ Ec) as (c1 & T1 & T2). destruct (v_chan _ _ _ _ _ V _ _ Ec) as [K Q].
      destruct (chan_take_spec _ _ _ _ _ _ K T1) as (K' & P' & M).
      destruct (ch_pending c) as [hm|]; [destruct M as (? & ? & _); done|].
      destruct (ch_phase c); try (by destruct M as (? & _)).
      destruct M as (e & e' & os & _ & M1 & M2 & M3 & _). exists e, e', os. rewrite <- Q. done.
    + by destruct (F2 r Ec) as [_ ?].
Qed.

Lemma step_cluster id retry timeout t s ids s' ret : cinv id retry timeout t s ->
  comm_step ops s (CCluster ids) = Some (s', ret) ->
  cinv id retry timeout (t ++ [(s, CCluster ids, ret)]) s' /\
  forall r, cm_replicas s' !! r = if stays s r ids then cm_replicas s !! r else None.
Proof.
  intros V H. simpl in H. injection H as <- <-.
  assert (forall r, cm_replicas (comm_cluster_change s ids) !! r = if stays s r ids then cm_replicas s !! r else None) as HL.
  { intros r. unfold comm_cluster_change, stays.
    assert (forall x, existsb (fun i => i =? x) ids = true <-> x ∈ ids) as Hex.
    { intros x. rewrite existsb_exists. setoid_rewrite N.eqb_eq. rewrite elem_of_list_In. naive_solver. }
    destruct (existsb (fun i => i =? cm_id s) ids) eqn:Ex; simpl.
    - apply Hex in Ex. case_bool_decide as Hb.
      + destruct Hb as [Hb _]. destruct (cm_replicas s !! r) as [c|] eqn:Ec.
        * apply map_filter_lookup_Some. split; [done|]. by apply Hex.
        * apply map_filter_lookup_None. by left.
      + apply map_filter_lookup_None. right. intros c Hc Hf. apply Hex in Hf. naive_solver.
    - rewrite lookup_empty. case_bool_decide as Hb; [|done]. destruct Hb as [_ Hb]. apply Hex in Hb. congruence. }
  split; [|done]. constructor.
  - rewrite <- (v_id _ _ _ _ _ V). unfold comm_cluster_change. by destruct (existsb _ _).
  - rewrite <- (v_retry _ _ _ _ _ V). unfold comm_cluster_change. by destruct (existsb _ _).
  - rewrite <- (v_timeout _ _ _ _ _ V). unfold comm_cluster_change. by destruct (existsb _ _).
  - intros r c. rewrite HL, unsent_snoc. destruct (stays s r ids); [|done]. intros Hr.
    destruct (v_chan _ _ _ _ _ V _ _ Hr). split; [by apply kinv_mono|done].
  - intros r. rewrite HL, unsent_snoc. destruct (stays s r ids); [|done]. apply (v_none _ _ _ _ _ V).
  - intros r m. rewrite unsent_snoc. destruct (stays s r ids); [|set_solver]. apply (v_recipient _ _ _ _ _ V).
Qed.

Lemma kinv_tick t to r retry c : kinv t to r c -> kinv t to r (comm_tick_chan retry c) /\
  ch_queue (comm_tick_chan retry c) = ch_queue c.
Proof.
  intros K. assert (kinv t to r (chan_tick c) /\ ch_queue (chan_tick c) = ch_queue c) as [K' Q'].
  { unfold chan_tick. destruct (ch_phase c) as [| |n| |n] eqn:Ep; try done.
    - destruct (ch_timeout c <=? n + 1); [split; [by apply kinv_failed|done]|].
      destruct K as [A B C D E]. split; [|done]. constructor; simpl; try done. by rewrite Ep in E.
    - split; [by apply kinv_failed|done]. }
  unfold comm_tick_chan. destruct (ch_phase (chan_tick c)) eqn:Ep; try done.
  case_match; [|done]. split; [|done]. destruct K' as [A B C D E]. by constructor.
Qed.

Lemma step_tick id retry timeout t s s' ret : cinv id retry timeout t s ->
  comm_step ops s CTick = Some (s', ret) ->
  cinv id retry timeout (t ++ [(s, CTick, ret)]) s'.
Proof.
  intros V H. simpl in H. injection H as <- <-. constructor; try apply V.
  - intros r c. simpl. rewrite lookup_fmap, unsent_snoc. destruct (cm_replicas s !! r) as [c0|] eqn:Ec; [|done].
    simpl. intros [= <-]. destruct (v_chan _ _ _ _ _ V _ _ Ec) as [K Q].
    destruct (kinv_tick _ _ _ (cm_retry s) _ K) as [K' Q']. split; [by apply kinv_mono|congruence].
  - intros r. simpl. rewrite lookup_fmap, unsent_snoc. destruct (cm_replicas s !! r) as [c0|] eqn:Ec; [done|].
    intros _. by apply (v_none _ _ _ _ _ V).
  - intros r m. rewrite unsent_snoc. apply (v_recipient _ _ _ _ _ V).
Qed.

Lemma trace_inv id retry timeout t s : id <> 0 ->
  comm_trace ops (comm_init comm_new id retry timeout) t s -> cinv id retry timeout t s.
Proof.
  intros Hid. induction 1 as [|t s op s' ret Ht IH Hok Hs].
  - constructor; try done. intros r m Hm. by apply elem_of_nil in Hm.
  - destruct op as [g m|g m|ord|ids|].
    + by eapply step_out.
    + by eapply step_in.
    + by eapply step_take.
    + by eapply step_cluster.
    + by eapply step_tick.
Qed.
End Inv.
