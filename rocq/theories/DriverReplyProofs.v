(** Proofs about requests that consensus agrees on. *)
From Verif Require Import Base StorageModel SnapshotModel CommModel ActorModel DriverModel DriverSpec DriverProofs DriverTheorems DriverReplySpec.

Section Proofs.
Context {RS SP CS ST REQ RESP : Type}.
Variable codec : driver_codec.
Variable rops : raft_ops RS.
Variable sops : snap_ops SP.
Variable cops : comm_ops CS REQ RESP.
Variable app : actor ST.
Variable r : RS.
Variable s : SP.
Variable c : CS.
Notation reach := (reaches codec rops sops cops app r s c).
Hypothesis AA : answers_all app.
Hypothesis Hd : driver_codec_ok codec.

Lemma recorded_moves (P : app_call -> Prop) st t :
  called_as_recorded app (st, t) -> (forall cx, P (AInit cx)) -> (forall data, P (ALoad data)) ->
  (forall cx m out st1 st2, a_command app cx st1 m = Ok (st2, out) -> P (ACommand cx m out)) ->
  (forall cx ev out st1 st2, a_apply app st1 cx ev = Ok (st2, out) -> P (AApply cx ev out)) -> Forall P t.
Proof using.
  intros (cx0&st0&_&Hm) Hi Hl Hc Ha.
  assert (G : forall a b, rtc (app_move app) a b -> Forall P a.2 -> Forall P b.2).
  { induction 1 as [a|a b b' Hb _ IH]; [done|]. intros H. apply IH. inversion Hb; subst; simpl in *; rewrite Forall_app; (split; [done|]).
    - by constructor.
    - constructor; [by eapply Hc|done].
    - constructor; [by eapply Ha|done]. }
  apply (G _ _ Hm). simpl. by constructor.
Qed.

(** One call of a history. *)
Lemma call_at xs d outs b x : reach xs d outs -> xs !! b = Some x ->
  exists d1 o1 d2 out, reach (take b xs) d1 o1 /\ receive codec rops sops cops app d1 x = Ok (d2, out) /\
    reach (take (S b) xs) d2 (o1 ++ [out]) /\ outs !! b = Some out.
Proof using.
  revert d outs. induction xs as [|y xs IH] using rev_ind; intros d outs B Hb; [done|].
  destruct (born_snoc _ _ _ _ _ _ _ _ _ _ _ _ B) as (d1&o1&out&B1&Hr&->).
  assert (El : length o1 = length xs).
  { clear -B1. destruct B1 as [_ E]. revert E. generalize (@fresh RS SP CS ST REQ RESP r s c). revert d1 o1.
    induction xs as [|x xs IH]; intros d1 o1 d0 E; simpl in E; [by injection E as <- <-|].
    destruct (receive _ _ _ _ _ d0 x) as [[d2 out]| |]; simpl in E; [|done|done].
    destruct (run _ _ _ _ _ d2 xs) as [[d3 o3]| |] eqn:E3; simpl in E; [|done|done]. injection E as <- <-. simpl. f_equal. by eapply IH. }
  destruct (decide (b < length xs)%nat) as [Hlt|Hge].
  - rewrite lookup_app_l in Hb by done. destruct (IH _ _ B1 Hb) as (d3&o3&d4&out4&B3&Hr3&B4&Ho).
    exists d3, o3, d4, out4. rewrite !take_app_le by lia. rewrite lookup_app_l by lia. done.
  - assert (b = length xs) as ->. { apply lookup_lt_Some in Hb. rewrite app_length in Hb. simpl in Hb. lia. }
    rewrite list_lookup_middle in Hb by done. injection Hb as ->.
    exists d1, o1, d, out. rewrite take_app. rewrite (take_ge (xs ++ [x])) by (rewrite app_length; simpl; lia).
    split; [done|]. split; [done|]. split; [done|]. by rewrite <- El, list_lookup_middle.
Qed.
Lemma reach_unique xs d1 o1 d2 o2 : reach xs d1 o1 -> reach xs d2 o2 -> d1 = d2.
Proof using. intros [_ E1] [_ E2]. congruence. Qed.

Lemma delivered_take (m : host_in REQ RESP) xs n : delivered m (take n xs) -> delivered m xs.
Proof using. intros [t H]. exists t. rewrite <- (take_drop n xs). apply elem_of_app. by left. Qed.

(** The event of an entry that was proposed by the replica [id]. *)
Lemma proposed_event id ev e : re_type e = EntryNormal ->
  re_data e = enc_entry codec (Entry (Some (EntryId (ae_correlation ev) id)) (ae_contents ev)) ->
  event_of_entry codec id e = Some (EventContext (re_index e) true, ev).
Proof using Hd.
  intros Ht Ed. unfold event_of_entry. rewrite Ht, Ed.
  destruct (enc_entry codec _) as [|b bs] eqn:Ee; [by apply (entry_not_empty _ Hd) in Ee|].
  rewrite <- Ee, (entry_round_trip _ Hd). simpl. rewrite N.eqb_refl. by destruct ev.
Qed.

Lemma emitted_is_sent (d d' : rdriver RS SP CS ST REQ RESP) x out rt mt tr a y : call codec rops app d x d' out rt mt tr -> a ∈ tr -> y ∈ emitted a -> OApp y ∈ out.
Proof using.
  intros C Ha Hy.
  assert (Z : y ∈ omap app_out out).
  { rewrite (call_outputs _ _ _ _ _ _ _ _ _ _ C). apply elem_of_list_In, in_concat. exists (emitted a).
    split; [|by apply elem_of_list_In]. apply in_map_iff. exists a. split; [done|by apply elem_of_list_In]. }
  apply elem_of_list_omap in Z as (o&Ho&Eo). destruct o; try done. by injection Eo as ->.
Qed.

Lemma given_is_answered xs d outs q b e ev cx0 st0 m st0' out0 :
  reach xs d outs -> delivered (HStart q) (take (S b) xs) -> sr_ephemeral q = false ->
  a_command app cx0 st0 m = Ok (st0', out0) -> co_event out0 = Some ev ->
  re_type e = EntryNormal -> re_data e = enc_entry codec (Entry (Some (EntryId (ae_correlation ev) (sr_id q))) (ae_contents ev)) ->
  is_given codec rops sops cops app r s c xs b e -> replies outs b (ae_correlation ev).
Proof using AA Hd.
  intros B Hq He Hc Hev Ht Ed (calls&es&(d1&o1&d2&o2&Hb&B1&B2&Er)&Hes&Hin).
  destruct (lookup_lt_is_Some_2 _ _ Hb) as [x Hx].
  destruct (call_at _ _ _ _ _ B Hx) as (d3&o3&d4&out&B3&Hr&B4&Ho).
  rewrite (reach_unique _ _ _ _ _ B3 B1), (reach_unique _ _ _ _ _ B4 B2) in *. clear B3 B4.
  destruct (receive_call _ _ _ _ _ _ _ _ _ (born_inv _ _ _ _ _ _ _ _ _ _ _ B1) Hr) as (rt&mt&tr&C).
  assert (calls = rt) as ->. { pose proof (call_raft _ _ _ _ _ _ _ _ _ _ C) as E2. rewrite Er in E2. by apply app_inv_head in E2. }
  destruct (life_request _ _ (born_life _ _ _ _ _ _ _ _ _ _ _ B2) _ Hq) as (I1&E1&Hact&_). rewrite He in E1.
  pose proof (call_log _ _ _ _ _ _ _ _ _ _ C E1) as Hl. rewrite I1 in Hl.
  assert (Hf : inr (EventContext (re_index e) true, ev) ∈ omap from_log tr).
  { rewrite Hl. apply elem_of_list_In, in_concat. exists (expected codec (sr_id q) (inr es)).
    split; [apply in_map_iff; exists (inr es); split; [done|by apply elem_of_list_In]|].
    unfold expected. apply in_map_iff. eexists. split; [done|]. apply elem_of_list_In, elem_of_list_omap. exists e.
    split; [by rewrite merge_sort_Permutation|]. by apply proposed_event. }
  apply elem_of_list_omap in Hf as (a&Ha&Ea). destruct a as [|data| |cx ev' o]; try done. simpl in Ea. injection Ea as -> ->.
  destruct (d_actor d2) as [[st t]|] eqn:Ea2; [|done].
  assert (Et : t = app_calls d2) by (unfold app_calls; by rewrite Ea2).
  pose proof (hist_actor _ _ _ _ (born_history _ _ _ _ _ _ _ _ _ _ _ B2) _ Ea2) as Hrec.
  assert (Hy : exists y, y ∈ o /\ ac_correlation y = ae_correlation ev).
  { assert (F : Forall (fun a => match a with AApply cx ev' o' => ec_owned cx = true -> ev' = ev -> exists y, y ∈ o' /\ ac_correlation y = ae_correlation ev | _ => True end) t).
    { eapply recorded_moves; [exact Hrec|done..|]. intros cx ev' o' st1 st2 Hap Hown ->. by eapply (aa_event _ AA). }
    rewrite Forall_forall in F. apply (F (AApply (EventContext (re_index e) true) ev o)); [|done..].
    rewrite Et, (call_app _ _ _ _ _ _ _ _ _ _ C). apply elem_of_app. by right. }
  destruct Hy as (y&Hy&Ey). exists out, y. split; [done|]. split; [|done]. by eapply emitted_is_sent.
Qed.

Lemma request_is_answered xs d outs q a t m :
  reach xs d outs -> xs !! a = Some (t, Some (Some (HApp m))) ->
  delivered (HStart q) (take a xs) -> sr_ephemeral q = false -> ~ delivered HStop (take a xs) ->
  replies outs a (ac_correlation m) \/
  exists p, proposes codec rops sops cops app r s c xs a p /\
    forall b e, (a <= b)%nat -> is_given codec rops sops cops app r s c xs b e -> re_type e = EntryNormal -> re_data e = p ->
      replies outs b (ac_correlation m).
Proof using AA Hd.
  intros B Hx Hq He Hs. destruct (call_at _ _ _ _ _ B Hx) as (d1&o1&d2&out&B1&Hr&B2&Ho).
  destruct (receive_call _ _ _ _ _ _ _ _ _ (born_inv _ _ _ _ _ _ _ _ _ _ _ B1) Hr) as (rt&mt&tr&C).
  assert (Etk : take (S a) xs = take a xs ++ [(t, Some (Some (HApp m)))]) by (by apply take_S_r).
  assert (Hq2 : delivered (HStart q) (take (S a) xs)).
  { rewrite Etk. destruct Hq as [t' Hq]. exists t'. apply elem_of_app. by left. }
  destruct (C64_messages_of_the_application _ _ _ _ _ _ _ _ _ _ _ _ _ _ B1 Hr) as (tr'&Et&_&Hcm).
  rewrite (call_app _ _ _ _ _ _ _ _ _ _ C) in Et. apply app_inv_head in Et as <-.
  simpl in Hcm. rewrite <- Etk in Hcm.
  assert (Hcm' : omap command_of tr = [Some m]).
  { apply Hcm; [by exists q|]. rewrite Etk. intros [t' Hs']. apply elem_of_app in Hs' as [Hs'|Hs']; [apply Hs; by exists t'|].
    by apply elem_of_list_singleton in Hs'. }
  clear Hcm.
  assert (Hm : Some m ∈ omap command_of tr) by (rewrite Hcm'; left). clear Hcm'.
  apply elem_of_list_omap in Hm as (ac&Hac&Eac). destruct ac as [| |cx m' co|]; try done. injection Eac as ->.
  destruct (life_request _ _ (born_life _ _ _ _ _ _ _ _ _ _ _ B2) _ Hq2) as (I1&E1&Hact&_). rewrite He in E1.
  destruct (d_actor d2) as [[st tt]|] eqn:Ea2; [|done].
  assert (Ett : tt = app_calls d2) by (unfold app_calls; by rewrite Ea2).
  pose proof (hist_actor _ _ _ _ (born_history _ _ _ _ _ _ _ _ _ _ _ B2) _ Ea2) as Hrec.
  assert (Hcmd : exists st1 st2, a_command app cx st1 (Some m) = Ok (st2, co)).
  { assert (F : Forall (fun a => match a with ACommand cx m co => exists st1 st2, a_command app cx st1 m = Ok (st2, co) | _ => True end) tt).
    { eapply recorded_moves; [exact Hrec|done..| |done]. intros; by eexists _, _. }
    rewrite Forall_forall in F. apply (F (ACommand cx (Some m) co)).
    rewrite Ett, (call_app _ _ _ _ _ _ _ _ _ _ C). apply elem_of_app. by right. }
  destruct Hcmd as (st1&st2&Hcmd). destruct (aa_request _ AA _ _ _ _ _ Hcmd) as [(y&Hy&Ey)|(ev&Hev&Eev)].
  - left. exists out, y. split; [done|]. split; [|done]. eapply emitted_is_sent; [exact C|exact Hac|done].
  - right. exists (enc_entry codec (Entry (Some (EntryId (ae_correlation ev) (sr_id q))) (ae_contents ev))). split.
    + exists rt. split.
      { exists d1, o1, d2, (o1 ++ [out]). split; [by eapply lookup_lt_Some|]. split; [done|]. split; [done|]. by apply C. }
      assert (Hp : enc_entry codec (Entry (Some (EntryId (ae_correlation ev) (sr_id q))) (ae_contents ev)) ∈ omap proposal_of rt).
      { rewrite (call_proposals _ _ _ _ _ _ _ _ _ _ C E1), I1. apply elem_of_list_omap. exists (ACommand cx (Some m) co).
        split; [done|]. simpl. by rewrite Hev. }
      apply elem_of_list_omap in Hp as (z&Hz&Ez). destruct z; try done. by injection Ez as ->.
    + intros b e Hab Hg Hty Hda. rewrite <- Eev. eapply given_is_answered; try done.
      destruct Hq as [t' Hq]. exists t'. replace (S b) with (a + (S b - a))%nat by lia. rewrite <- take_take_drop. apply elem_of_app. by left.
Qed.
End Proofs.
