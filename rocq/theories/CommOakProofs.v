(** Proofs about handshake sessions. *)
From Verif Require Import Base CommModel CommSpec CommProofs CommTraceProofs.

Section Oak.
Context {REQ RESP CS SS : Type}.
Variable client : oak_ops CS REQ RESP.
Variable server : oak_ops SS RESP REQ.
Notation cop := (oak_open _ _ _ client).
Notation sop := (oak_open _ _ _ server).

(** Everything the two kinds of sessions guarantee, per call. *)
Lemma client_process_spec h m h' b : client_process client h m = (h', b) ->
  h_self _ h' = h_self _ h /\ h_peer _ h' = h_peer _ h /\
  (h_state _ h' = HCompleted -> h' = h) /\
  (h_state _ h = HCompleted \/ h_state _ h = HFailed -> h' = h) /\
  (h_state _ h = HUnknown -> b = false /\ h_state _ h' = HFailed).
Proof.
  unfold client_process. destruct h as [self peer s st]; simpl.
  destruct st; intros H; simplify_eq/=.
  - split_and!; try done; intros [?|?]; done.
  - destruct (hm_body m); simplify_eq/=; try (split_and!; try done; intros [?|?]; done).
    destruct (oak_in _ _ _ client s r) as [s' []]; simplify_eq/=; split_and!; try done; intros [?|?]; done.
  - split_and!; done.
  - split_and!; done.
Qed.

Lemma client_take_spec h h' o : client_take client h = (h', o) ->
  h_self _ h' = h_self _ h /\ h_peer _ h' = h_peer _ h /\
  (h_state _ h' = HCompleted -> h' = h \/ cop (h_session _ h') = true) /\
  (h_state _ h = HCompleted \/ h_state _ h = HFailed -> h' = h /\ o = Some None) /\
  (forall m, o = Some (Some m) -> hm_recipient m = h_peer _ h /\ hm_sender m = h_self _ h /\
     exists r, hm_body m = BRequest r).
Proof.
  unfold client_take. destruct h as [self peer s st]; simpl.
  destruct st; intros H; simplify_eq/=.
  - destruct (oak_out _ _ _ client s) as [s' [[x|]|]]; simplify_eq/=; split_and!; try done; try (intros [?|?]; done).
    intros m [= <-]. simpl. eauto.
  - destruct (oak_out _ _ _ client s) as [s' [[x|]|]]; simplify_eq/=; split_and!; try done; try (intros [?|?]; done).
    + destruct (cop s') eqn:E; [by right|done].
    + intros m [= <-]. simpl. eauto.
    + destruct (cop s') eqn:E; [by right|done].
  - split_and!; try done. by left.
  - split_and!; done.
Qed.

Lemma server_process_spec h m h' b : server_process server h m = (h', b) ->
  h_self _ h' = h_self _ h /\ h_peer _ h' = h_peer _ h /\
  (h_state _ h' = HCompleted -> h' = h) /\
  (h_state _ h = HCompleted \/ h_state _ h = HFailed -> h' = h).
Proof.
  unfold server_process. destruct h as [self peer s st]; simpl.
  destruct st; intros H; simplify_eq/=.
  - destruct (hm_body m); simplify_eq/=; try (split_and!; try done; intros [?|?]; done).
    destruct (oak_in _ _ _ server s r) as [s' []]; simplify_eq/=; split_and!; try done; intros [?|?]; done.
  - destruct (hm_body m); simplify_eq/=; try (split_and!; try done; intros [?|?]; done).
    destruct (oak_in _ _ _ server s r) as [s' []]; simplify_eq/=; split_and!; try done; intros [?|?]; done.
  - split_and!; done.
  - split_and!; done.
Qed.

Lemma server_take_spec h h' o : server_take server h = (h', o) ->
  h_self _ h' = h_self _ h /\ h_peer _ h' = h_peer _ h /\
  (h_state _ h' = HCompleted -> h' = h \/ sop (h_session _ h') = true) /\
  (h_state _ h = HCompleted \/ h_state _ h = HFailed -> h' = h /\ o = Some None) /\
  (forall m, o = Some (Some m) -> hm_recipient m = h_peer _ h /\ hm_sender m = h_self _ h /\
     exists r, hm_body m = BResponse r).
Proof.
  unfold server_take. destruct h as [self peer s st]; simpl.
  destruct st; intros H; simplify_eq/=.
  - split_and!; done.
  - destruct (oak_out _ _ _ server s) as [s' [[x|]|]]; simplify_eq/=; split_and!; try done; try (intros [?|?]; done).
    + destruct (sop s') eqn:E; [by right|done].
    + intros m [= <-]. simpl. eauto.
    + destruct (sop s') eqn:E; [by right|done].
  - split_and!; try done. by left.
  - split_and!; done.
Qed.

(** An invariant of every session the default provider made for [r]. *)
Definition good (self r : N) (h : hsession CS + hsession SS) : Prop :=
  match h with
  | inl h => h_self _ h = self /\ h_peer _ h = r /\ (h_state _ h = HCompleted -> cop (h_session _ h) = true)
  | inr h => h_self _ h = self /\ h_peer _ h = r /\ (h_state _ h = HCompleted -> sop (h_session _ h) = true)
  end.

Lemma good_process self r h m h' b : good self r h ->
  hs_process (default_ops client server) h m = (h', b) -> good self r h'.
Proof.
  destruct h as [h|h]; simpl.
  - destruct (client_process client h m) as [h1 b1] eqn:E. intros (A & B & C) [= <- <-].
    destruct (client_process_spec _ _ _ _ E) as (D & F & G & _). simpl. split_and!; [congruence..|].
    intros Hs. rewrite (G Hs) in Hs |- *. auto.
  - destruct (server_process server h m) as [h1 b1] eqn:E. intros (A & B & C) [= <- <-].
    destruct (server_process_spec _ _ _ _ E) as (D & F & G & _). simpl. split_and!; [congruence..|].
    intros Hs. rewrite (G Hs) in Hs |- *. auto.
Qed.

Lemma good_take self r h h' o : good self r h ->
  hs_take (default_ops client server) h = (h', o) -> good self r h' /\
  (forall m, o = Some (Some m) -> hm_recipient m = r /\ hm_sender m = self).
Proof.
  destruct h as [h|h]; simpl.
  - destruct (client_take client h) as [h1 b1] eqn:E. intros (A & B & C) [= <- <-].
    destruct (client_take_spec _ _ _ E) as (D & F & G & _ & M). simpl. split_and!; [congruence..| |].
    + intros Hs. destruct (G Hs) as [->|?]; auto.
    + intros m Hm. destruct (M m Hm) as (? & ? & _). split; congruence.
  - destruct (server_take server h) as [h1 b1] eqn:E. intros (A & B & C) [= <- <-].
    destruct (server_take_spec _ _ _ E) as (D & F & G & _ & M). simpl. split_and!; [congruence..| |].
    + intros Hs. destruct (G Hs) as [->|?]; auto.
    + intros m Hm. destruct (M m Hm) as (? & ? & _). split; congruence.
Qed.

Lemma good_session self t r h : provided self t -> session_from (default_ops client server) t r h -> good self r h.
Proof.
  intros [HO HI]. induction 1 as [s g m ret h Hin Hr Hg|s g m ret h Hin Hr Hg|h hm h' b s g ret _ IH _ _ Hp|h h' o _ IH Ht].
  - destruct (HO _ _ _ _ Hin) as (c & sv & E). rewrite Hg in E. simpl in E. destruct c; simplify_eq/=. done.
  - destruct (HI _ _ _ _ _ Hin Hr) as (c & sv & E). rewrite Hg in E. simpl in E. destruct sv; simplify_eq/=. done.
  - by eapply good_process.
  - by eapply good_take.
Qed.

Lemma good_encryptor self t r e : provided self t -> encryptor_from (default_ops client server) t r e ->
  secured client server e.
Proof.
  intros HP. induction 1 as [h e Hs Hc He|e b e' o _ IH He|e p e' o _ IH He].
  - pose proof (good_session _ _ _ _ HP Hs) as G. destruct h as [h|h]; simpl in *;
      unfold h_completed, h_encryptor, h_completed in *; destruct (h_state _ h) eqn:Est; try done;
      simplify_eq/=; destruct G as (_ & _ & G).
    + apply sec_client. auto.
    + apply sec_server. auto.
  - by eapply sec_encrypt.
  - by eapply sec_decrypt.
Qed.

Lemma default_completed_encryptor h : hs_completed (default_ops client server) h = true ->
  is_Some (hs_encryptor (default_ops client server) h).
Proof.
  destruct h as [h|h]; simpl; intros H; unfold h_encryptor; rewrite H; simpl; eauto.
Qed.

(** Histories of one session. *)
Lemma client_history self peer s l h :
  hs_history (client_process client) (client_take client) (hsession_new self peer s) l h ->
  h_self _ h = self /\ h_peer _ h = peer /\
  (h_state _ h = HCompleted -> cop (h_session _ h) = true) /\
  (forall m, EvTake (Some (Some m)) ∈ l -> hm_recipient m = peer /\ hm_sender m = self /\ exists r, hm_body m = BRequest r).
Proof.
  induction 1 as [|l h m h' b _ (A & B & C & D) Hp|l h h' o _ (A & B & C & D) Ht].
  - split_and!; try done. intros m Hm. by apply elem_of_nil in Hm.
  - destruct (client_process_spec _ _ _ _ Hp) as (P1 & P2 & P3 & _). split_and!; [congruence..| |].
    + intros Hs. rewrite (P3 Hs) in Hs |- *. auto.
    + intros m1 [Hm|Hm]%elem_of_app; [by apply D|]. by apply elem_of_list_singleton in Hm.
  - destruct (client_take_spec _ _ _ Ht) as (P1 & P2 & P3 & _ & P5). split_and!; [congruence..| |].
    + intros Hs. destruct (P3 Hs) as [->|?]; auto.
    + intros m1 [Hm|Hm]%elem_of_app; [by apply D|]. apply elem_of_list_singleton in Hm. injection Hm as <-.
      destruct (P5 m1 eq_refl) as (? & ? & ?). split_and!; try congruence; done.
Qed.

Lemma server_history self peer s l h :
  hs_history (server_process server) (server_take server) (hsession_new self peer s) l h ->
  h_self _ h = self /\ h_peer _ h = peer /\
  (h_state _ h = HCompleted -> sop (h_session _ h) = true) /\
  (forall m, EvTake (Some (Some m)) ∈ l -> hm_recipient m = peer /\ hm_sender m = self /\ exists r, hm_body m = BResponse r).
Proof.
  induction 1 as [|l h m h' b _ (A & B & C & D) Hp|l h h' o _ (A & B & C & D) Ht].
  - split_and!; try done. intros m Hm. by apply elem_of_nil in Hm.
  - destruct (server_process_spec _ _ _ _ Hp) as (P1 & P2 & P3 & _). split_and!; [congruence..| |].
    + intros Hs. rewrite (P3 Hs) in Hs |- *. auto.
    + intros m1 [Hm|Hm]%elem_of_app; [by apply D|]. by apply elem_of_list_singleton in Hm.
  - destruct (server_take_spec _ _ _ Ht) as (P1 & P2 & P3 & _ & P5). split_and!; [congruence..| |].
    + intros Hs. destruct (P3 Hs) as [->|?]; auto.
    + intros m1 [Hm|Hm]%elem_of_app; [by apply D|]. apply elem_of_list_singleton in Hm. injection Hm as <-.
      destruct (P5 m1 eq_refl) as (? & ? & ?). split_and!; try congruence; done.
Qed.
End Oak.
