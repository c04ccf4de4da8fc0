(** Vocabulary for the snapshot transfer properties. *)
From Verif Require Import Base StorageModel SnapshotModel.

(** Piece number [k] of a payload cut into pieces of [cs] bytes. *)
Definition piece (cs : N) (data : bytes) (k : N) : bytes :=
  take (N.to_nat cs) (drop (N.to_nat (k * cs)) data).

(** Number of pieces: at least one, otherwise the least [n] with
    [length data <= n * cs]. *)
Definition is_piece_count (cs : N) (data : bytes) (n : N) : Prop :=
  1 <= n /\ Nlen data <= n * cs /\ (n <> 1 -> (n - 1) * cs < Nlen data).

(** The content of request number [k] of the transfer [id] of [sn]. *)
Definition transfer_content (enc_meta : snap_meta -> bytes) (cs id : N) (sn : snapshot) (k : N)
  : content :=
  Content id (Some (if k =? 0
                    then CHeader (Nlen (sn_data sn)) (enc_meta (meta_of sn)) (piece cs (sn_data sn) 0)
                    else CChunk k (piece cs (sn_data sn) k))).

(** Numbers 0, 1, ..., n-1. *)
Definition range (n : N) : list N := map N.of_nat (seq 0 (N.to_nat n)).

(** A trace of sender calls together with what they returned. *)
Definition strace := list (sop * sout).

(** [sender_trace s0 t s]: starting in [s0] the calls of [t] returned what [t]
    records and led to [s]; every hash map iteration visits each key once, and
    receivers have non-zero ids (as Raft replicas do). *)
Definition sop_ok (s : sender) (op : sop) : Prop :=
  match op with
  | SStart r _ => r <> 0
  | SNext ord | SComplete ord | SReset ord => ord ≡ₚ (map_to_list (sd_receivers s)).*1
  | _ => True
  end.

Inductive sender_trace (enc_meta : snap_meta -> bytes) (s0 : sender) : strace -> sender -> Prop :=
| trace_nil : sender_trace enc_meta s0 [] s0
| trace_snoc t s op s' out :
    sender_trace enc_meta s0 t s -> sop_ok s op ->
    sender_step enc_meta s op = Ok (s', out) ->
    sender_trace enc_meta s0 (t ++ [(op, out)]) s'.

(** The part of a trace after the transfer to [r] was started with [sn]:
    nothing in [t] restarted, finished or cancelled it. *)
Definition live_since (r : N) (t : strace) : Prop :=
  forall op out, (op, out) ∈ t ->
    (forall sn, op <> SStart r sn) /\ (forall ord, op <> SReset ord) /\
    (forall x, out <> ODone (Some (r, x))).

(** Requests sent to [r] in a trace, oldest first. *)
Definition requests_to (r : N) (t : strace) : list drequest :=
  omap (fun '(_, out) => match out with
                         | OReq (Some q) => if dq_recipient q =? r then Some q else None
                         | _ => None
                         end) t.

(** Number of transfers started in a trace. *)
Definition nstarts (t : strace) : N :=
  Nlen (omap (fun '(op, _) => match op with SStart r _ => Some r | _ => None end) t).

(** All requests sent in a trace, oldest first. *)
Definition sent_requests (t : strace) : list drequest :=
  omap (fun '(_, out) => match out with OReq (Some q) => Some q | _ => None end) t.

(** Request number [k] went to [r] and was later acknowledged as accepted by
    the snapshot id, chunk number and delivery id it was sent with. *)
Definition acknowledged (r id k : N) (t : strace) : Prop :=
  exists t1 t2 t3 op q resp out it,
    t = t1 ++ (op, OReq (Some q)) :: t2 ++ (SResp r (dq_delivery q) (Some resp), out) :: t3 /\
    dq_recipient q = r /\
    dq_payload q = Some (Some (Content id (Some it))) /\
    (match it with CHeader _ _ _ => 0 | CChunk i _ => i end) = k /\
    dp_payload resp = Some (Some (Ack id k AckAccepted)).

(** A response answers a request of transfer [id] with [n] chunks. *)
Definition answers (id n : N) (resp : dresponse) : Prop :=
  exists a, dp_payload resp = Some (Some a) /\ ak_snapshot_id a = id /\ ak_chunk_index a < n.

(** Request number [k] of the transfer was sent to [r] with delivery id [d] and
    has not been answered since. *)
Definition waiting enc_meta (r cs id : N) (sn : snapshot) (n : N) (t : strace) (d k : N) : Prop :=
  exists t1 op q t2,
    t = t1 ++ (op, OReq (Some q)) :: t2 /\
    dq_recipient q = r /\ dq_delivery q = d /\
    dq_payload q = Some (Some (transfer_content enc_meta cs id sn k)) /\
    forall resp out, (SResp r d (Some resp), out) ∈ t2 -> ~ answers id n resp.

(** A response that does not fail the transfer: it is about another transfer,
    or it accepts the very chunk waiting under its delivery id. *)
Definition harmless enc_meta (r cs id : N) (sn : snapshot) (n : N) (before : strace)
  (d : N) (resp : option dresponse) : Prop :=
  exists rp a, resp = Some rp /\ dp_payload rp = Some (Some a) /\
    (ak_snapshot_id a <> id \/
     (ak_status a = AckAccepted /\
      waiting enc_meta r cs id sn n before d (ak_chunk_index a))).

Definition all_harmless enc_meta (r cs id : N) (sn : snapshot) (n : N) (t : strace) : Prop :=
  forall t1 d resp out t2, t = t1 ++ (SResp r d resp, out) :: t2 ->
    harmless enc_meta r cs id sn n t1 d resp.

Definition some_harmful enc_meta (r cs id : N) (sn : snapshot) (n : N) (t : strace) : Prop :=
  exists t1 d resp out t2, t = t1 ++ (SResp r d resp, out) :: t2 /\
    ~ harmless enc_meta r cs id sn n t1 d resp.

(** Number of requests in flight. *)
Definition in_flight (s : sender) : N :=
  foldr (fun '(_, st) acc => pending_count st + acc) 0 (map_to_list (sd_receivers s)).

(** A transfer still has something to send. *)
Definition viable (st : sender_state) : Prop :=
  ss_status st = None /\ ss_sent st + pending_count st < ss_count st.

(** [q] carries request number [k] of the transfer and comes from [from]. *)
Definition belongs enc_meta (from cs id : N) (sn : snapshot) (n : N) (q : drequest) : Prop :=
  dq_sender q = from /\
  exists k, k < n /\ dq_payload q = Some (Some (transfer_content enc_meta cs id sn k)).

Definition is_header (q : drequest) : Prop :=
  exists id size meta c, dq_payload q = Some (Some (Content id (Some (CHeader size meta c)))).

(** At the end of trace [t] the delivery [d] to [r] has been sent, not answered,
    and the transfer it belongs to is still in progress. *)
Definition outstanding enc_meta (cs : N) (t : strace) (r d : N) : Prop :=
  exists pre sn out post n k,
    t = pre ++ (SStart r sn, out) :: post /\ live_since r post /\
    is_piece_count cs (sn_data sn) n /\
    waiting enc_meta r cs (nstarts pre + 1) sn n post d k.

(** ** The processor as a whole *)

(** A history of one replica's processor, after [init]: the calls, what they
    returned, and the processor they lead to. *)
Definition pop_ok (p : processor) (op : pop) : Prop :=
  match op with
  | PChange ord _ _ _ => ord ≡ₚ (map_to_list (sd_receivers (pr_sender p))).*1
  | PSend op => sop_ok (pr_sender p) op
  | PRecv _ => True
  end.

Inductive processor_trace enc_meta dec_meta (p0 : processor) : list (pop * pout) -> processor -> Prop :=
| ptrace_nil : processor_trace enc_meta dec_meta p0 [] p0
| ptrace_snoc t p op p' out :
    processor_trace enc_meta dec_meta p0 t p -> pop_ok p op ->
    processor_step enc_meta dec_meta p op = Ok (p', out) ->
    processor_trace enc_meta dec_meta p0 (t ++ [(op, out)]) p'.

(** The leader and term named by the last notification; nobody before that. *)
Fixpoint last_notified (t : list (pop * pout)) (acc : N * N) : N * N :=
  match t with
  | [] => acc
  | (PChange _ l tm _, _) :: t' => last_notified t' (l, tm)
  | _ :: t' => last_notified t' acc
  end.
