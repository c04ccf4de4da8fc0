(** Theorems about a replica whose consensus needs no one else, as in a cluster of
    one replica (C104). *)
From Verif Require Import Base StorageModel SnapshotModel CommModel ActorModel DriverModel DriverSpec DriverProofs DriverTheorems
  ClusterTheorems ConsensusModel DriverReplySpec DriverReplyProofs DriverReplyTheorems DriverSoloSpec DriverSoloProofs.

(** A request handed to such a replica while it runs is answered in the same call. *)
Theorem C104_requests_are_answered_at_once {RS SP CS ST REQ RESP} (codec : driver_codec) (rops : raft_ops RS) (sops : snap_ops SP)
    (cops : comm_ops CS REQ RESP) (app : actor ST) holds due stored r s c xs d outs q a t m :
  answers_all app -> driver_codec_ok codec -> agrees_alone rops holds due stored ->
  reaches codec rops sops cops app r s c xs d outs -> xs !! a = Some (t, Some (Some (HApp m))) ->
  delivered (HStart q) (take a xs) -> sr_ephemeral q = false -> ~ delivered (REQ := REQ) (RESP := RESP) HStop (take a xs) ->
  replies outs a (ac_correlation m).
Proof. intros AA Hd A. by eapply answered_at_once. Qed.

(** The same for the consensus of the platform on top of a node of the raft crate. *)
Theorem C104_nodes_answer_at_once {ND NR SP CS ST REQ RESP} (codec : driver_codec) (nops : node_ops ND NR) (sops : snap_ops SP)
    (cops : comm_ops CS REQ RESP) (app : actor ST) holds due stored s c xs d outs q a t m :
  answers_all app -> driver_codec_ok codec -> node_agrees_alone nops holds due stored ->
  reaches codec (simple_ops nops) sops cops app simple_new s c xs d outs -> xs !! a = Some (t, Some (Some (HApp m))) ->
  delivered (HStart q) (take a xs) -> sr_ephemeral q = false -> ~ delivered (REQ := REQ) (RESP := RESP) HStop (take a xs) ->
  replies outs a (ac_correlation m).
Proof. intros AA Hd A. eapply answered_at_once; [by apply simple_agrees_alone|done..]. Qed.

(** ** A consensus that needs no one else *)
(** What is proposed is handed over to be stored in the next batch, and is agreed
    on once its entries have been stored and the batch acknowledged. Without
    [so_init] nothing is accepted. *)
Record solo := Solo { so_init : bool; so_next : N; so_new : list rentry; so_log : list rentry }.
Definition solo0 : solo := Solo false 1 [] [].
Definition solo_ops : raft_ops solo := RaftOps solo
  so_init so_init (fun _ => raft_st0)
  (fun r id c data leader n => Ok (Solo true 2 [] []))
  (fun r m => (r, true))
  (fun r p => if so_init r then Ok (Solo true (so_next r + 1) (so_new r ++ [REntry EntryNormal 1 (so_next r) p]) (so_log r)) else Panic)
  (fun r c => (r, Some ProposalDropped))
  (fun r => r)
  (fun r c => Ok (r, conf_of_voters []))
  (fun r => match so_new r with [] => false | _ => true end)
  (fun r => (Solo (so_init r) (so_next r) [] [], Ready [] [] (so_new r) [] None no_snap 1))
  (fun r n => (Solo (so_init r) (so_next r) (so_new r) [], LightReady [] (so_log r)))
  (fun r => r)
  (fun r _ _ => r)
  (fun r _ => r)
  (fun r es => Ok (Solo (so_init r) (so_next r) (so_new r) (so_log r ++ es)))
  (fun r _ => Ok r)
  (fun r i _ => false)
  (fun r _ _ _ => Ok r)
  (fun r => 0).
Definition solo_holds (r : solo) (p : bytes) : Prop := so_init r = true /\ among p (so_new r).
Definition solo_due (r : solo) (n : N) (es : list rentry) (p : bytes) : Prop := among p es.
Definition solo_stored (r : solo) (n : N) (p : bytes) : Prop := among p (so_log r).
Example C104_solo_agrees_alone : agrees_alone solo_ops solo_holds solo_due solo_stored.
Proof.
  constructor; try done; try (by intros; simplify_eq/=).
  - intros r p r' E. simpl in E. destruct (so_init r); [|done]. injection E as <-. split; [done|].
    eexists. simpl. split; [apply elem_of_app; right; left|done].
  - intros r p [Hi (e&He&_)]. split; [done|]. simpl. destruct (so_new r); [by apply elem_of_nil in He|done].
  - intros r p q r' [Hi (e&He&H)] E. simpl in E. rewrite Hi in E. injection E as <-. split; [done|].
    exists e. simpl. split; [apply elem_of_app; by left|done].
  - intros r p r' rd [_ (e&He&H)] [= <- <-]. right. simpl. split; [by destruct (so_new r); [apply elem_of_nil in He|]|]. by exists e.
  - intros r n es p r' (e&He&H) [= <-]. exists e. simpl. split; [apply elem_of_app; by right|done].
Qed.
(** Two requests, each answered in its call. *)
Definition solo_history : list (delivery unit unit) :=
  [(5, toy_start true false 1); (6, toy_app_msg 21 [4; 4]); (7, None); (8, toy_app_msg 22 [5])].
Example C104_solo_example :
  match run toy_codec solo_ops toy_snap toy_comm toy_app (fresh solo0 tt tt) solo_history with
  | Ok (d, outs) => map (omap app_out) outs = [[]; [ActorCommand 21 [] [4; 4]]; []; [ActorCommand 22 [] [5]]]
  | _ => False
  end.
Proof. vm_compute. reflexivity. Qed.
Example C104_solo_hypotheses : answers_all toy_app /\ driver_codec_ok toy_codec /\ ra_initialized solo_ops solo0 = false /\
  solo_history !! 3%nat = Some (8, toy_app_msg 22 [5]) /\
  delivered (HStart (StartRequest true 1 (Some (RaftConfig 10 5 2 0 None 1)) [7] false true)) (take 3 solo_history) /\
  ~ delivered HStop (take 3 solo_history).
Proof.
  split; [exact toy_answers_all|]. split; [exact toy_codec_ok|]. split; [reflexivity|]. split; [reflexivity|]. split; [exists 5; left|].
  intros [t Ht]. repeat (apply elem_of_cons in Ht as [Ht|Ht]; [discriminate Ht|]). by apply elem_of_nil in Ht.
Qed.

(** ** A node that needs no one else *)
(** A node that leads from the start; what it has given to be stored it hands over
    as agreed on when the batch is acknowledged. *)
Record anode := ANode { an_store : storage; an_id : N; an_new : list rentry; an_number : N }.
Definition anode_ops : node_ops anode (list rentry) := NodeOps anode (list rentry)
  (fun id _ s => Ok (ANode s id [] 1))
  an_store (fun n s => ANode s (an_id n) (an_new n) (an_number n)) (fun _ => true) an_id (fun _ => 1) (fun _ => false)
  (fun n m => (n, true))
  (fun n p => Ok (ANode (an_store n) (an_id n)
     (an_new n ++ [REntry EntryNormal 1 (StorageModel.last_index (an_store n) + 1 + Nlen (an_new n)) p]) (an_number n)))
  (fun n c => (n, Some ProposalDropped))
  (fun n => n) (fun n c => Ok (n, conf_of_voters [an_id n]))
  (fun n => match an_new n with [] => false | _ => true end)
  (fun n => (ANode (an_store n) (an_id n) [] (an_number n + 1),
             (Ready [] [] (an_new n) [] (Some (HardState 1 1 (StorageModel.last_index (an_store n))))
                (Snapshot 0 0 (conf_of_voters []) []) (an_number n), an_new n)))
  (fun n rest => (n, LightReady [] rest))
  (fun n => n) (fun n _ _ => n).
Example C104_node_agrees_alone :
  node_agrees_alone anode_ops (fun n p => among p (an_new n)) (fun _ rest _ p => among p rest) (fun _ rest p => among p rest).
Proof.
  constructor; try done; try (by intros; simplify_eq/=).
  - intros n p n' [= <-]. eexists. simpl. split; [apply elem_of_app; right; left|done].
  - intros n p (e&He&_). simpl. destruct (an_new n); [by apply elem_of_nil in He|done].
  - intros n p q n' (e&He&H) [= <-]. exists e. simpl. split; [apply elem_of_app; by left|done].
  - intros n p n' rd rest (e&He&H) [= <- <- <-]. right. simpl. split; [by destruct (an_new n); [apply elem_of_nil in He|]|]. by exists e.
Qed.
Example C104_node_example :
  match run toy_codec (simple_ops anode_ops) toy_snap toy_comm toy_app (fresh simple_new tt tt) solo_history with
  | Ok (d, outs) => map (omap app_out) outs = [[]; [ActorCommand 21 [] [4; 4]]; []; [ActorCommand 22 [] [5]]] /\
    match rs_node (d_raft d).1 with Some n => map re_index (st_entries (an_store n)) = [2; 3] | None => False end
  | _ => False
  end.
Proof. vm_compute. done. Qed.
