(** Model of the endpoint services, runtime/src/service.rs: what connects the
    driver of a replica to its host.

    Both services are generic in the driver: [receive] is its
    [receive_message], see [DriverModel.receive_message]. It
    takes an instant and a message and returns the messages sent to the host
    ([ApplicationHost], service.rs 48-72, only collects them and is created anew
    for every call).

    Simplifications, for the whole file:
    - the channels, the thread and the futures of tokio are modelled by the
      effects of their operations; which one happens next is not determined;
    - a call waits for room in the channel in no particular order, although
      tokio keeps to the order of arrival;
    - errors are told apart only as far as callers can: a reply or an error;
    - dropping the service (service.rs 234-245) is left out: it is possible only
      when there are no calls. *)
From Verif Require Import Base CommModel.

Section Service.
Context {D IN OUT : Type}.
(** driver.rs 1271-1360 receive_message. *)
Variable receive : D -> N -> option IN -> res pal_error (D * list OUT).

(** endpoint.proto ReceiveMessageRequest. *)
Record request := Request { rq_instant : N; rq_message : option IN }.

(** ** The service of the restricted kernel *)
(** service.rs 109-130 receive_message: an error of the driver is a panic. *)
Definition kernel_receive (d : D) (q : request) : res unit (D * list OUT) :=
  match receive d (rq_instant q) (rq_message q) with
  | Ok (d, out) => Ok (d, out)
  | _ => Panic
  end.

(** ** The service of containers *)
(** service.rs 178-199 run_driver_loop: where the thread that owns the driver
    is. [Replying]: the driver has returned and the reply is about to be sent.
    [Dead]: it has panicked; the driver and the receiving end of the channel are
    gone, and with it the requests in the channel and the means to reply to
    them. *)
Inductive thread :=
| Idle (d : D)
| Working (d : D) (call : N) (q : request)
| Replying (d : D) (call : N) (out : list OUT)
| Dead.

(** service.rs 132-147 TonicApplicationService with its calls, which are numbered
    in the order they are made. [sv_waiting]: calls waiting to put their request
    into the channel; [sv_channel]: the requests in the channel, at most one
    (service.rs 168); [sv_open]: calls whose callers are waiting for a reply;
    [sv_replies]: replies sent. *)
Record service := Service {
  sv_thread : thread;
  sv_next : N;
  sv_waiting : list (N * request);
  sv_channel : list (N * request);
  sv_open : list N;
  sv_replies : list (N * list OUT);
}.
(** service.rs 151-176 new. *)
Definition service_new (d : D) : service := Service (Idle d) 0 [] [] [] [].

(** What callers and the host's runtime can see. *)
Inductive event :=
| Called (call : N) (q : request)
| Returned (call : N) (out : option (list OUT))
| Cancelled (call : N).

Inductive serve : service -> option event -> service -> Prop :=
(** service.rs 250-254: a call is made, and waits for room in the channel. *)
| serve_call t n w c o r q :
    serve (Service t n w c o r) (Some (Called n q)) (Service t (n + 1) (w ++ [(n, q)]) c (o ++ [n]) r)
(** service.rs 255-260: there is room. *)
| serve_send t n w1 x w2 o r :
    t <> Dead ->
    serve (Service t n (w1 ++ x :: w2) [] o r) None (Service t n (w1 ++ w2) [x] o r)
(** service.rs 189: the thread takes a request. *)
| serve_take d n w i q c o r :
    serve (Service (Idle d) n w ((i, q) :: c) o r) None (Service (Working d i q) n w c o r)
(** service.rs 190-193: the driver handles it. *)
| serve_handle d n w i q c o r d' out :
    receive d (rq_instant q) (rq_message q) = Ok (d', out) ->
    serve (Service (Working d i q) n w c o r) None (Service (Replying d' i out) n w c o r)
| serve_fail d n w i q c o r :
    (forall x, receive d (rq_instant q) (rq_message q) <> Ok x) ->
    serve (Service (Working d i q) n w c o r) None (Service Dead n w [] o r)
(** service.rs 194-197: the reply is sent, or nobody waits for it and the thread
    panics. *)
| serve_reply d n w i out c o r :
    i ∈ o -> serve (Service (Replying d i out) n w c o r) None (Service (Idle d) n w c o (r ++ [(i, out)]))
| serve_unwanted d n w i out c o r :
    i ∉ o -> serve (Service (Replying d i out) n w c o r) None (Service Dead n w [] o r)
(** service.rs 261-265: the caller gets the reply. *)
| serve_return t n w c o1 i o2 r out :
    (i, out) ∈ r -> serve (Service t n w c (o1 ++ i :: o2) r) (Some (Returned i (Some out))) (Service t n w c (o1 ++ o2) r)
(** service.rs 255-264: once the thread is dead, requests cannot be sent and
    replies not be received. *)
| serve_error n w c o1 i o2 r :
    i ∉ map fst r ->
    serve (Service Dead n w c (o1 ++ i :: o2) r) (Some (Returned i None))
          (Service Dead n (filter (fun x => x.1 <> i) w) c (o1 ++ o2) r)
(** The caller gives up: its future is dropped, and with it the request if it is
    not in the channel yet. *)
| serve_cancel t n w c o1 i o2 r :
    serve (Service t n w c (o1 ++ i :: o2) r) (Some (Cancelled i))
          (Service t n (filter (fun x => x.1 <> i) w) c (o1 ++ o2) r).

(** All that happens to a new service, in any order. *)
Inductive serves (d0 : D) : list event -> service -> Prop :=
| serves_new : serves d0 [] (service_new d0)
| serves_step tr s e s' : serves d0 tr s -> serve s e s' -> serves d0 (tr ++ option_list e) s'.
End Service.
Arguments request : clear implicits.
Arguments service : clear implicits.
Arguments thread : clear implicits.
Arguments event : clear implicits.
