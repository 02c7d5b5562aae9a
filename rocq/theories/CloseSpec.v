(* Closing of a connection: vocabulary of property C73. *)
From Verif Require Import Common.

(* What may happen next.  [Ask], [Put x], [Fire] and [Close] are steps of the
   thread of the sending module, [Take] and [Step] of the receiving one. *)
Inductive cact (X : Type) : Type :=
| Ask                    (* CanSend() of the output port *)
| Put (x : X)            (* Send(x), mutex-protected part *)
| Fire                   (* FireEvent() after the mutex was released *)
| Close                  (* Disconnect() of the output port, mutex-protected part *)
| Take                   (* the receiver's thread takes the next event *)
| Step                   (* the receiver's thread makes its next step *).
Arguments Ask {X}. Arguments Put {X} x. Arguments Fire {X}.
Arguments Close {X}. Arguments Take {X}. Arguments Step {X}.

(* value of the "onerror" option of the receiving port *)
Inductive onerr := OnNone | OnStop | OnExit | OnAbort | OnOther.

(* the request object of a port connected by the connection manager *)
Inductive connreq := NoReq | Optional | Required.

(* configuration of the receiving side *)
Record policy := mkPol {
  po_req : connreq;
  po_period : bool;      (* reconnect period > 0 *)
  po_limit : Z;          (* number of reconnections, negative: no limit *)
  po_onerr : onerr;
  po_auto : bool;        (* fAutoStop of the module, default true *)
  po_others : bool       (* another port of the module is connected or reconnecting *)
}.

(* The receiving port does not give up its queue when the sender goes. *)
Definition keeps (p : policy) : bool :=
  match po_req p with
  | NoReq =>
    (po_period p && ((po_limit p <? 0)%Z || (0 <? po_limit p)%Z)) ||
    match po_onerr p with OnOther => negb (po_auto p) | _ => true end
  | _ => true
  end.
