(** Model of internal/runbook/runner.go: the goroutines and channels of Run as
    a transition system.  Each action is one step of one goroutine; every
    interleaving of enabled actions is an execution. *)
From stdpp Require Import gmap sets list strings numbers.
From Verif Require Import GoBase DagModel SchedModel.

(** Errors are identified by their text. *)
Notation go_error := string.

(** runner.go:24-34.  [ri_limits]: each target's ConcurrencyLimit();
    [ri_start]: the result of its Start() (None = nil); [ri_handle]: the result
    of Handle for each task (Handle is assumed to return; a task is handled at
    most once, so a result per task loses no behaviour).  Stop's result is
    ignored by the code.  Message and Config of tasks only reach the log and
    Handle. *)
Record run_input := RunInput {
  ri_limits : gmap string Z;
  ri_start : string → option go_error;
  ri_tasks : gmap string task;
  ri_handle : string → option go_error;
}.

(** runner.go:37-41: twice the sum of the limits.  (A negative capacity makes
    [make] panic; the theorems assume limits are not negative.) *)
Definition run_capacity (inp : run_input) : Z :=
  2 * map_fold (λ _ n s, n + s)%Z 0%Z (ri_limits inp).

(** A buffered channel. *)
Record chan (A : Type) := Chan { ch_buf : list A; ch_closed : bool }.
Arguments Chan {A} _ _.
Arguments ch_buf {A} _.
Arguments ch_closed {A} _.

(** run(), runner.go:63-91, and the loop of startTargets, 126-141. *)
Inductive main_pc :=
| MStart (l : list string)          (* 129: targets still to be started *)
| MLoop                             (* 73: about to receive from ended *)
| MSend (t : string)                (* 80: about to send on done *)
| MFail (e : go_error)              (* 77: about to call closeDone *)
| MDrain (r : option go_error)      (* 85: second loop *)
| MDefer (r : option go_error)      (* 64: return reached, deferred closeDone *)
| MReturned (r : option go_error).

(** The goroutine of startScheduler, 94-123. *)
Inductive sched_pc :=
| SInit                                     (* 98 *)
| SSend (s : sched) (l : list (string * string))  (* 103-114: still to be sent *)
| SRecv (s : sched)                         (* 116 *)
| SClose                                    (* 95: deferred close(readyChan) *)
| SDone.

(** The goroutine of startTargets, 145-159. *)
Inductive router_pc :=
| RNotStarted
| RRecv                        (* 147 *)
| RSend (q t : string)         (* 150 *)
| RClose (l : list string)     (* 153-155: channels still to be closed *)
| RWait                        (* 156 *)
| RDone.

(** startTargetGoroutine, 164-186. *)
Inductive target_pc :=
| TRecv                                   (* 173 *)
| TGot (t : string)                       (* 174-176 *)
| THandle (t : string)                    (* 177, inside Handle *)
| TSend (t : string) (e : option go_error) (* 178 *)
| TStop                                   (* 183 *)
| TWg                                     (* 184 *)
| TDone.

Global Instance target_pc_eq_dec : EqDecision target_pc.
Proof. solve_decision. Defined.

(** Observable events. *)
Inductive event :=
| EvStart (q : string)
| EvStartFail (q : string) (e : go_error)
| EvHandle (q t : string)                       (* Handle called *)
| EvHandled (q t : string) (e : option go_error) (* Handle returned *)
| EvStop (q : string)
| EvReturn (r : option go_error).                (* run returned *)

(** [r_targets]: the started targets.  [r_tclosed]: targets whose (unbuffered)
    channel is closed.  [r_done_nil]: whether the field r.done is nil. *)
Record rstate := RState {
  r_main : main_pc;
  r_sched : sched_pc;
  r_router : router_pc;
  r_targets : gmap string target_pc;
  r_done : chan string;
  r_done_nil : bool;
  r_ended : chan (string * option go_error);
  r_ready : chan (string * string);
  r_tclosed : gset string;
  r_panic : bool;
}.

Definition set_main (st : rstate) (m : main_pc) : rstate :=
  RState m (r_sched st) (r_router st) (r_targets st) (r_done st) (r_done_nil st)
    (r_ended st) (r_ready st) (r_tclosed st) (r_panic st).
Definition set_sched (st : rstate) (m : sched_pc) : rstate :=
  RState (r_main st) m (r_router st) (r_targets st) (r_done st) (r_done_nil st)
    (r_ended st) (r_ready st) (r_tclosed st) (r_panic st).
Definition set_router (st : rstate) (m : router_pc) : rstate :=
  RState (r_main st) (r_sched st) m (r_targets st) (r_done st) (r_done_nil st)
    (r_ended st) (r_ready st) (r_tclosed st) (r_panic st).
Definition set_target (st : rstate) (q : string) (m : target_pc) : rstate :=
  RState (r_main st) (r_sched st) (r_router st) (<[ q := m ]> (r_targets st)) (r_done st)
    (r_done_nil st) (r_ended st) (r_ready st) (r_tclosed st) (r_panic st).
Definition set_done (st : rstate) (c : chan string) : rstate :=
  RState (r_main st) (r_sched st) (r_router st) (r_targets st) c (r_done_nil st)
    (r_ended st) (r_ready st) (r_tclosed st) (r_panic st).
Definition set_done_nil (st : rstate) : rstate :=
  RState (r_main st) (r_sched st) (r_router st) (r_targets st) (r_done st) true
    (r_ended st) (r_ready st) (r_tclosed st) (r_panic st).
Definition set_ended (st : rstate) (c : chan (string * option go_error)) : rstate :=
  RState (r_main st) (r_sched st) (r_router st) (r_targets st) (r_done st) (r_done_nil st)
    c (r_ready st) (r_tclosed st) (r_panic st).
Definition set_ready (st : rstate) (c : chan (string * string)) : rstate :=
  RState (r_main st) (r_sched st) (r_router st) (r_targets st) (r_done st) (r_done_nil st)
    (r_ended st) c (r_tclosed st) (r_panic st).
Definition set_tclosed (st : rstate) (c : gset string) : rstate :=
  RState (r_main st) (r_sched st) (r_router st) (r_targets st) (r_done st) (r_done_nil st)
    (r_ended st) (r_ready st) c (r_panic st).
(** A run-time panic ends the whole program. *)
Definition panic (st : rstate) : rstate :=
  RState (r_main st) (r_sched st) (r_router st) (r_targets st) (r_done st) (r_done_nil st)
    (r_ended st) (r_ready st) (r_tclosed st) true.

(** Go's channel operations on buffered channels.  [None]: the goroutine blocks. *)
Inductive send_result (A : Type) := Sent (c : chan A) | SendBlocks | SendPanics.
Arguments Sent {A} _.
Arguments SendBlocks {A}.
Arguments SendPanics {A}.
Definition send {A} (cap : Z) (c : chan A) (x : A) : send_result A :=
  if ch_closed c then SendPanics
  else if decide (Z.of_nat (length (ch_buf c)) < cap)%Z
       then Sent (Chan (ch_buf c ++ [x]) false)
       else SendBlocks.

Inductive recv_result (A : Type) := Got (x : A) (c : chan A) | RecvBlocks | RecvClosed.
Arguments Got {A} _ _.
Arguments RecvBlocks {A}.
Arguments RecvClosed {A}.
Definition recv {A} (c : chan A) : recv_result A :=
  match ch_buf c with
  | x :: l => Got x (Chan l (ch_closed c))
  | [] => if ch_closed c then RecvClosed else RecvBlocks
  end.

(** runner.go:56-61 *)
Definition close_done (st : rstate) : rstate :=
  if r_done_nil st then st
  else if ch_closed (r_done st) then panic st
  else set_done_nil (set_done st (Chan (ch_buf (r_done st)) true)).

(** The step results: the new state and the event shown, if any.  [None]: the
    goroutine cannot move. *)
Notation step_result := (option (rstate * option event)).

(** runner.go:63-91 and 126-141, 145 (starting the router), 161. *)
Definition main_step (inp : run_input) (st : rstate) : step_result :=
  match r_main st with
  | MStart [] => Some (set_main (set_router st RRecv) MLoop, None)
  | MStart (q :: l) =>
    match ri_start inp q with
    | None => Some (set_main (set_target st q TRecv) (MStart l), Some (EvStart q))
    | Some e =>
      Some (set_main (set_router st RRecv) (MDefer (Some e)), Some (EvStartFail q e))
    end
  | MLoop =>
    match recv (r_ended st) with
    | Got (t, None) c => Some (set_main (set_ended st c) (MSend t), None)
    | Got (t, Some e) c => Some (set_main (set_ended st c) (MFail e), None)
    | RecvClosed => Some (set_main st (MDrain None), None)
    | RecvBlocks => None
    end
  | MSend t =>
    if r_done_nil st then None (* send on a nil channel blocks forever *)
    else match send (run_capacity inp) (r_done st) t with
         | Sent c => Some (set_main (set_done st c) MLoop, None)
         | SendBlocks => None
         | SendPanics => Some (panic st, None)
         end
  | MFail e => Some (set_main (close_done st) (MDrain (Some e)), None)
  | MDrain r =>
    match recv (r_ended st) with
    | Got _ c => Some (set_ended st c, None)
    | RecvClosed => Some (set_main st (MDefer r), None)
    | RecvBlocks => None
    end
  | MDefer r => Some (set_main (close_done st) (MReturned r), Some (EvReturn r))
  | MReturned _ => None
  end.

(** The choices a scheduler step may make: iteration orders of New, Next and of
    [range ready] (runner.go:103). *)
Record sched_choice := SchedChoice {
  sc_new : new_orders;
  sc_next : next_orders;
  sc_range : map_ranger (list string);
}.

(** runner.go:103-104: the messages in the order in which they are sent. *)
Definition send_order (order : list string) (ready : gmap string (list string))
    : list (string * string) :=
  order ≫= λ q, pair q <$> default [] (ready !! q).

(** runner.go:94-123.  [r.tasks[taskID]] at line 106 is never missing: only
    tasks of the runbook are handed out (C12). *)
Definition sched_step (inp : run_input) (ch : sched_choice) (st : rstate) : step_result :=
  match r_sched st with
  | SInit =>
    match sched_new (sc_new ch) (ri_limits inp) (ri_tasks inp) with
    | None => None
    | Some (inl _) => Some (set_sched st SClose, None)
    | Some (inr (s, ready)) =>
      Some (set_sched st (SSend s (send_order (sc_range ch ready) ready)), None)
    end
  | SSend s [] => Some (set_sched st (SRecv s), None)
  | SSend s (x :: l) =>
    match send (run_capacity inp) (r_ready st) x with
    | Sent c => Some (set_sched (set_ready st c) (SSend s l), None)
    | SendBlocks => None
    | SendPanics => Some (panic st, None)
    end
  | SRecv s =>
    match recv (r_done st) with
    | Got t c =>
      match sched_next (sc_next ch) s t with
      | (s', Ready ready) =>
        Some (set_sched (set_done st c) (SSend s' (send_order (sc_range ch ready) ready)), None)
      | (s', ErrNoPendingTasks) => Some (set_sched (set_done st c) SClose, None)
      end
    | RecvClosed => Some (set_sched st SClose, None)
    | RecvBlocks => None
    end
  | SClose =>
    if ch_closed (r_ready st) then Some (panic st, None)
    else Some (set_sched (set_ready st (Chan (ch_buf (r_ready st)) true)) SDone, None)
  | SDone => None
  end.

(** runner.go:145-159.  [order] is the order of [range channels] at line 153. *)
Definition router_step (inp : run_input) (order : map_ranger target_pc) (st : rstate) : step_result :=
  match r_router st with
  | RNotStarted => None
  | RRecv =>
    match recv (r_ready st) with
    | Got (q, t) c => Some (set_router (set_ready st c) (RSend q t), None)
    | RecvClosed => Some (set_router st (RClose (order (r_targets st))), None)
    | RecvBlocks => None
    end
  | RSend q t =>
    match r_targets st !! q with
    | None => None (* nil channel *)
    | Some pc =>
      if decide (q ∈ r_tclosed st) then Some (panic st, None)
      else match pc with
           | TRecv => Some (set_router (set_target st q (TGot t)) RRecv, None)
           | _ => None (* no receiver *)
           end
    end
  | RClose (q :: l) =>
    if decide (q ∈ r_tclosed st) then Some (panic st, None)
    else Some (set_router (set_tclosed st ({[ q ]} ∪ r_tclosed st)) (RClose l), None)
  | RClose [] => Some (set_router st RWait, None)
  | RWait =>
    (* wg.Wait, then close(r.ended) *)
    if decide (map_Forall (λ _ pc, pc = TDone) (r_targets st)) then
      if ch_closed (r_ended st) then Some (panic st, None)
      else Some (set_router (set_ended st (Chan (ch_buf (r_ended st)) true)) RDone, None)
    else None
  | RDone => None
  end.

(** runner.go:164-186, for target [q]. *)
Definition target_step (inp : run_input) (q : string) (st : rstate) : step_result :=
  match r_targets st !! q with
  | None => None
  | Some TRecv =>
    if decide (q ∈ r_tclosed st) then Some (set_target st q TStop, None) else None
  | Some (TGot t) => Some (set_target st q (THandle t), Some (EvHandle q t))
  | Some (THandle t) =>
    Some (set_target st q (TSend t (ri_handle inp t)), Some (EvHandled q t (ri_handle inp t)))
  | Some (TSend t e) =>
    match send (run_capacity inp) (r_ended st) (t, e) with
    | Sent c =>
      Some (set_target (set_ended st c) q (match e with None => TRecv | Some _ => TStop end), None)
    | SendBlocks => None
    | SendPanics => Some (panic st, None)
    end
  | Some TStop => Some (set_target st q TWg, Some (EvStop q))
  | Some TWg => Some (set_target st q TDone, None)
  | Some TDone => None
  end.

Inductive action :=
| AMain
| ASched (c : sched_choice)
| ARouter (order : map_ranger target_pc)
| ATarget (q : string).

(** One step of the program; nothing moves after a panic. *)
Definition run_step (inp : run_input) (a : action) (st : rstate) : step_result :=
  if r_panic st then None
  else match a with
       | AMain => main_step inp st
       | ASched c => sched_step inp c st
       | ARouter o => router_step inp o st
       | ATarget q => target_step inp q st
       end.

(** runner.go:36-54 and 63-66: the channels are made, the scheduler goroutine
    is running, the loop over the targets ([order]) begins. *)
Definition run_init (order : list string) : rstate :=
  RState (MStart order) SInit RNotStarted ∅ (Chan [] false) false (Chan [] false)
    (Chan [] false) ∅ false.
