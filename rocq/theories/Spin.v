(** Model of the spinning threads of a broadcaster (ros/transformer.py:501-560) or marker
    publisher (ros/visualization.py:128-164): the steps of spin(), stop() and of the loop,
    interleaved in any way.  What is published is in Broadcast.v. *)
From Coq Require Import List Bool Arith.
Import ListNotations.

(** Where a thread is.  Reading or writing an attribute is one step. *)
Inductive pc :=
| PInit    (* before self.stopped = False: transformer.py:506, visualization.py:132 *)
| PShut    (* before rospy.is_shutdown(): 509 / 134 *)
| PStopped (* before reading self.stopped: 509 / 134 *)
| PPublish (* before publish() and, for a broadcaster, the next index: 510-526 / 135 *)
| PSleep   (* in rospy.sleep(dt): 528 / 136 *)
| PSpin    (* in rospy.spin(): 530 *)
| PEnd     (* before self.stopped = True: 532 / 138 *)
| PDone    (* returned *)
| PDead.   (* ended by an exception *)

(** self.stopped, rospy.is_shutdown(), the threads started so far. *)
Record gstate := GS { stopped : bool; shutdown : bool; threads : list pc }.
Definition ginit : gstate := GS false false [].

(** One step of one thread; [sub]: rospy.spin instead of the loop (a subscription; static
    frames never get here, transformer.py:550-551).  publish() may raise; rospy.sleep
    raises when the node is shut down, rospy.spin returns then. *)
Inductive tstep (sub : bool) : bool -> bool -> pc -> bool -> pc -> Prop :=
| t_init st sh : tstep sub st sh PInit false (if sub then PSpin else PShut)
| t_shut st sh : tstep sub st sh PShut st (if sh then PEnd else PStopped)
| t_stopped st sh : tstep sub st sh PStopped st (if st then PEnd else PPublish)
| t_publish st sh : tstep sub st sh PPublish st PSleep
| t_raise st sh : tstep sub st sh PPublish st PDead
| t_sleep st sh : tstep sub st sh PSleep st (if sh then PDead else PShut)
| t_spin st : tstep sub st true PSpin st PEnd
| t_end st sh : tstep sub st sh PEnd true PDone.

Fixpoint upd_pc (l : list pc) (i : nat) (p : pc) : list pc :=
  match l, i with
  | [], _ => []
  | _ :: l, O => p :: l
  | q :: l, S i => q :: upd_pc l i p
  end.

(** The caller: spin(block=False) starts a thread (transformer.py:555-556,
    visualization.py:159-160); spin(block=True) runs the same code in the calling thread,
    which is then one of the threads here.  stop(): line 560 / 164. *)
Inductive event := ESpin | EStop | EShutdown | EThread (i : nat).
Inductive gstep (sub : bool) : gstate -> event -> gstate -> Prop :=
| g_spin st sh ts : gstep sub (GS st sh ts) ESpin (GS st sh (ts ++ [PInit]))
| g_stop st sh ts : gstep sub (GS st sh ts) EStop (GS true sh ts)
| g_shutdown st sh ts : gstep sub (GS st sh ts) EShutdown (GS st true ts)
| g_thread st sh ts i p st' p' : nth_error ts i = Some p -> tstep sub st sh p st' p' ->
    gstep sub (GS st sh ts) (EThread i) (GS st' sh (upd_pc ts i p')).

(** Finite and infinite executions. *)
Inductive exec (sub : bool) : gstate -> list event -> gstate -> Prop :=
| exec_nil g : exec sub g [] g
| exec_cons g e g' l g'' : gstep sub g e g' -> exec sub g' l g'' -> exec sub g (e :: l) g''.
