(** Model of ros/utils.py: init_node and the playing speed of play_publisher (the buttons
    are in Broadcast.v). *)
From Coq Require Import Reals ZArith List String Bool.
From Verif Require Import Base RosMsg Velocity Estim.
Import ListNotations.
Open Scope R_scope.

(* ------------------------------------------------------------------ init_node *)
(** A running ROS master: started by somebody else, or the k-th started by init_node. *)
Inductive master := External | Launched (k : nat).
(** The master at the master's address (if any), the number of masters started by init_node,
    the masters with an atexit hook, the name of the process's node (if any), the number of
    warnings of the stub. *)
Record rosworld := World { running : option master; launches : nat; hooks : list nat; node : option string; warned : nat }.
(** What init_node returns: the ROSLaunchParent of a master, or the ROSMasterStub. *)
Inductive handle := Parent (k : nat) | Stub.
(** How the call ends: "ROS master is not running" is a RuntimeError; rospy.init_node raises
    a ROSException if the process already has a node of another name. *)
Inductive outcome := Returned (h : handle) | NotRunning | OtherNode.

(** rospy.init_node(name).  Simplification: name validation is left out. *)
Definition rospy_init (w : rosworld) (name : string) : rosworld * bool :=
  match node w with
  | None => (World (running w) (launches w) (hooks w) (Some name) (warned w), true)
  | Some n => (w, String.eqb n name)
  end.
(** ros/utils.py:9-56 *)
Definition init_node (w : rosworld) (name : string) (start_master : bool) : rosworld * outcome :=
  match running w with
  | None =>
      if start_master then
        let k := launches w in
        let w1 := World (Some (Launched k)) (S k) (k :: hooks w) (node w) (warned w) in
        let '(w2, ok) := rospy_init w1 name in (w2, if ok then Returned (Parent k) else OtherNode)
      else (w, NotRunning)
  | Some _ => let '(w2, ok) := rospy_init w name in (w2, if ok then Returned Stub else OtherNode)
  end.
(** ROSLaunchParent.shutdown(), ROSMasterStub.shutdown() (ros/utils.py:31-37). *)
Definition stop_launched (w : rosworld) (k : nat) : rosworld :=
  match running w with
  | Some (Launched j) => if Nat.eqb j k then World None (launches w) (hooks w) (node w) (warned w) else w
  | _ => w
  end.
Definition shutdown (w : rosworld) (h : handle) : rosworld :=
  match h with
  | Parent k => stop_launched w k
  | Stub => World (running w) (launches w) (hooks w) (node w) (S (warned w))
  end.
(** The end of the process: the atexit hooks (ros/utils.py:48). *)
Definition exit_process (w : rosworld) : rosworld := fold_left stop_launched (hooks w) w.

(** What can happen: calls, and somebody else starting a master (if none runs) or killing
    the one that runs. *)
Inductive event := Init (name : string) (start_master : bool) | Shutdown (h : handle) | OtherStarts | OtherStops.
Definition step (w : rosworld) (e : event) : rosworld :=
  match e with
  | Init name st => fst (init_node w name st)
  | Shutdown h => shutdown w h
  | OtherStarts => match running w with None => World (Some External) (launches w) (hooks w) (node w) (warned w) | _ => w end
  | OtherStops => World None (launches w) (hooks w) (node w) (warned w)
  end.
Definition no_ros : rosworld := World None 0 [] None 0.
Definition history (l : list event) : rosworld := fold_left step l no_ros.

(* ------------------------------------------------------------------ playing speed *)
(** ros/utils.py:89-92, 117-118: the interval of the Play widget in milliseconds,
    int(mean(diff(timestamps / 1e6)) / speed * step), timestamps in nanoseconds.
    Simplification: exact arithmetic; a NaN (fewer than two timestamps) makes int() raise
    ValueError, a speed of 0 makes it raise OverflowError (ZeroDivisionError here). *)
Definition play_interval (ts : list R) (speed : R) (step : Z) : res Z :=
  match mean (diffs (map (fun t => t / 1000000) ts)) with
  | Raise _ => Raise ValueError
  | Ok m => if Req_b speed 0 then Raise ZeroDivisionError else Ok (trunc (m / speed * IZR step))
  end.
