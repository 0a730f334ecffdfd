(** Model of the frame registry and of the reference frame forest:
    reference_frames.py:15-265, 312-317, 1323-1336, core.py:336-353 and the parts
    of anytree they use (NodeMixin.parent, Walker.walk). *)
From Coq Require Import Reals List String Arith Bool.
From Verif Require Import Base Quat NdArray.
Import ListNotations.
Open Scope R_scope.

(** The arrays a constructed frame holds: [translation], [rotation],
    [timestamps], [discrete] (reference_frames.py:186-201).  Static arrays have
    shape (3,) and (4,); moving ones (N,3), (N,4) with N timestamps. *)
Inductive tfdata :=
| TStatic (t : vec3) (r : quat)
| TMoving (ts : list R) (t : list vec3) (r : list quat) (disc : bool).

(** State of a frame object's attributes.
    [BRoot]: constructed without parent, all three arrays are None.
    [BTf]: constructed with parent.
    [BPartial]: __init__ raised before the arrays were assigned (the object has
      no attribute [timestamps]).
    [BNoDiscrete]: __init__ raised at line 199: arrays set, [discrete] missing.
    [BNaN]: constructed, but [inverse=True] of a zero quaternion left NaNs in
      the arrays (simplification: the arrays themselves are dropped). *)
Inductive body :=
| BRoot | BTf (d : tfdata) | BPartial | BNoDiscrete (t : vec3) (r : quat)
| BNaN.

(** A frame object: [name] and anytree's parent/children links (object
    identity = index in the heap). *)
Record node := Node {
  nname : option string; nparent : option nat; nchildren : list nat; nbody : body }.

(** [_registry] (line 15) is an insertion-ordered dict. *)
Record state := State { heap : list node; reg : list (string * nat) }.

Definition init : state := State [] [].

Definition get (s : state) (i : nat) : option node := nth_error (heap s) i.
Definition parent_of (s : state) (i : nat) : option nat :=
  match get s i with Some n => nparent n | None => None end.
Definition children_of (s : state) (i : nat) : list nat :=
  match get s i with Some n => nchildren n | None => [] end.
Definition name_of (s : state) (i : nat) : option string :=
  match get s i with Some n => nname n | None => None end.

Fixpoint upd {A} (l : list A) (i : nat) (f : A -> A) : list A :=
  match l, i with
  | [], _ => []
  | a :: l, O => f a :: l
  | a :: l, S i => a :: upd l i f
  end.
Definition upd_node (s : state) (i : nat) (f : node -> node) : state :=
  State (upd (heap s) i f) (reg s).

(** dict lookup, assignment (keeps the position of an existing key), pop. *)
Fixpoint lookup {A} (k : string) (m : list (string * A)) : option A :=
  match m with
  | [] => None
  | (k', v) :: m => if String.eqb k k' then Some v else lookup k m
  end.
Fixpoint dict_set {A} (k : string) (v : A) (m : list (string * A)) : list (string * A) :=
  match m with
  | [] => [(k, v)]
  | (k', v') :: m => if String.eqb k k' then (k', v) :: m else (k', v') :: dict_set k v m
  end.
Definition dict_pop {A} (k : string) (m : list (string * A)) : list (string * A) :=
  filter (fun kv => negb (String.eqb k (fst kv))) m.

(** An argument that should denote a frame: a frame object, a name, or
    anything else. *)
Inductive pref := PFrame (i : nat) | PName (n : string) | POther.

(** core.py:336-353 [_resolve_rf].  A [PFrame] outside the heap is not a frame. *)
Definition resolve_rf (s : state) (p : pref) : res nat :=
  match p with
  | PFrame i => match get s i with Some _ => Ok i | None => Raise TypeError end
  | PName n => match lookup n (reg s) with Some i => Ok i | None => Raise ValueError end
  | POther => Raise TypeError
  end.

(** anytree [NodeMixin.iter_path_reverse]: the node, its parent, ..., the root.
    Fuelled: None when the fuel runs out (excluded on reachable states). *)
Fixpoint path_up (fuel : nat) (s : state) (i : nat) : option (list nat) :=
  match fuel with
  | O => None
  | S fuel =>
      match parent_of s i with
      | None => Some [i]
      | Some p => option_map (cons i) (path_up fuel s p)
      end
  end.
Definition rpath (s : state) (i : nat) : option (list nat) :=
  path_up (S (List.length (heap s))) s i.

Definition set_nparent (p : option nat) (n : node) : node :=
  Node (nname n) p (nchildren n) (nbody n).
Definition set_nchildren (f : list nat -> list nat) (n : node) : node :=
  Node (nname n) (nparent n) (f (nchildren n)) (nbody n).
Definition set_nbody (b : body) (n : node) : node :=
  Node (nname n) (nparent n) (nchildren n) b.

Definition opt_eqb (a b : option nat) : bool :=
  match a, b with
  | None, None => true
  | Some x, Some y => Nat.eqb x y
  | _, _ => false
  end.

(** anytree [NodeMixin.__detach]. *)
Definition detach (s : state) (i : nat) : state :=
  match parent_of s i with
  | None => s
  | Some p =>
      upd_node (upd_node s p (set_nchildren (filter (fun c => negb (Nat.eqb c i)))))
               i (set_nparent None)
  end.
(** anytree [NodeMixin.__attach]. *)
Definition attach (s : state) (i p : nat) : state :=
  upd_node (upd_node s p (set_nchildren (fun l => l ++ [i]))) i (set_nparent (Some p)).

(** anytree [NodeMixin.parent] setter: nothing if unchanged; loop check; detach;
    attach.  Setting None never raises. *)
Definition set_parent (s : state) (i : nat) (v : option nat) : state * res unit :=
  if opt_eqb (parent_of s i) v then (s, Ok tt)
  else match v with
       | None => (detach s i, Ok tt)
       | Some p =>
           match rpath s p with
           | None => (s, Raise OutOfFuel)
           | Some l =>
               if existsb (Nat.eqb i) l then (s, Raise LoopError)
               else (attach (detach s i) i p, Ok tt)
           end
       end.

(** reference_frames.py:18-32 [_register]. *)
Definition register (s : state) (i : nat) (update : bool) : state * res unit :=
  match name_of s i with
  | None => (s, Raise ValueError)
  | Some n =>
      match lookup n (reg s) with
      | Some old =>
          if update then
            let s1 := fst (set_parent s old None) in
            (State (heap s1) (dict_set n i (reg s1)), Ok tt)
          else (s, Raise ValueError)
      | None => (State (heap s) (dict_set n i (reg s)), Ok tt)
      end
  end.

(** reference_frames.py:35-42 [_deregister], 118-126 [deregister_frame]. *)
Definition deregister (s : state) (n : string) : state * res unit :=
  match lookup n (reg s) with
  | None => (s, Raise ValueError)
  | Some _ => (State (heap s) (dict_pop n (reg s)), Ok tt)
  end.

(** reference_frames.py:1334-1336 [ReferenceFrame.deregister]; a nameless frame
    fails in the error message of line 39 ("..." + None), a TypeError. *)
Definition deregister_obj (s : state) (i : nat) : state * res unit :=
  match name_of s i with
  | None => (s, Raise TypeError)
  | Some n => deregister s n
  end.

(** reference_frames.py:129-131 [clear_registry]. *)
Definition clear (s : state) : state := State (heap s) [].

(** Rows of arrays of shape (3,), (4,), (N,3), (N,4). *)
Definition vec_at (a : nd R) (pre : list nat) : vec3 :=
  V3 (dat a (pre ++ [0%nat])) (dat a (pre ++ [1%nat])) (dat a (pre ++ [2%nat])).
Definition quat_at (a : nd R) (pre : list nat) : quat :=
  Qt (dat a (pre ++ [0%nat])) (dat a (pre ++ [1%nat]))
     (dat a (pre ++ [2%nat])) (dat a (pre ++ [3%nat])).

Definition shape_eqb (a b : list nat) : bool :=
  if list_eq_dec Nat.eq_dec a b then true else false.

(** reference_frames.py:229-237 and 239-248: check the shape of the argument or
    use the default (zeros, identity rotations). *)
Definition arg_vecs (a : option (nd R)) (n : option nat) : res (list vec3) :=
  match a with
  | Some a =>
      match n with
      | None => if shape_eqb (shp a) [3%nat] then Ok [vec_at a []] else Raise ValueError
      | Some n => if shape_eqb (shp a) [n; 3%nat]
                  then Ok (map (fun i => vec_at a [i]) (seq 0 n)) else Raise ValueError
      end
  | None => Ok (repeat v0 (match n with None => 1%nat | Some n => n end))
  end.
Definition arg_quats (a : option (nd R)) (n : option nat) : res (list quat) :=
  match a with
  | Some a =>
      match n with
      | None => if shape_eqb (shp a) [4%nat] then Ok [quat_at a []] else Raise ValueError
      | Some n => if shape_eqb (shp a) [n; 4%nat]
                  then Ok (map (fun i => quat_at a [i]) (seq 0 n)) else Raise ValueError
      end
  | None => Ok (repeat q1 (match n with None => 1%nat | Some n => n end))
  end.

(** reference_frames.py:219-227: the timestamps argument. *)
Definition arg_ts (a : option (nd R)) : res (option (list R)) :=
  match a with
  | None => Ok None
  | Some a =>
      match shp a with
      | [n] => Ok (Some (map (fun i => dat a [i]) (seq 0 n)))
      | _ => Raise ValueError
      end
  end.

(** reference_frames.py:250-252: [inverse=True]; the 0-d rotation takes the
    numpy-quaternion branch of rotate_vectors, the (N,) one the array formula. *)
Definition inv_static (t : vec3) (r : quat) : res (vec3 * quat) :=
  r' <- qrecip r ;; t' <- quat_rv r' t ;; Ok (vopp t', r').
Definition inv_row (tr : vec3 * quat) : res (vec3 * quat) :=
  r' <- qrecip (snd tr) ;; t' <- rot1 r' (fst tr) ;; Ok (vopp t', r').

(** reference_frames.py:216-254 [_init_arrays]; the [discrete] flag is recorded
    by the caller. *)
Definition init_arrays (tr ro ts : option (nd R)) (inverse : bool) : res tfdata :=
  o <- arg_ts ts ;;
  let n := option_map (@List.length R) o in
  t <- arg_vecs tr n ;;
  r <- arg_quats ro n ;;
  match o with
  | None =>
      match t, r with
      | t0 :: _, r0 :: _ =>
          if inverse then '(t1, r1) <- inv_static t0 r0 ;; Ok (TStatic t1 r1)
          else Ok (TStatic t0 r0)
      | _, _ => Raise ValueError (* unreachable: static rows have length one *)
      end
  | Some l =>
      if inverse then
        rows <- traverse inv_row (combine t r) ;;
        Ok (TMoving l (map fst rows) (map snd rows) false)
      else Ok (TMoving l t r false)
  end.

Definition set_disc (d : bool) (t : tfdata) : tfdata :=
  match t with TStatic t r => TStatic t r | TMoving ts t r _ => TMoving ts t r d end.

Record ctor := Ctor {
  c_name : option string; c_parent : option pref;
  c_tr : option (nd R); c_ro : option (nd R); c_ts : option (nd R);
  c_inverse : bool; c_discrete : bool }.

(** reference_frames.py:256-265 [_verify_root]. *)
Definition verify_root (c : ctor) : res unit :=
  match c_tr c with
  | Some _ => Raise ValueError
  | None => match c_ro c with
            | Some _ => Raise ValueError
            | None => match c_ts c with Some _ => Raise ValueError | None => Ok tt end
            end
  end.

(** reference_frames.py:198-201: the [discrete] check on complete arrays. *)
Definition finish (c : ctor) (d : tfdata) : body * res unit :=
  match d with
  | TStatic t r =>
      if c_discrete c then (BNoDiscrete t r, Raise ValueError) else (BTf d, Ok tt)
  | TMoving _ _ _ _ => (BTf (set_disc (c_discrete c) d), Ok tt)
  end.

(** reference_frames.py:198-199: [discrete] without timestamps. *)
Definition discrete_static (c : ctor) : bool :=
  c_discrete c && match c_ts c with None => true | Some _ => false end.

(** reference_frames.py:137-201 [ReferenceFrame.__init__].  Returns the new
    frame's id, or the exception; effects made before the exception persist.
    The new object is allocated in every case (an orphan if unattached). *)
Definition new_frame (s : state) (c : ctor) : state * res nat :=
  let i := List.length (heap s) in
  let alloc b := State (heap s ++ [Node (c_name c) None [] b]) (reg s) in
  match c_parent c with
  | None =>
      match verify_root c with
      | Raise e => (alloc BPartial, Raise e)
      | Ok _ =>
          if c_discrete c then (alloc BPartial, Raise ValueError)
          else (alloc BRoot, Ok i)
      end
  | Some p =>
      match resolve_rf s p with
      | Raise e => (alloc BPartial, Raise e)
      | Ok pi =>
          match init_arrays (c_tr c) (c_ro c) (c_ts c) (c_inverse c) with
          | Raise NaNValue =>
              if discrete_static c then (attach (alloc BPartial) i pi, Raise ValueError)
              else (attach (alloc BNaN) i pi, Ok i)
          | Raise e => (attach (alloc BPartial) i pi, Raise e)
          | Ok d => let '(b, r) := finish c d in
                    (attach (alloc b) i pi,
                     match r with Ok _ => Ok i | Raise e => Raise e end)
          end
      end
  end.

(** reference_frames.py:57-115 [register_frame]. *)
Definition register_frame (s : state) (c : ctor) (update : bool) : state * res nat :=
  match new_frame s c with
  | (s1, Raise e) => (s1, Raise e)
  | (s1, Ok i) =>
      match register s1 i update with
      | (s2, Ok _) => (s2, Ok i)
      | (s2, Raise e) => (s2, Raise e)
      end
  end.

(** The API operations that change the forest or the registry. *)
Inductive op :=
| ONew (c : ctor)
| ORegisterFrame (c : ctor) (update : bool)
| ORegister (i : nat) (update : bool)
| ODeregister (n : string)
| ODeregisterObj (i : nat)
| OClear
| OSetParent (i : nat) (p : option nat).

(** One API call; calls on ids that are not frames change nothing. *)
Definition step (s : state) (o : op) : state * res unit :=
  let void {A} (r : res A) : res unit := match r with Ok _ => Ok tt | Raise e => Raise e end in
  match o with
  | ONew c => let '(s, r) := new_frame s c in (s, void r)
  | ORegisterFrame c u => let '(s, r) := register_frame s c u in (s, void r)
  | ORegister i u => match get s i with Some _ => register s i u | None => (s, Raise AttributeError) end
  | ODeregister n => deregister s n
  | ODeregisterObj i => match get s i with Some _ => deregister_obj s i | None => (s, Raise AttributeError) end
  | OClear => (clear s, Ok tt)
  | OSetParent i p =>
      match get s i with
      | None => (s, Raise AttributeError)
      | Some _ => match p with
                  | Some k => match get s k with
                              | Some _ => set_parent s i p
                              | None => (s, Raise TypeError)
                              end
                  | None => set_parent s i None
                  end
      end
  end.

Definition run (ops : list op) : state :=
  fold_left (fun s o => fst (step s o)) ops init.
Definition reachable (s : state) : Prop := exists ops, s = run ops.

(** anytree [Walker.walk] (called at reference_frames.py:312-317). *)
Fixpoint common_prefix (a b : list nat) : list nat :=
  match a, b with
  | x :: a, y :: b => if Nat.eqb x y then x :: common_prefix a b else []
  | _, _ => []
  end.
Definition walk (s : state) (i j : nat) : res (list nat * list nat) :=
  match rpath s i, rpath s j with
  | Some pi, Some pj =>
      let pi := rev pi in
      let pj := rev pj in
      if opt_eqb (hd_error pi) (hd_error pj) then
        let n := List.length (common_prefix pi pj) in
        Ok (rev (skipn n pi), skipn n pj)
      else Raise WalkError
  | _, _ => Raise OutOfFuel
  end.
