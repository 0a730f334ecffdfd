(** Model of the export of a topic to a file (ros/io.py:36-47, 228-241). *)
From Coq Require Import Reals List String ZArith Bool Arith.
From Verif Require Import Base NdArray RosMsg Rosbag.
Import ListNotations.

(** The argument output_file. *)
Inductive outarg := OutNone | OutPath (p : string) | OutStr (s : string).
(** io.py:36-47 [_get_filename]: a str has no attribute parent.  The creation of the folder
    is not modelled; [folder] ends with a slash. *)
Definition get_filename (folder stem : string) (out : outarg) (extension : string) : res string :=
  match out with
  | OutNone => Ok (folder ++ stem ++ "." ++ extension)%string
  | OutPath p => Ok p
  | OutStr _ => Raise AttributeError
  end.
(** io.py:228-241 [export]; the files of the disk by path *)
Definition export_file (opened : option bag) (disk : Rosbag.folder) (folder stem topic : string) (out : outarg) : Rosbag.folder * res unit :=
  match load_messages opened topic with
  | Raise e => (disk, Raise e)
  | Ok m =>
      match get_filename folder stem out "nc" with
      | Raise e => (disk, Raise e)
      | Ok p => (set_file disk p (Complete (encode (dataset_of m))), Ok tt)
      end
  end.
