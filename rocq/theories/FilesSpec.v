(** What a path means on a store of files, and what a change of one entry is. *)
From Coq Require Import String Ascii ZArith NArith Arith Bool List.
From Verif Require Import Common PathModel FilesModel.
Import ListNotations.
Local Open Scope nat_scope.

(** The path's text, up to its first NUL, is a name of entry [k]. *)
Definition means (sys : system) (d : disk) (p : path) (k : nat) : Prop :=
  exists t q, getStr (fun s => match d (key sys s) with Some (File _) => Some KFile | Some Folder => Some KFolder
                               | Some Other => Some KOther | None => None end) p = Ok (t, q) /\
  exists n, key sys n = k /\ ~ In (ch 0) n /\ (t = n \/ exists r, t = n ++ ch 0 :: r).
(** Entry [k] is a file that may be written, or nothing that may become one. *)
Definition can_write (sys : system) (d : disk) (k : nat) : Prop :=
  (exists c, d k = Some (File c)) /\ may_write sys k = true \/ d k = None /\ may_make sys k = true.
(** Entry [k] has become [e]; every other entry is as before. *)
Definition becomes (d : disk) (k : nat) (e : option entry) (d' : disk) : Prop :=
  d' k = e /\ forall j, j <> k -> d' j = d j.
Definition is_file (d : disk) (k : nat) : Prop := exists c, d k = Some (File c).
