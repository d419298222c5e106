(** Files: Core/FileSystem/Utils.hpp (createFolder, removeFile), Path.hpp:286-309 (getContentsAsStr), Json/Val/Val.hpp:369-375,
    387-406 (writeToFile, readFromFile, fromFile), Core/Log/Log.inl:17-24 (saveLogToFile), Encoding/Src/MD5.cpp:50-63
    (digest of a file).
    The system is a store of entries.  Which entry a name means ([key]: current folder, links, "..") and what may be read,
    written, made or removed are functions the theorems quantify over.  Simplified: nothing else changes the store during a
    call; writing to an open file never fails half-way; entries other than files and folders cannot be written. *)
From Coq Require Import String Ascii ZArith NArith Arith Bool List.
From Verif Require Import Common StrModel PathModel JsonNumModel JsonModel MD5Model.
Import ListNotations.
Local Open Scope nat_scope.
Local Notation "'let!' x := e 'in' f" :=
  (obind e (fun x => f)) (at level 200, x pattern, e at level 100, f at level 200, right associativity).

Inductive entry := File (c : bytes) | Folder | Other.
Definition disk := nat -> option entry.
Definition upd (d : disk) (k : nat) (e : option entry) : disk := fun j => if Nat.eqb j k then e else d j.

(** The system around the store. *)
Record system := { key : bytes -> nat; may_read : nat -> bool; may_write : nat -> bool; may_make : nat -> bool; may_remove : disk -> nat -> bool }.

Section FILES.
Context (sys : system).

Definition kind_of (e : entry) : kind := match e with File _ => KFile | Folder => KFolder | Other => KOther end.
(** What [stat] answers. *)
Definition stat_of (d : disk) : fsys := fun s => option_map kind_of (d (key sys s)).
(** The name handed to the system: the path's text (normalised on the first look) up to the first NUL. *)
Definition target (d : disk) (p : path) : outcome (nat * path) :=
  let! (s, q) := getStr (stat_of d) p in Ok (key sys (cstr s), q).

(** [std::ofstream o{path}; o << t; o.close()] (Val.hpp:370-375, Log.inl:19-23): the file is made or emptied, then
    written; if it cannot be opened the output goes nowhere, and nobody asks. *)
Definition write_text (d : disk) (p : path) (t : bytes) : outcome (disk * path) :=
  let! (k, q) := target d p in
  Ok (match d k with
      | Some (File _) => if may_write sys k then upd d k (Some (File t)) else d
      | None => if may_make sys k then upd d k (Some (File t)) else d
      | _ => d
      end, q).
(** Val.hpp:369-375. *)
Definition writeToFile (pretty : bool) (d : disk) (p : path) (v : jval) : outcome (disk * path) :=
  let! t := getWriteToStr pretty v in write_text d p t.
(** Log.inl:17-24; [log] is the text collected so far. *)
Definition saveLogToFile (d : disk) (p : path) (log : bytes) : outcome (disk * path) := write_text d p log.

(** Path.hpp:286-301: [mBuffer] becomes as long as the file and is overwritten from its beginning. A violated
    assertion counts as undefined. *)
Definition resize (b : bytes) (n : nat) : bytes := firstn n b ++ repeat (ch 0) (n - length b).
Definition getContents (d : disk) (p : path) (buffer : bytes) : outcome (bytes * path) :=
  let! (k, q) := target d p in
  match d k with
  | Some (File c) => if may_read sys k then Ok (c ++ skipn (length c) (resize buffer (length c)), q) else UB
  | _ => UB
  end.
(** Val.hpp:387-391, 401-406. *)
Definition readFromFile (d : disk) (p : path) (old : jval) : outcome (bool * jval * path) :=
  let! (t, q) := getContents d p [] in let! (r, v) := readFromStr old t in Ok (r, v, q).
Definition fromFile (d : disk) (p : path) : outcome (jval * path) :=
  let! (_, v, q) := readFromFile d p JNll in Ok (v, q).

(** Utils.hpp:24-31: [mkdir]; its result is not looked at. *)
Definition createFolder (d : disk) (p : path) : outcome (disk * path) :=
  let! (k, q) := target d p in
  Ok (match d k with None => if may_make sys k then upd d k (Some Folder) else d | Some _ => d end, q).
(** Utils.hpp:35-38: [std::remove] returns 0 when it succeeds; that number is converted to [bool]. *)
Definition removeFile (d : disk) (p : path) : outcome (disk * bool * path) :=
  let! (k, q) := target d p in
  Ok (match d k with
      | Some _ => if may_remove sys d k then (upd d k None, false) else (d, true)
      | None => (d, true)
      end, q).
End FILES.

(** MD5.cpp:50-63. [good]: the stream has not failed; [c]: the file's contents; [hash]: the text kept in the object.
    Returns the result and the text kept.  The length is converted to [int]; an array of negative size throws. *)
Definition CalculateFile (garbage : list N) (hash : bytes) (good : bool) (c : bytes) : outcome (bytes * bytes) :=
  if negb good then Ok ([], hash)
  else
    let len := to_i32 (Z.of_nat (length c)) in
    if (len <? 0)%Z then Throw "std::bad_array_new_length"%string
    else let! h := Calculate garbage (firstn (Z.to_nat len) c) in Ok (h, h).
