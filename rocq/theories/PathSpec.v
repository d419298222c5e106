(** What a path text means, without the scanning code: its separators and its components. *)
From Coq Require Import String Ascii ZArith NArith Arith Bool List.
Import ListNotations.
From Verif Require Import Common.
Local Open Scope char_scope.

(** Both separators are accepted on input. *)
Definition is_sep (c : ascii) : bool := Ascii.eqb c "/" || Ascii.eqb c (ch 92).

(** The parts between separators, empty ones included. *)
Fixpoint parts (s : bytes) : list bytes :=
  match s with
  | [] => [[]]
  | c :: r =>
      if is_sep c then [] :: parts r
      else match parts r with p :: ps => (c :: p) :: ps | [] => [[c]] end
  end.
(** The non-empty parts: the steps the path takes. *)
Definition components (s : bytes) : list bytes :=
  filter (fun p => match p with [] => false | _ => true end) (parts s).

(** Whether the text begins / ends with a separator. *)
Definition starts_sep (s : bytes) : bool := match s with c :: _ => is_sep c | [] => false end.
Fixpoint ends_sep (s : bytes) : bool :=
  match s with [] => false | [c] => is_sep c | _ :: r => ends_sep r end.

(** A clean text: slashes only, no two in a row. *)
Definition clean (s : bytes) : Prop :=
  ~ In (ch 92) s /\ forall a b, s <> a ++ "/" :: "/" :: b.

(** A file name: no separator in it. *)
Definition no_slash (s : bytes) : Prop := ~ In "/" s.
Definition no_dot (s : bytes) : Prop := ~ In "." s.
(** What precedes a file name: nothing, or text that ends in a slash. *)
Definition is_dir (d : bytes) : Prop := d = [] \/ exists d', d = d' ++ ["/"].
(** An entry of a folder: a non-empty name without separators and NUL. *)
Definition plain_name (n : bytes) : Prop := n <> [] /\ ~ In "/" n /\ ~ In (ch 92) n /\ ~ In (ch 0) n.

(** Alphabetic order of texts: a prefix comes first, otherwise the first different character decides, as an
    unsigned number. *)
Definition text_le (a b : bytes) : Prop :=
  (exists t, b = a ++ t) \/
  (exists p c d a' b', a = p ++ c :: a' /\ b = p ++ d :: b' /\ (N_of_ascii c < N_of_ascii d)%N).

(** What a scan of the folder [dir] (a text ending in a slash) says about one entry of it, for a file
    system [folder] of folders, the requested types and a name filter: the texts it adds to its result. *)
Inductive found (folder : bytes -> Prop) (folders files : bool) (wanted : bytes -> Prop) (dir name : bytes) :
  list bytes -> Prop :=
| found_folder : folder (dir ++ name) -> (forall x, name <> x ++ ["."]) -> folders = true ->
    found folder folders files wanted dir name [dir ++ name ++ ["/"]]
| found_dots : folder (dir ++ name) -> (exists x, name = x ++ ["."]) ->
    found folder folders files wanted dir name []
| found_no_folder : folder (dir ++ name) -> folders = false ->
    found folder folders files wanted dir name []
| found_file : ~ folder (dir ++ name) -> files = true -> wanted name ->
    found folder folders files wanted dir name [dir ++ name]
| found_no_file : ~ folder (dir ++ name) -> ~ (files = true /\ wanted name) ->
    found folder folders files wanted dir name [].

(** An entry of [dir] that is a folder a scan goes into: "." and ".." and other names ending in a dot are not. *)
Definition enters (folder : bytes -> Prop) (dir name : bytes) : Prop :=
  folder (dir ++ name) /\ forall x, name <> x ++ ["."].
(** What a recursive scan with one level of subfolders says about an entry of [dir]: what [found] says, and
    for a folder also what [found] says about each of its entries, looked up with no folder in front. *)
Definition found2 (folder : bytes -> Prop) (folders files : bool) (wanted : bytes -> Prop)
  (entries : bytes -> list bytes) (dir name : bytes) (l : list bytes) : Prop :=
  exists l0 inner, l = l0 ++ concat inner /\
    found folder folders files wanted dir name l0 /\
    (enters folder dir name -> Forall2 (found folder folders files wanted []) (entries (dir ++ name ++ ["/"])) inner) /\
    (~ enters folder dir name -> inner = []).
