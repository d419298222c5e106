(** Model of file system paths and of folder scans.
    Source: include/SSVUtils/Core/FileSystem/Path.hpp, Internal/ScanHelper.hpp, Scan.hpp, Utils.hpp.
    The file system is not modelled: what [stat] and [readdir] answer is given by functions the theorems
    quantify over ([stat] and [ls] below), assumed not to change during one call. *)
From Coq Require Import String Ascii ZArith NArith Arith Bool Lia List.
Import ListNotations.
From Verif Require Import Common StrModel.
Local Open Scope char_scope.
Local Open Scope nat_scope.

Local Notation "'let!' x := e 'in' f" :=
  (obind e (fun x => f)) (at level 200, x pattern, e at level 100, f at level 200, right associativity).

(** What [stat] reports of a path (Path.hpp:27-55): no such entry is [None]. *)
Inductive kind := KFile | KFolder | KOther.
Definition fsys := bytes -> option kind.

Definition slash : ascii := "/".
Definition backslash : ascii := ch 92.

(** [c_str()]: the system calls see the text up to the first NUL. *)
Fixpoint cstr (s : bytes) : bytes :=
  match s with [] => [] | c :: r => if Ascii.eqb c (ch 0) then [] else c :: cstr r end.
(** Path.hpp:190-196 for the three values of [Type], given the normalised text. *)
Definition existsAny (stat : fsys) (s : bytes) : bool :=
  match stat (cstr s) with Some _ => true | None => false end.
Definition existsFile (stat : fsys) (s : bytes) : bool :=
  match stat (cstr s) with Some KFile => true | _ => false end.
Definition existsFolder (stat : fsys) (s : bytes) : bool :=
  match stat (cstr s) with Some KFolder => true | _ => false end.

(** Path.hpp:82: [while(j < path.size() && path[j] == '/') ++j]. *)
Fixpoint skip_slashes (s : bytes) (fuel j : nat) : outcome nat :=
  match fuel with
  | O => OutOfFuel
  | S fuel' =>
      match nth_error s j with
      | Some c => if Ascii.eqb c slash then skip_slashes s fuel' (S j) else Ok j
      | None => Ok j
      end
  end.
(** [path.erase(pos, n)]. *)
Definition erase (s : bytes) (pos n : nat) : bytes := firstn pos s ++ skipn (pos + n) s.
(** Path.hpp:77-85. [i] is a 32-bit counter in the source; texts of 2^32 characters and more are not
    covered. The fuel is one more than the length, which never grows. *)
Fixpoint squeeze (s : bytes) (fuel i : nat) : outcome bytes :=
  match fuel with
  | O => OutOfFuel
  | S fuel' =>
      match nth_error s i with
      | None => Ok s
      | Some c =>
          if Ascii.eqb c slash then
            let! j := skip_slashes s (S (length s)) i in
            squeeze (erase s i (j - i - 1)) fuel' (S i)
          else squeeze s fuel' (S i)
      end
  end.

(** Path.hpp:67-88 with [mustNormalize] set: the text afterwards. *)
Definition normalText (stat : fsys) (s : bytes) : outcome bytes :=
  let s1 := map (fun c => if Ascii.eqb c backslash then slash else c) s in
  let! s2 := squeeze s1 (S (length s1)) 0 in
  let! e := endsWith s2 [slash] in
  Ok (if negb e && existsFolder stat s2 then s2 ++ [slash] else s2).

(** Path.hpp:58-62: the two fields of a [Path]. Both are [mutable]. *)
Record path := Path { text : bytes; mustNormalize : bool }.
(** Path.hpp:92-106: every constructor, the copying ones included, takes the raw text and leaves
    [mustNormalize] at its default. *)
Definition mkPath (s : bytes) : path := Path s true.
(** Path.hpp:67-70. *)
Definition normalize (stat : fsys) (p : path) : outcome path :=
  if mustNormalize p then let! t := normalText stat (text p) in Ok (Path t false) else Ok p.
(** Path.hpp:152-166: the returned text, and the object afterwards. *)
Definition getStr (stat : fsys) (p : path) : outcome (bytes * path) :=
  let! q := normalize stat p in Ok (text q, q).
(** Path.hpp:108-112, 114-133, 135-149. *)
Definition clear (p : path) : path := Path [] true.
Definition assign (p : path) (s : bytes) : path := Path s true.
Definition append (p : path) (s : bytes) : path := Path (text p ++ s) true.
Definition appendPath (p q : path) : path := Path (text p ++ text q) true.
(** Path.hpp:335-341. *)
Definition plus (p q : path) : path := appendPath (mkPath (text p)) q.
(** Path.hpp:312-315. *)
Definition isNull (p : path) : bool := match text p with [] => true | _ => false end.

(** [str.find_last_of(c)] and [str.find_first_of(c, from)]. *)
Fixpoint findLast (c : ascii) (s : bytes) : option nat :=
  match s with
  | [] => None
  | d :: r =>
      match findLast c r with
      | Some k => Some (S k)
      | None => if Ascii.eqb d c then Some 0 else None
      end
  end.
Fixpoint findFirst (c : ascii) (s : bytes) (from : nat) : option nat :=
  match s with
  | [] => None
  | d :: r =>
      match from with
      | S f => option_map S (findFirst c r f)
      | O => if Ascii.eqb d c then Some 0 else option_map S (findFirst c r 0)
      end
  end.

(** The getters below take the text [getStr()] returned. *)

(** Path.hpp:200-209. *)
Definition hasExtension (t ext : bytes) : outcome bool := endsWith (toLower t) (toLower ext).
Definition isRootOrParent (t : bytes) : outcome bool :=
  let! a := endsWith t (lit "./") in
  if a then Ok true else endsWith t (lit "../").

(** Path.hpp:215-221. The index is unsigned: [size() - 1] of an empty text wraps and the access is out of
    bounds. *)
Fixpoint parentLoop (t : bytes) (i : nat) : outcome bytes :=
  match i with
  | O => Ok []
  | S i' =>
      match nth_error t i with
      | None => UB
      | Some c => if Ascii.eqb c slash then substr t 0 (i + 1) else parentLoop t i'
      end
  end.
Definition getParent (t : bytes) : outcome bytes :=
  match length t with O => UB | S n => parentLoop t n end.

(** Path.hpp:228: [npos + 1] is 0. *)
Definition nameBegin (t : bytes) : nat := match findLast slash t with Some k => k + 1 | None => 0 end.
(** Path.hpp:225-230. *)
Definition getFileName (t : bytes) : outcome bytes := substr t (nameBegin t) (length t - nameBegin t).
(** Path.hpp:235-247: without a dot, or with the last dot before the name, [extBegin - nameBegin] wraps to
    a number larger than any text, and the rest of the text is taken. *)
Definition getFileNameNoExtensions (t : bytes) : outcome bytes :=
  let b := nameBegin t in
  match findLast "." t with
  | None => substr t b (length t)
  | Some e =>
      if Nat.eqb e b then substr t b (length t)
      else if Nat.ltb e b then substr t b (length t)
      else substr t b (e - b)
  end.
(** Path.hpp:258. *)
Fixpoint folderLoop (t : bytes) (i : nat) : outcome nat :=
  match i with
  | O => Ok 0
  | S i' =>
      match nth_error t i with
      | None => UB
      | Some c => if Ascii.eqb c slash then Ok i else folderLoop t i'
      end
  end.
(** Path.hpp:252-260: [size() - 2] wraps for a text of one character, and the first access is out of
    bounds. *)
Definition getFolderName (t : bytes) : outcome bytes :=
  let! e := endsWithChar t slash in
  if e then
    match length t with
    | S (S n) => let! i := folderLoop t n in substr t (i + 1) (length t - i - 2)
    | _ => UB
    end
  else Ok [].
(** Path.hpp:264-272. *)
Definition getExtension (t : bytes) : outcome bytes :=
  let! n := getFileName t in
  let n' := if beginsWithChar n "." then skipn 1 n else n in
  match findLast "." n' with None => Ok [] | Some e => substr n' e (length n' - e) end.
(** Path.hpp:277-284. *)
Definition getAllExtensions (t : bytes) : outcome bytes :=
  let! n := getFileName t in
  match findFirst "." n (if beginsWithChar n "." then 1 else 0) with
  | None => Ok []
  | Some e => substr n e (length n - e)
  end.

(** Path.hpp:344-353: both comparisons are templates that call themselves with the same arguments. *)
Fixpoint pathEq (fuel : nat) (p q : path) : outcome bool :=
  match fuel with O => OutOfFuel | S fuel' => pathEq fuel' p q end.

(** Order of [std::string]: [char_traits<char>] compares characters as unsigned numbers. *)
Fixpoint str_lt (a b : bytes) : bool :=
  match a, b with
  | _, [] => false
  | [], _ :: _ => true
  | c :: a', d :: b' =>
      let m := N_of_ascii c in let n := N_of_ascii d in
      if (m <? n)%N then true else if (n <? m)%N then false else str_lt a' b'
  end.

(** Utils.hpp:44-67 (the part for systems other than Windows): the text after normalising has every "~"
    replaced; [home] is the environment variable, empty when it is not set. *)
Definition expandUserPath (stat : fsys) (home : option bytes) (fuel : nat) (p : path) : outcome path :=
  let! (t, q) := getStr stat p in
  let! r := replaceAll fuel t (lit "~") (match home with Some h => h | None => [] end) in
  Ok (assign q r).

(** ** Folder scans *)
Inductive smode := Single | Recurse.
Inductive stype := TAll | TFile | TFolder.
Inductive spick := PAny | PByExt | PByName.
Inductive ssort := SNone | SAlphabetic.

(** [std::sort] with [Path::operator<] (Path.hpp:317-320). Which sorting algorithm runs is not modelled:
    insertion sort stands for it. Elements are compared by their texts, all normalised by then. *)
Fixpoint ins (x : bytes) (l : list bytes) : list bytes :=
  match l with [] => [x] | y :: r => if str_lt y x then y :: ins x r else x :: l end.
Definition sort (l : list bytes) : list bytes := fold_right ins [] l.

Definition wantsFolders (t : stype) : bool := match t with TFile => false | _ => true end.
Definition wantsFiles (t : stype) : bool := match t with TFolder => false | _ => true end.
(** ScanHelper.hpp:74-91. *)
Definition picks (p : spick) (name desired : bytes) : outcome bool :=
  match p with
  | PAny => Ok true
  | PByExt => endsWith name desired
  | PByName => Ok (bytes_eqb name desired)
  end.

(** ScanHelper.hpp:34-99. [src] is the folder given by the caller, or [None] when the argument [mPath] is
    the thread's scratch object [bufPath] itself, which is what the recursive call passes (line 69). [buf]
    is the text of that scratch object. The result is the target and the scratch text afterwards.
    Simplified: a target element is its text (each was normalised before it was copied, or is brought to
    that form before anyone can see it); [opendir] is assumed to succeed on a folder. *)
Fixpoint scan (fuel : nat) (stat : fsys) (ls : bytes -> list bytes)
  (m : smode) (ty : stype) (pk : spick) (so : ssort) (desired : bytes)
  (target : list bytes) (src : option bytes) (buf : bytes) {struct fuel} : outcome (list bytes * bytes) :=
  match fuel with
  | O => OutOfFuel
  | S fuel' =>
      let! dir := normalText stat (match src with Some t => t | None => buf end) in
      if existsFolder stat dir then
        let! (target', buf') :=
          (fix each (entries : list bytes) (target : list bytes) (buf : bytes) : outcome (list bytes * bytes) :=
             match entries with
             | [] => Ok (target, buf)
             | name :: rest =>
                 (* line 53 empties the scratch object: when it is also the argument, nothing is left of it *)
                 let prefix := match src with Some _ => dir | None => [] end in
                 let! p := normalText stat (prefix ++ name) in
                 let! dots := isRootOrParent p in
                 if dots then each rest target p
                 else if existsFolder stat p then
                   let target1 := if wantsFolders ty then target ++ [p] else target in
                   match m with
                   | Single => each rest target1 p
                   | Recurse =>
                       let! (target2, buf2) := scan fuel' stat ls m ty pk so desired target1 None p in
                       each rest target2 buf2
                   end
                 else if wantsFiles ty then
                   let! yes := picks pk name desired in
                   each rest (if yes then target ++ [p] else target) p
                 else each rest target p
             end) (ls dir) target (match src with Some _ => buf | None => dir end) in
        Ok (match so with SNone => target' | SAlphabetic => sort target' end, buf')
      else Throw "Directory not found"%string
  end.
