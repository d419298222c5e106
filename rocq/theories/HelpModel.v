(** Usage texts, help texts and messages of include/SSVUtils/CmdLine: Cmd.hpp, Ctx.hpp:31-36, Elements/, Internal/Exceptions.hpp,
    Internal/Parser.hpp:60-73.  Simplified: of an element only what its texts depend on. *)
From Coq Require Import String Ascii ZArith NArith Arith Bool List.
From Verif Require Import Common IntToStrModel.
Import ListNotations.
Local Open Scope nat_scope.
Local Notation "'let!' x := e 'in' f" :=
  (obind e (fun x => f)) (at level 200, x pattern, e at level 100, f at level 200, right associativity).

(** Internal/EType.hpp:13-21, with the numbers of a pack (BaseArgPack.hpp:19-32) and the names of a flag as given by the user. *)
Inductive shape :=
| SArg | SArgOpt | SPack (min max : Z) | SFlag (s l : bytes) | SFlagValue (s l : bytes) | SFlagValueOpt (s l : bytes).
(** BaseElement.hpp:18-43. *)
Record element := { ename : bytes; ebrief : bytes; edesc : bytes; eshape : shape }.
(** Cmd.hpp:107-121; [celems] in order of creation. *)
Record command := { cnames : list bytes; cdesc : bytes; celems : list element; cmain : bool }.

Section TEXTS.
(** The scratch buffer of [toStr] for [std::size_t]. *)
Context (buf : bytes).

(** The seven [getUsageStr]. Prefixes: BaseFlag.hpp:17-31. *)
Definition usage (e : element) : outcome bytes :=
  match eshape e with
  | SArg => Ok (lit "(ARG " ++ ename e ++ lit ")")
  | SArgOpt => Ok (lit "(ARGOPT " ++ ename e ++ lit ")")
  | SPack min max =>
      let! a := toStr t_ulong buf min in
      let! b := (if ((min =? 0) && (max =? 0))%Z then Ok (lit "...") else toStr t_ulong buf max) in
      Ok (lit "(PACK " ++ ename e ++ lit " " ++ lit "[" ++ a ++ lit "/" ++ b ++ lit "])")
  | SFlag s l => Ok (lit "[" ++ (lit "-" ++ s) ++ lit " || " ++ (lit "--" ++ l) ++ lit "]")
  | SFlagValue s l => Ok (lit "[" ++ (lit "-" ++ s) ++ lit "=(...) || " ++ (lit "--" ++ l) ++ lit "=(...)]")
  | SFlagValueOpt s l => Ok (lit "[OPT " ++ (lit "-" ++ s) ++ lit "=(...) || OPT " ++ (lit "--" ++ l) ++ lit "=(...)]")
  end.

(** BaseElement.hpp:47-57. *)
Definition newline : bytes := [ch 10].
Definition part (pre t : bytes) : bytes := match t with [] => [] | _ => pre ++ t end.
Definition element_help (e : element) : outcome bytes :=
  let! u := usage e in
  Ok (part (lit "* ") u ++ part (newline ++ lit "  --") (ename e) ++ part (newline ++ lit "  --") (ebrief e) ++
      part (newline ++ lit "  --") (edesc e) ++ newline ++ newline).
Fixpoint all_help (l : list element) : outcome bytes :=
  match l with
  | [] => Ok []
  | e :: r => let! a := element_help e in let! b := all_help r in Ok (a ++ b)
  end.
(** Cmd.hpp:53-79: the group of one type, in order of creation. *)
Inductive etype := EArg | EArgOpt | EArgPack | EFlag | EFlagValue | EFlagValueOpt.
Definition has_type (t : etype) (e : element) : bool :=
  match t, eshape e with
  | EArg, SArg | EArgOpt, SArgOpt | EArgPack, SPack _ _ | EFlag, SFlag _ _ | EFlagValue, SFlagValue _ _
  | EFlagValueOpt, SFlagValueOpt _ _ => true
  | _, _ => false
  end.
Definition getAll (t : etype) (c : command) : list element := filter (has_type t) (celems c).
(** Cmd.hpp:146-157. *)
Definition helpForET (str : bytes) (c : command) (t : etype) (title : bytes) : outcome bytes :=
  match getAll t c with
  | [] => Ok str
  | es => let! h := all_help es in Ok (str ++ [ch 9] ++ title ++ lit ":" ++ newline ++ h ++ newline)
  end.
(** Cmd.hpp:232-247. *)
Definition getHelpStr (c : command) : outcome bytes :=
  let r := match cdesc c with [] => [] | d => lit ">>" ++ d ++ newline ++ newline end in
  let! r := helpForET r c EArg (lit "Required arguments") in
  let! r := helpForET r c EArgOpt (lit "Optional arguments") in
  let! r := helpForET r c EArgPack (lit "Argument packs") in
  let! r := helpForET r c EFlag (lit "Flags") in
  let! r := helpForET r c EFlagValue (lit "Flag values") in
  helpForET r c EFlagValueOpt (lit "Optional flag values").

(** Cmd.hpp:35-46: [mSep] behind all but the last. *)
Fixpoint joined (sep : bytes) (l : list bytes) : bytes :=
  match l with [] => [] | [x] => x | x :: r => x ++ sep ++ joined sep r end.
(** Cmd.hpp:222-225. *)
Definition getNamesStr (names : list bytes) : bytes := lit "<" ++ joined (lit " || ") names ++ lit ">".
(** Ctx.hpp:31-36. *)
Definition forCmdPhrase (c : command) : bytes := if cmain c then [] else lit " for command " ++ getNamesStr (cnames c).

(** What can go wrong, and [what()] of the exception (Exceptions.hpp:37-78, Parser.hpp:72). *)
Inductive problem :=
| NoFlag (name : bytes) | NoCommand (name suggestion : bytes)
| Flags (expected : Z) | OptionalFlagValues (expected : Z) | RequiredFlagValues (expected : Z) | Args (expected : Z)
| PackPosition | PackCount (name : bytes) (min max : Z) | TooMany | NoBool (s : bytes).
Definition mismatch (c : command) (what : bytes) (n : Z) : outcome bytes :=
  let! t := toStr t_ulong buf n in
  Ok (lit "Incorrect number of " ++ what ++ lit " " ++ forCmdPhrase c ++ lit " - expected: " ++ t).
Definition message (c : command) (p : problem) : outcome bytes :=
  match p with
  | NoFlag n => Ok (lit "Flag `" ++ n ++ lit "` not found in command " ++ getNamesStr (cnames c))
  | NoCommand n s => Ok (lit "Command with name <" ++ n ++ lit "> not found - did you mean <" ++ s ++ lit ">?")
  | Flags n => mismatch c (lit "flags") n
  | OptionalFlagValues n => mismatch c (lit "optional flag values") n
  | RequiredFlagValues n => mismatch c (lit "required flag values") n
  | Args n => mismatch c (lit "args") n
  | PackPosition => Ok (lit "Infinite ArgPacks must be specified last in the command")
  | PackCount n min max =>
      let! a := toStr t_ulong buf min in
      let! b := toStr t_ulong buf max in
      Ok (lit "Incorrect number of parameters for ArgPack `" ++ n ++ lit "` - expected (" ++ a ++ lit " .. " ++ b ++ lit ")")
  | TooMany => Ok (lit "Too many arguments used in command line")
  | NoBool s => Ok (lit "Cannot parse '" ++ s ++ lit "' to bool")
  end.
End TEXTS.
