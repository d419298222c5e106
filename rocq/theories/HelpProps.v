(** Property C105 (help texts and messages of the command line). *)
From Coq Require Import String Ascii ZArith NArith Arith Bool Lia List.
From Verif Require Import Common IntToStrModel IntToStrSpec HelpModel HelpSpec HelpProofs HelpTextProofs HelpTopProofs.
From Verif Require CmdModel.
Import ListNotations.
Local Open Scope nat_scope.

Definition el (n b d : string) (s : shape) : element := {| ename := lit n; ebrief := lit b; edesc := lit d; eshape := s |}.
Definition sample_command : command :=
  {| cnames := [lit "copy"; lit "cp"]; cdesc := lit "Copies files"; cmain := false;
     celems := [ el "verbose" "Says more" "Prints every name" (SFlag (lit "v") (lit "verbose"));
                 el "from" "Source" "File to copy" SArg;
                 el "more" "Others" "Further files" (SPack 0 0);
                 el "to" "Target" "Where to" SArg;
                 el "two" "A pair" "Two words" (SPack 1 2) ] |}.
Definition scratch : bytes := repeat "x"%char 19.

(** C105: the usage text of every element, unless a number of a pack is 10^18 or more: then the text cannot be asked for. *)
Theorem C105_usage : forall buf e, length buf = 19 -> bounds size_ok e ->
  (bounds small e -> exists t, usage buf e = Ok t /\ shows e t) /\ (~ bounds small e -> usage buf e = UB).
Proof. exact usage_text. Qed.
Print Assumptions C105_usage.
Example C105_usage_example : usage scratch (el "more" "" "" (SPack 0 0)) = Ok (lit "(PACK more [0/...])") /\
  usage scratch (el "two" "" "" (SPack 1 12)) = Ok (lit "(PACK two [1/12])").
Proof. split; vm_compute; reflexivity. Qed.
(** C105: the names shown for a flag are exactly those it answers to. *)
Theorem C105_flag_names : forall buf n b d s l, exists x y,
  usage buf {| ename := n; ebrief := b; edesc := d; eshape := SFlag s l |} = Ok (lit "[" ++ x ++ lit " || " ++ y ++ lit "]") /\
  usage buf {| ename := n; ebrief := b; edesc := d; eshape := SFlagValue s l |} = Ok (lit "[" ++ x ++ lit "=(...) || " ++ y ++ lit "=(...)]") /\
  (forall t, CmdModel.flag_hasName (CmdModel.new_flag s l) t = true <-> t = x \/ t = y) /\
  (forall k t, CmdModel.fv_hasName (CmdModel.new_fvalue s l k) t = true <-> t = x \/ t = y).
Proof. exact flag_tokens. Qed.
Print Assumptions C105_flag_names.
(** C105: a usage text tells the kind of an element, its numbers and the names of a flag, and else its name. *)
Theorem C105_usage_unique : forall e e' t, shows e t -> shows e' t -> tidy e -> tidy e' -> bounds size_ok e -> bounds size_ok e' ->
  eshape e = eshape e' /\ match eshape e with SArg | SArgOpt | SPack _ _ => ename e = ename e' | _ => True end.
Proof. exact shows_unique. Qed.
Print Assumptions C105_usage_unique.
(** Flag names that cannot be typed spoil this. *)
Theorem C105_usage_untidy_refuted : exists e e' t, shows e t /\ shows e' t /\ eshape e <> eshape e' /\
  bounds size_ok e /\ bounds size_ok e'.
Proof.
  exists (el "" "" "" (SFlag (lit "a=(...)") (lit "b=(...)"))), (el "" "" "" (SFlagValue (lit "a") (lit "b"))), (lit "[-a=(...) || --b=(...)]").
  split; [apply (sh_flag [] [] [] (lit "a=(...)") (lit "b=(...)"))|]. split; [apply (sh_value [] [] [] (lit "a") (lit "b"))|].
  split; [discriminate|split; exact I].
Qed.
Print Assumptions C105_usage_untidy_refuted.

(** C105: in the help of a command the lines marked "* " are the usage texts of all its elements, section by section and
    in order of creation in each; the lines marked "  --" are their names and descriptions; the lines marked by a tab are
    the titles of the sections that are not empty; the line marked ">>" is the command's description. *)
Theorem C105_help : forall buf c, length buf = 19 -> Forall (bounds size_ok) (celems c) -> Forall (bounds small) (celems c) ->
  Forall on_lines (celems c) -> line (cdesc c) -> exists h us, getHelpStr buf c = Ok h /\
  Forall2 shows (listed c) us /\ marked (lit "* ") (lines h) = us /\ marked (lit "  --") (lines h) = flat_map texts (listed c) /\
  marked [ch 9] (lines h) = map title (present c) /\ marked (lit ">>") (lines h) = filter (fun t => match t with [] => false | _ => true end) [cdesc c].
Proof. exact help_marks. Qed.
Print Assumptions C105_help.
Example C105_help_example : exists h, getHelpStr scratch sample_command = Ok h /\
  marked (lit "* ") (lines h) = [lit "(ARG from)"; lit "(ARG to)"; lit "(PACK more [0/...])"; lit "(PACK two [1/2])"; lit "[-v || --verbose]"] /\
  marked [ch 9] (lines h) = [lit "Required arguments:"; lit "Argument packs:"; lit "Flags:"] /\ length (lines h) = 34.
Proof. eexists. split; [vm_compute; reflexivity|]. repeat split; vm_compute; reflexivity. Qed.
(** C105: the help of a command with a pack of 10^18 or more, such as the greatest number for "no limit", cannot be asked for. *)
Theorem C105_help_large_refuted : forall buf c, length buf = 19 -> Forall (bounds size_ok) (celems c) -> ~ Forall (bounds small) (celems c) ->
  getHelpStr buf c = UB.
Proof. exact help_ub. Qed.
Print Assumptions C105_help_large_refuted.
Example C105_help_large_refuted_example : exists c, Forall (bounds size_ok) (celems c) /\ ~ Forall (bounds small) (celems c).
Proof.
  exists {| cnames := []; cdesc := []; cmain := true; celems := [el "all" "" "" (SPack 1 (2 ^ 64 - 1))] |}. split.
  - repeat constructor; cbn; unfold size_ok; lia.
  - intros H. inversion H as [|? ? X _]. unfold bounds, small in X. cbn [eshape el] in X. lia.
Qed.
(** C105: two commands with the same help have the same description and the same elements in every section, if every
    element has a name and both descriptions. *)
Theorem C105_help_unique : forall buf buf' c c' h, length buf = 19 -> length buf' = 19 ->
  Forall (bounds size_ok) (celems c ++ celems c') -> Forall tidy (celems c ++ celems c') -> Forall on_lines (celems c ++ celems c') ->
  Forall described (celems c ++ celems c') -> line (cdesc c) -> line (cdesc c') ->
  getHelpStr buf c = Ok h -> getHelpStr buf' c' = Ok h -> cdesc c = cdesc c' /\ forall k, section c k = section c' k.
Proof. exact help_unique. Qed.
Print Assumptions C105_help_unique.
Example C105_help_unique_example : Forall tidy (celems sample_command) /\ Forall on_lines (celems sample_command) /\
  Forall described (celems sample_command) /\ line (cdesc sample_command).
Proof.
  assert (N : forall c s, forallb (fun d => negb (Ascii.eqb d c)) s = true -> ~ In c s).
  { intros c s H I. rewrite forallb_forall in H. apply H in I. rewrite Ascii.eqb_refl in I. discriminate. }
  split; [repeat constructor; apply N; reflexivity|]. split; [|split; [repeat constructor; discriminate|apply N; reflexivity]].
  unfold sample_command. cbn [celems]. repeat (constructor; [repeat split; try exact I; apply N; reflexivity|]). constructor.
Qed.
(** Refuted without that: a name, a brief and a full description look the same. *)
Theorem C105_help_same_refuted : exists buf c c' h, length buf = 19 /\ getHelpStr buf c = Ok h /\ getHelpStr buf c' = Ok h /\
  map ename (celems c) <> map ename (celems c').
Proof.
  exists scratch, {| cnames := []; cdesc := []; cmain := true; celems := [el "quiet" "" "" (SFlag (lit "q") (lit "quiet"))] |},
    {| cnames := []; cdesc := []; cmain := true; celems := [el "" "quiet" "" (SFlag (lit "q") (lit "quiet"))] |}.
  eexists. split; [reflexivity|]. split; [vm_compute; reflexivity|]. split; [vm_compute; reflexivity|discriminate].
Qed.
Print Assumptions C105_help_same_refuted.

(** C105: the text of a command's names tells the names, if there are any and none contains '|' ... *)
Theorem C105_names : forall l l', l <> [] -> l' <> [] -> Forall (fun n => ~ In "|"%char n) l -> Forall (fun n => ~ In "|"%char n) l' ->
  getNamesStr l = getNamesStr l' -> l = l'.
Proof. exact names_unique. Qed.
Print Assumptions C105_names.
Example C105_names_example : getNamesStr (cnames sample_command) = lit "<copy || cp>".
Proof. reflexivity. Qed.
(** ... and not otherwise. *)
Theorem C105_names_refuted : getNamesStr [] = getNamesStr [[]] /\ getNamesStr [lit "a || b"] = getNamesStr [lit "a"; lit "b"].
Proof. split; reflexivity. Qed.
Print Assumptions C105_names_refuted.

(** C105: every problem has a message, up to numbers of 10^18, and messages about one command tell which problem it was
    and what it is about. *)
Theorem C105_message : forall buf c p, length buf = 19 -> printable size_ok p ->
  (printable small p -> exists m, message buf c p = Ok m) /\ (~ printable small p -> message buf c p = UB).
Proof. exact message_text. Qed.
Print Assumptions C105_message.
Theorem C105_message_unique : forall buf c p p' m, length buf = 19 -> printable size_ok p -> printable size_ok p' ->
  plain_problem p -> plain_problem p' -> message buf c p = Ok m -> message buf c p' = Ok m -> p = p'.
Proof. exact message_unique. Qed.
Print Assumptions C105_message_unique.
Example C105_message_example :
  message scratch sample_command (NoFlag (lit "-z")) = Ok (lit "Flag `-z` not found in command <copy || cp>") /\
  message scratch sample_command (Args 2) = Ok (lit "Incorrect number of args  for command <copy || cp> - expected: 2") /\
  message scratch sample_command (PackCount (lit "two") 1 2) = Ok (lit "Incorrect number of parameters for ArgPack `two` - expected (1 .. 2)") /\
  message scratch sample_command (NoCommand (lit "coyp") (lit "copy")) = Ok (lit "Command with name <coyp> not found - did you mean <copy>?").
Proof. repeat split; vm_compute; reflexivity. Qed.
