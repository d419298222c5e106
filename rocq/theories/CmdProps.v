(** Property theorems C46-C50 (command line). *)
From Coq Require Import String Ascii ZArith NArith Arith Bool Lia List.
From Verif Require Import Common CmdModel CmdSpec LevSpec CmdProofs.
Import ListNotations.
Local Open Scope nat_scope.

(** An example context: [add] (alias [+]) takes two integers, an optional string, a pack of at most 2 strings, two
    flags and two value flags; [list] takes nothing. *)
Definition ex_add : cmd := {|
  names := [lit "add"; lit "+"];
  args := [{| akind := KInt; aval := None |}; {| akind := KInt; aval := None |}];
  opts := [{| okind := KStr; odefault := VStr (lit "d"); oval := None |}];
  packs := [{| pkind := KStr; pmin := 0; pmax := 2; pvals := [] |}];
  flags := [new_flag (lit "v") (lit "verbose"); new_flag (lit "q") (lit "quiet")];
  fvals := [new_fvalue (lit "x") (lit "xpos") KInt; new_fvalue (lit "y") (lit "ypos") KInt];
  fopts := [] |}.
Definition ex_list : cmd := {| names := [lit "list"]; args := []; opts := []; packs := []; flags := []; fvals := []; fopts := [] |}.
Definition ex_main : cmd := {| names := []; args := []; opts := []; packs := []; flags := [new_flag (lit "h") (lit "help")]; fvals := []; fopts := [] |}.
Definition ex : ctx := {| cmds := [ex_list; ex_add]; cmdMain := ex_main; ran := [] |}.
Definition ex_line : list bytes := map lit ["+"; "3"; "-y=7"; "4"; "--verbose"; "foo"; "bar"; "-x=8"]%string.

(** C46. Whatever happens, at most the selected command changes, and exactly its action runs, exactly on success;
    an unknown name changes nothing and the error suggests a nearest registered name. *)
Theorem C46_dispatch : forall x ts,
  (exists sel c rest, selected x ts sel c rest /\
     exists x' r c', process x ts = (x', r) /\ updated x sel c' x' /\
       ran x' = match r with CDone => ran x ++ [sel] | _ => ran x end) \/
  (exists t rest, ts = t :: rest /\ dashed t = false /\ (forall c, In c (cmds x) -> ~ In t (names c)) /\
     exists s, process x ts = (x, CThrow (ECmdNotFound t s)) /\
       (flat_map names (cmds x) = [] /\ s = [] \/ nearest (flat_map names (cmds x)) t s)).
Proof. exact dispatch. Qed.
Print Assumptions C46_dispatch.
Example C46_example :
  snd (process ex ex_line) = CDone /\ ran (fst (process ex ex_line)) = [Some 1] /\
  ran (fst (process ex [lit "--help"])) = [None] /\
  process ex [lit "lost"] = (ex, CThrow (ECmdNotFound (lit "lost") (lit "list"))).
Proof. vm_compute. repeat split; reflexivity. Qed.

(** C47. A call succeeds exactly when the selected command accepts the tokens, and then leaves exactly the
    state described by [accepts]. *)
Theorem C47_distribution : forall x ts x', process x ts = (x', CDone) <->
  exists sel c rest c', selected x ts sel c rest /\ accepts c rest c' /\ updated x sel c' x' /\ ran x' = ran x ++ [sel].
Proof. exact process_done_iff. Qed.
Print Assumptions C47_distribution.
(** In every other case it fails, runs no action, touches no other command, and the error reported is true of
    the tokens; the process is terminated only for an integer that cannot be read. *)
Theorem C47_failure : forall x ts sel c rest, selected x ts sel c rest -> (forall c', ~ accepts c rest c') ->
  exists x' r, process x ts = (x', r) /\ r <> CDone /\
    match r with
    | CDone => True
    | CThrow e => error_means c rest e
    | CAbort => exists s, mentioned rest s /\ forall z, ~ int_text s z
    | CUB => False
    end /\ ran x' = ran x /\ exists c', updated x sel c' x'.
Proof. exact process_fails. Qed.
Print Assumptions C47_failure.
(** After a successful call an optional argument gives the value of the plain token at its place; without one, what it gave
    before: its default, if it was never set. *)
Theorem C47_optional : forall x ts x' sel c rest, process x ts = (x', CDone) -> selected x ts sel c rest ->
  exists c', updated x sel c' x' /\ length (opts c') = length (opts c) /\
    forall i o, nth_error (opts c) i = Some o -> exists o', nth_error (opts c') i = Some o' /\
      match nth_error (plain rest) (length (args c) + i) with
      | Some t => parses (okind o) t (opt_get o')
      | None => opt_get o' = opt_get o /\ (oval o = None -> opt_get o' = odefault o)
      end.
Proof. exact optional_after. Qed.
Print Assumptions C47_optional.
Example C47_optional_example :
  map opt_get (opts (nth 1 (cmds (fst (process ex (map lit ["add"; "1"; "2"; "-x=1"; "-y=2"]%string)))) ex_list)) = [VStr (lit "d")] /\
  snd (process ex (map lit ["add"; "1"; "2"; "-x=1"; "-y=2"]%string)) = CDone.
Proof. vm_compute. split; reflexivity. Qed.
(** Wrong numbers of value flags or too few arguments are reported as such, and nothing has changed. *)
Theorem C47_early : forall x ts sel c rest r o, selected x ts sel c rest -> values_given (fopts c) rest r o ->
  length (bare rest) <= length (flags c) -> length o <= length (fopts c) ->
  (length r <> length (fvals c) -> process x ts = (x, CThrow (EFlagValues (length (fvals c))))) /\
  (length r = length (fvals c) -> length (plain rest) < length (args c) -> process x ts = (x, CThrow (EArgs (length (args c))))).
Proof. exact early_errors. Qed.
Print Assumptions C47_early.
Example C47_example :
  (let c := nth 1 (cmds (fst (process ex ex_line))) ex_list in
   map aval (args c) = [Some (VInt 3); Some (VInt 4)] /\ map opt_get (opts c) = [VStr (lit "foo")] /\
   map pvals (packs c) = [[VStr (lit "bar")]]) /\
  process ex (map lit ["add"; "1"; "-x=1"; "-y=2"]%string) = (ex, CThrow (EArgs 2)) /\
  snd (process ex (map lit ["list"; "1"]%string)) = CThrow ETooMany.
Proof. vm_compute. repeat split; reflexivity. Qed.
(** An argument starting with '-', such as a negative number, is never passed to a parameter. *)
Theorem C47_negative_refuted : exists x ts x' t, In t ts /\ process x ts = (x', CThrow (EArgs 2)) /\
  int_text t (-5) /\ length (filter (fun t => negb (has_eq t)) (tl ts)) = 2.
Proof.
  exists ex, (map lit ["add"; "1"; "-5"; "-x=1"; "-y=2"]%string), ex, (lit "-5").
  split; [right; right; left; reflexivity|]. split; [vm_compute; reflexivity|]. split; [apply stoi_some; vm_compute; reflexivity|vm_compute; reflexivity].
Qed.
Print Assumptions C47_negative_refuted.
(** An argument that is no integer terminates the process instead of raising the parsing error. *)
Theorem C47_bad_integer_refuted : exists x ts x', process x ts = (x', CAbort).
Proof.
  exists ex, (map lit ["add"; "1"; "two"; "-x=1"; "-y=2"]%string). eexists. vm_compute. reflexivity.
Qed.
Print Assumptions C47_bad_integer_refuted.

(** C48. After a successful call a flag is active iff it was, or a token is a name of it (and of no earlier flag);
    every flag token names some flag, and there are at most as many as flags. *)
Theorem C48_flags : forall x ts x' sel c rest, process x ts = (x', CDone) -> selected x ts sel c rest ->
  exists c', updated x sel c' x' /\ length (flags c') = length (flags c) /\
    length (bare rest) <= length (flags c) /\
    (forall t, In t (bare rest) -> exists f, In f (flags c) /\ flag_named f t) /\
    (forall i f f', nth_error (flags c) i = Some f -> nth_error (flags c') i = Some f' ->
       fshort f' = fshort f /\ flong f' = flong f /\
       (factive f' = true <-> factive f = true \/
          exists t, In t rest /\ dashed t = true /\ has_eq t = false /\ flag_named f t /\
            forall j g, j < i -> nth_error (flags c) j = Some g -> ~ flag_named g t)).
Proof. exact flags_after. Qed.
Print Assumptions C48_flags.
(** A flag token that is no flag's name makes the call fail. *)
Theorem C48_unknown : forall x ts sel c rest t, selected x ts sel c rest -> In t (bare rest) ->
  (forall f, In f (flags c) -> ~ flag_named f t) -> exists x' r, process x ts = (x', r) /\ r <> CDone /\ r <> CUB.
Proof. exact flag_unknown. Qed.
Print Assumptions C48_unknown.
Example C48_example :
  map factive (flags (nth 1 (cmds (fst (process ex ex_line))) ex_list)) = [true; false] /\
  snd (process ex (map lit ["add"; "1"; "2"; "-x=1"; "-y=2"; "-z"]%string)) = CThrow (EFlagNotFound (lit "-z")).
Proof. vm_compute. repeat split; reflexivity. Qed.
(** Giving the same flag twice can be rejected as too many flags. *)
Theorem C48_repeat_refuted : exists x t x', process x [t] = (x', CDone) /\ process x [t; t] = (x, CThrow (EFlags 1)).
Proof. exists ex, (lit "-h"). eexists. split; vm_compute; reflexivity. Qed.
Print Assumptions C48_repeat_refuted.

(** C49. With no optional value flags, the i-th token [name=value] sets the i-th value flag, whatever the name:
    so values given in declaration order under their own names reach their flags. *)
Theorem C49_by_position : forall c ts c' vs, fopts c = [] -> accepts c ts c' ->
  filter (fun t => dashed t && has_eq t) ts = map (fun p => fst p ++ lit "=" ++ snd p) vs ->
  Forall (fun p => dashed (fst p) = true /\ has_eq (fst p) = false) vs ->
  forall i n v, nth_error vs i = Some (n, v) ->
    exists f f' w, nth_error (fvals c) i = Some f /\ nth_error (fvals c') i = Some f' /\
      vshort f' = vshort f /\ vlong f' = vlong f /\ vkind f' = vkind f /\ parses (vkind f) v w /\ vval f' = Some w.
Proof. exact values_in_order. Qed.
Print Assumptions C49_by_position.
Example C49_example :
  map vval (fvals (nth 1 (cmds (fst (process ex (map lit ["add"; "-x=1"; "7"; "--ypos=2"; "8"]%string)))) ex_list)) = [Some (VInt 1); Some (VInt 2)].
Proof. vm_compute. reflexivity. Qed.
(** In the other order each flag receives the other's value. *)
Theorem C49_named_refuted : exists x ts x' c' f v w, process x ts = (x', CDone) /\ nth_error (cmds x') 1 = Some c' /\
  In f (fvals c') /\ fv_named f (lit "-x") /\ In (lit "-x=" ++ v) ts /\ parses (vkind f) v w /\ vval f <> Some w.
Proof.
  exists ex, ex_line. do 5 eexists. split; [vm_compute; reflexivity|]. split; [reflexivity|].
  split; [left; reflexivity|]. split; [left; reflexivity|]. split; [do 7 right; left; reflexivity|].
  split; [apply p_int, stoi_some; vm_compute; reflexivity|]. vm_compute. discriminate.
Qed.
Print Assumptions C49_named_refuted.
(** A token whose name belongs to no value flag is accepted. *)
Theorem C49_unknown_refuted : exists x ts x' c, process x ts = (x', CDone) /\ nth_error (cmds x) 1 = Some c /\
  In (lit "--typo=1") ts /\ forall f, In f (fvals c ++ fopts c) -> ~ fv_named f (lit "--typo").
Proof.
  exists ex, (map lit ["add"; "1"; "2"; "--typo=1"; "-y=2"]%string). do 2 eexists. split; [vm_compute; reflexivity|].
  split; [reflexivity|]. split; [do 3 right; left; reflexivity|].
  intros f [<-|[<-|[]]] [H|H]; vm_compute in H; discriminate H.
Qed.
Print Assumptions C49_unknown_refuted.

(** C50. A failed call can leave values behind: the context differs although the call threw. *)
Theorem C50_atomic_refuted : exists x ts x' c c', process x ts = (x', CThrow (EFlagNotFound (lit "-z"))) /\
  nth_error (cmds x) 1 = Some c /\ nth_error (cmds x') 1 = Some c' /\
  map aval (args c) = [None; None] /\ map aval (args c') = [Some (VInt 1); Some (VInt 2)] /\
  map pvals (packs c) = [[]] /\ map pvals (packs c') = [[VStr (lit "q")]].
Proof.
  exists ex, (map lit ["add"; "1"; "2"; "o"; "q"; "-x=1"; "-y=2"; "-z"]%string). do 3 eexists.
  split; [vm_compute; reflexivity|]. split; [reflexivity|]. split; [reflexivity|]. vm_compute. auto.
Qed.
Print Assumptions C50_atomic_refuted.
(** Packs grow with every call: the same line processed twice gives a pack more values than its maximum allows. *)
Theorem C50_packs_refuted : exists x ts x1 x2 c p, process x ts = (x1, CDone) /\ process x1 ts = (x2, CDone) /\
  nth_error (cmds x2) 1 = Some c /\ packs c = [p] /\ 0 < pmax p < length (pvals p).
Proof.
  exists ex, (map lit ["add"; "1"; "2"; "o"; "q"; "r"; "-x=1"; "-y=2"]%string). do 4 eexists.
  split; [vm_compute; reflexivity|]. split; [vm_compute; reflexivity|]. split; [reflexivity|]. split; [reflexivity|].
  vm_compute. lia.
Qed.
Print Assumptions C50_packs_refuted.
(** What does hold of every failed call: no action runs and no other command changes. *)
Theorem C50_failed_call : forall x ts x' r, process x ts = (x', r) -> r <> CDone ->
  ran x' = ran x /\ (x' = x \/ exists sel c rest c', selected x ts sel c rest /\ updated x sel c' x').
Proof. exact failed_call. Qed.
Print Assumptions C50_failed_call.
