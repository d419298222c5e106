(** Model of include/SSVUtils/CmdLine: Ctx.hpp, Ctx.inl, Cmd.hpp, Elements/, Internal/.
    Simplified: element descriptions and the text of exceptions are left out (the data they carry is kept);
    floating-point arguments are left out here (their conversion is in FltModel); actions are the event "command k ran".
    [FlagValueOpt<T>::set] calls [FlagValue<T>::set], which is not a base member, so no program can create
    one (FlagValueOpt.hpp:34-38); optional flag values are modelled as evidently intended. *)
From Coq Require Import String Ascii ZArith NArith Arith Bool Lia List.
From Verif Require Import Common StrModel LevModel.
Import ListNotations.
Local Open Scope nat_scope.

(** Internal/Parser.hpp: the parsed types, and values. *)
Inductive kind := KStr | KInt | KBool.
Inductive value := VStr (s : bytes) | VInt (z : Z) | VBool (b : bool).
(** [PAbort]: the process is terminated (an exception leaves a [noexcept] function). *)
Inductive pres := PVal (v : value) | PThrow | PAbort.

(** [std::stoi]: blanks, sign, decimal digits, the rest ignored; throws without digits or out of range. *)
Definition is_space (c : ascii) : bool := let n := N_of_ascii c in ((n =? 32) || ((9 <=? n) && (n <=? 13)))%N.
Fixpoint skip_space (s : bytes) : bytes := match s with c :: r => if is_space c then skip_space r else s | [] => [] end.
Definition is_digit (c : ascii) : bool := let n := N_of_ascii c in ((48 <=? n) && (n <=? 57))%N.
Fixpoint digits_value (acc : Z) (s : bytes) : Z :=
  match s with
  | c :: r => if is_digit c then digits_value (acc * 10 + Z.of_N (N_of_ascii c - 48)) r else acc
  | [] => acc
  end.
Definition stoi (s : bytes) : option Z :=
  let s := skip_space s in
  let '(neg, s) := match s with
                   | c :: r => if Ascii.eqb c "-" then (true, r) else if Ascii.eqb c "+" then (false, r) else (false, s)
                   | [] => (false, s) end in
  match s with
  | c :: _ =>
    if is_digit c then
      let z := digits_value 0 s in
      let z := (if neg then - z else z)%Z in
      if ((INT_MIN <=? z) && (z <=? INT_MAX))%Z then Some z else None
    else None
  | [] => None
  end.

(** Parser.hpp:22-74. The [catch] of :40 is never reached: [sToInt] is [noexcept] (Casts.hpp:142). *)
Definition parse (k : kind) (s : bytes) : pres :=
  match k with
  | KStr => PVal (VStr s)
  | KInt => match stoi s with Some z => PVal (VInt z) | None => PAbort end
  | KBool =>
    let l := toLower s in
    if existsb (bytes_eqb l) [lit "y"; lit "yes"; lit "on"; lit "true"; lit "1"] then PVal (VBool true)
    else if existsb (bytes_eqb l) [lit "n"; lit "no"; lit "off"; lit "false"; lit "0"] then PVal (VBool false)
    else PThrow
  end.

(** Elements/Arg.hpp:18-39; [None]: never set. *)
Record arg := { akind : kind; aval : option value }.
(** Elements/ArgOpt.hpp:17-47. *)
Record argopt := { okind : kind; odefault : value; oval : option value }.
Definition opt_get (o : argopt) : value := match oval o with Some v => v | None => odefault o end.
(** Elements/ArgPack.hpp:17-50, Bases/BaseArgPack.hpp:19-53. *)
Record pack := { pkind : kind; pmin : nat; pmax : nat; pvals : list value }.
Definition is_infinite (p : pack) : bool := (pmin p =? 0) && (pmax p =? 0).
(** Bases/BaseFlag.hpp:21-45: names with their prefix. *)
Record flag := { fshort : bytes; flong : bytes; factive : bool }.
Definition new_flag (s l : bytes) : flag := {| fshort := lit "-" ++ s; flong := lit "--" ++ l; factive := false |}.
Definition flag_hasName (f : flag) (n : bytes) : bool := bytes_eqb n (fshort f) || bytes_eqb n (flong f).
(** Elements/FlagValue.hpp:18-56, FlagValueOpt.hpp:18-48. *)
Record fvalue := { vshort : bytes; vlong : bytes; vkind : kind; vval : option value }.
Definition new_fvalue (s l : bytes) (k : kind) : fvalue :=
  {| vshort := lit "-" ++ s; vlong := lit "--" ++ l; vkind := k; vval := None |}.
Definition fv_hasName (f : fvalue) (n : bytes) : bool := bytes_eqb n (vshort f) || bytes_eqb n (vlong f).

(** Cmd.hpp:48-131: the elements grouped by type, in order of creation. *)
Record cmd := {
  names : list bytes; args : list arg; opts : list argopt; packs : list pack;
  flags : list flag; fvals : list fvalue; fopts : list fvalue }.

(** Internal/Exceptions.hpp and Parser.hpp; with the data of the messages. *)
Inductive error :=
| EFlagNotFound (name : bytes) | ECmdNotFound (name suggestion : bytes)
| EFlags (expected : nat) | EFlagValuesOpt (expected : nat) | EFlagValues (expected : nat) | EArgs (expected : nat)
| EPackPosition | EPack (min max : nat) | ETooMany | EParse (s : bytes).
(** How a call ends: normally, with an exception, with the process terminated, or undefined. *)
Inductive cres := CDone | CThrow (e : error) | CAbort | CUB.

(** Ctx.hpp:26-30. *)
Definition beginsAsFlag (s : bytes) : bool := beginsWith s (lit "-") || beginsWith s (lit "--").
(** Position of the first '=' (Ctx.inl:68). *)
Fixpoint find_eq (s : bytes) : option nat :=
  match s with [] => None | c :: r => if Ascii.eqb c "=" then Some 0 else option_map S (find_eq r) end.

(** Cmd.hpp:186-189. *)
Definition hasName (c : cmd) (n : bytes) : bool := existsb (bytes_eqb n) (names c).

(** Ctx.inl:23-39: index of the command, or the suggestion. *)
Fixpoint find_index {A} (f : A -> bool) (l : list A) : option nat :=
  match l with [] => None | x :: r => if f x then Some 0 else option_map S (find_index f r) end.
Definition lev (a b : bytes) : nat := match getDistLevenshtein a b with Ok d => d | _ => 0 end.
(** [best]: the pair of Ctx.inl:28; [None] stands for the initial (max, ""). *)
Definition closest (n : bytes) (all : list bytes) : bytes :=
  match fold_left (fun best x =>
          let d := lev x n in
          match best with
          | None => Some (d, x)
          | Some (bd, b) => if d <? bd then Some (d, x) else best
          end) all None with
  | Some (_, b) => b
  | None => []
  end.

(** Ctx.inl:62-104: flags, required flag values with their tokens, optional ones. *)
Record found := { cF : list bytes; cFV : list bytes; cFVv : list bytes; cFO : list bytes; cFOv : list bytes }.
Definition classify_one (c : cmd) (s : bytes) (st : found) : found * cres :=
  if beginsAsFlag s then
    match find_eq s with
    | None =>
      let st := {| cF := cF st ++ [s]; cFV := cFV st; cFVv := cFVv st; cFO := cFO st; cFOv := cFOv st |} in
      if length (flags c) <? length (cF st) then (st, CThrow (EFlags (length (flags c)))) else (st, CDone)
    | Some p =>
      let fName := firstn p s in
      let fValue := skipn (S p) s in
      if existsb (fun f => fv_hasName f fName) (fopts c) then
        let st := {| cF := cF st; cFV := cFV st; cFVv := cFVv st; cFO := cFO st ++ [s]; cFOv := cFOv st |} in
        if length (fopts c) <? length (cFO st) then (st, CThrow (EFlagValuesOpt (length (fopts c))))
        else ({| cF := cF st; cFV := cFV st; cFVv := cFVv st; cFO := cFO st; cFOv := cFOv st ++ [fValue] |}, CDone)
      else ({| cF := cF st; cFV := cFV st ++ [s]; cFVv := cFVv st ++ [fValue]; cFO := cFO st; cFOv := cFOv st |}, CDone)
    end
  else (st, CDone).
Fixpoint classify (c : cmd) (l : list bytes) (st : found) : found * cres :=
  match l with
  | [] => (st, CDone)
  | s :: r => match classify_one c s st with (st, CDone) => classify c r st | x => x end
  end.

(** Containers.hpp:194-197 on the deque (Ctx.inl:110-112). *)
Definition eraseRemove (l : list bytes) (x : bytes) : list bytes := filter (fun y => negb (bytes_eqb y x)) l.

(** Ctx.inl:115-124; [None] when there are too few. *)
Fixpoint take_args (n : nat) (entered : list bytes) : option (list bytes * list bytes) :=
  match n with
  | O => Some ([], entered)
  | S n => match entered with
           | [] => None
           | x :: r => match take_args n r with Some (a, e) => Some (x :: a, e) | None => None end
           end
  end.
(** Ctx.inl:127-136 (the test of :132 never holds). *)
Fixpoint take_opts (n : nat) (entered : list bytes) : list bytes * list bytes :=
  match n with
  | O => ([], entered)
  | S n => match entered with [] => ([], []) | x :: r => let '(a, e) := take_opts n r in (x :: a, e) end
  end.

(** ArgPack.hpp:31-35: values are appended one by one. *)
Fixpoint pack_set (p : pack) (l : list bytes) : pack * cres :=
  match l with
  | [] => (p, CDone)
  | s :: r =>
    match parse (pkind p) s with
    | PVal v => pack_set {| pkind := pkind p; pmin := pmin p; pmax := pmax p; pvals := pvals p ++ [v] |} r
    | PThrow => (p, CThrow (EParse s))
    | PAbort => (p, CAbort)
    end
  end.
(** Ctx.inl:139-165, from pack number [i] on; [last]: index of the last pack. *)
Fixpoint do_packs (ps : list pack) (entered : list bytes) : list pack * list bytes * cres :=
  match ps with
  | [] => ([], entered, CDone)
  | p :: rest =>
    let stop e := (p :: rest, entered, CThrow e) in
    let go toPack entered :=
      match pack_set p toPack with
      | (p, CDone) => let '(rest, entered, r) := do_packs rest entered in (p :: rest, entered, r)
      | (p, r) => (p :: rest, entered, r)
      end in
    if is_infinite p then
      match rest with
      | _ :: _ => stop EPackPosition
      | [] => go entered []
      end
    else if length entered <? pmin p then stop (EPack (pmin p) (pmax p))
    else
      let n := Nat.min (length entered) (pmax p) in
      go (firstn n entered) (skipn n entered)
  end.

(** Cmd.hpp:140-144 and the [set] functions of the elements, for consecutive indices (Ctx.inl:170-178). *)
Section SetAll.
  Context {E : Type} (kind_of : E -> kind) (put : E -> value -> E).
  Fixpoint set_all (es : list E) (vals : list bytes) {struct vals} : list E * cres :=
    match vals with
    | [] => (es, CDone)
    | s :: vals' =>
      match es with
      | [] => (es, CUB)
      | e :: es' =>
        match parse (kind_of e) s with
        | PVal v => let '(es', r) := set_all es' vals' in (put e v :: es', r)
        | PThrow => (es, CThrow (EParse s))
        | PAbort => (es, CAbort)
        end
      end
    end.
End SetAll.
Definition set_arg (a : arg) (v : value) := {| akind := akind a; aval := Some v |}.
Definition set_opt (o : argopt) (v : value) := {| okind := okind o; odefault := odefault o; oval := Some v |}.
Definition set_fv (f : fvalue) (v : value) := {| vshort := vshort f; vlong := vlong f; vkind := vkind f; vval := Some v |}.

(** Cmd.hpp:133-138, :181-184. *)
Fixpoint activate (fs : list flag) (n : bytes) : option (list flag) :=
  match fs with
  | [] => None
  | f :: r =>
    if flag_hasName f n then Some ({| fshort := fshort f; flong := flong f; factive := true |} :: r)
    else option_map (cons f) (activate r n)
  end.
Fixpoint activate_all (fs : list flag) (l : list bytes) : list flag * cres :=
  match l with
  | [] => (fs, CDone)
  | n :: r => match activate fs n with Some fs' => activate_all fs' r | None => (fs, CThrow (EFlagNotFound n)) end
  end.

(** Ctx.inl:60-178 on the selected command. *)
Definition process_cmd (c : cmd) (entered : list bytes) : cmd * cres :=
  match classify c entered {| cF := []; cFV := []; cFVv := []; cFO := []; cFOv := [] |} with
  | (st, CDone) =>
    if negb (length (cFV st) =? length (fvals c)) then (c, CThrow (EFlagValues (length (fvals c))))
    else
      let entered := fold_left eraseRemove (cF st) entered in
      let entered := fold_left eraseRemove (cFV st) entered in
      let entered := fold_left eraseRemove (cFO st) entered in
      match take_args (length (args c)) entered with
      | None => (c, CThrow (EArgs (length (args c))))
      | Some (cArgs, entered) =>
        let '(cOpts, entered) := take_opts (length (opts c)) entered in
        let '(ps, entered, r) := do_packs (packs c) entered in
        let c := {| names := names c; args := args c; opts := opts c; packs := ps; flags := flags c; fvals := fvals c; fopts := fopts c |} in
        match r with
        | CDone =>
          match entered with
          | _ :: _ => (c, CThrow ETooMany)
          | [] =>
            let '(a, r) := set_all akind set_arg (args c) cArgs in
            let c := {| names := names c; args := a; opts := opts c; packs := packs c; flags := flags c; fvals := fvals c; fopts := fopts c |} in
            match r with
            | CDone =>
              let '(o, r) := set_all okind set_opt (opts c) cOpts in
              let c := {| names := names c; args := args c; opts := o; packs := packs c; flags := flags c; fvals := fvals c; fopts := fopts c |} in
              match r with
              | CDone =>
                let '(f, r) := activate_all (flags c) (cF st) in
                let c := {| names := names c; args := args c; opts := opts c; packs := packs c; flags := f; fvals := fvals c; fopts := fopts c |} in
                match r with
                | CDone =>
                  let '(v, r) := set_all vkind set_fv (fvals c) (cFVv st) in
                  let c := {| names := names c; args := args c; opts := opts c; packs := packs c; flags := flags c; fvals := v; fopts := fopts c |} in
                  match r with
                  | CDone =>
                    let '(v, r) := set_all vkind set_fv (fopts c) (cFOv st) in
                    ({| names := names c; args := args c; opts := opts c; packs := packs c; flags := flags c; fvals := fvals c; fopts := v |}, r)
                  | _ => (c, r)
                  end
                | _ => (c, r)
                end
              | _ => (c, r)
              end
            | _ => (c, r)
            end
          end
        | _ => (c, r)
        end
      end
  | (_, r) => (c, r)
  end.

(** Ctx.hpp:20-58. [ran]: the commands whose actions were run, in order ([None]: the main command). *)
Record ctx := { cmds : list cmd; cmdMain : cmd; ran : list (option nat) }.
Fixpoint set_cmd (l : list cmd) (i : nat) (c : cmd) : list cmd :=
  match l, i with [], _ => [] | _ :: r, O => c :: r | x :: r, S i => x :: set_cmd r i c end.
(** Ctx.inl:46-181. *)
Definition process (x : ctx) (tokens : list bytes) : ctx * cres :=
  let useMain := match tokens with [] => true | t :: _ => beginsAsFlag t end in
  if useMain then
    let '(c, r) := process_cmd (cmdMain x) tokens in
    ({| cmds := cmds x; cmdMain := c; ran := match r with CDone => ran x ++ [None] | _ => ran x end |}, r)
  else
    match tokens with
    | [] => (x, CUB)
    | t :: entered =>
      match find_index (fun c => hasName c t) (cmds x) with
      | None => (x, CThrow (ECmdNotFound t (closest t (flat_map names (cmds x)))))
      | Some i =>
        match nth_error (cmds x) i with
        | None => (x, CUB)
        | Some c =>
          let '(c, r) := process_cmd c entered in
          ({| cmds := set_cmd (cmds x) i c; cmdMain := cmdMain x; ran := match r with CDone => ran x ++ [Some i] | _ => ran x end |}, r)
        end
      end
    end.
