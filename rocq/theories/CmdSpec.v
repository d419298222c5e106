(** What processing a command line should do, stated without the processing functions. *)
From Coq Require Import String Ascii ZArith NArith Arith Bool Lia List.
From Verif Require Import Common CmdModel LevSpec.
Import ListNotations.
Local Open Scope nat_scope.

(** ** Kinds of tokens *)
Definition dashed (t : bytes) : bool := match t with c :: _ => Ascii.eqb c "-" | [] => false end.
Definition has_eq (t : bytes) : bool := existsb (fun c => Ascii.eqb c "=") t.
(** [t] is [n=v], split at the first '='. *)
Definition assigns (t n v : bytes) : Prop := t = n ++ lit "=" ++ v /\ has_eq n = false.
Definition plain (ts : list bytes) : list bytes := filter (fun t => negb (dashed t)) ts.
Definition bare (ts : list bytes) : list bytes := filter (fun t => dashed t && negb (has_eq t)) ts.

(** ** Reading a value *)
Fixpoint decimal (s : bytes) : Z :=
  match s with [] => 0 | c :: r => (Z.of_N (N_of_ascii c) - 48) * 10 ^ Z.of_nat (length r) + decimal r end%Z.
Definition digit (c : ascii) : Prop := (48 <= N_of_ascii c <= 57)%N.
Definition blank (c : ascii) : Prop := N_of_ascii c = 32%N \/ (9 <= N_of_ascii c <= 13)%N.
Inductive int_text : bytes -> Z -> Prop :=
| it_make : forall blanks sign ds rest z,
    Forall blank blanks -> Forall digit ds -> ds <> [] ->
    match rest with c :: _ => ~ digit c | [] => True end ->
    ((sign = [] \/ sign = lit "+") /\ z = decimal ds \/ sign = lit "-" /\ z = (- decimal ds)%Z) ->
    (-2147483648 <= z <= 2147483647)%Z ->
    int_text (blanks ++ sign ++ ds ++ rest) z.
(** [same_letters s w]: [s] is the lower-case word [w] up to the case of ASCII letters. *)
Definition same_letter (c l : ascii) : Prop :=
  c = l \/ (97 <= N_of_ascii l <= 122)%N /\ N_of_ascii c = (N_of_ascii l - 32)%N.
Definition one_of (s : bytes) (ws : list bytes) : Prop := exists w, In w ws /\ Forall2 same_letter s w.
Inductive parses : kind -> bytes -> value -> Prop :=
| p_str : forall s, parses KStr s (VStr s)
| p_int : forall s z, int_text s z -> parses KInt s (VInt z)
| p_true : forall s, one_of s [lit "y"; lit "yes"; lit "on"; lit "true"; lit "1"] -> parses KBool s (VBool true)
| p_false : forall s, one_of s [lit "n"; lit "no"; lit "off"; lit "false"; lit "0"] -> parses KBool s (VBool false).

(** ** Distribution of tokens *)
(** [assigned R es ts es']: the first elements take the tokens in order, the others keep their state. *)
Inductive assigned {E} (R : E -> bytes -> E -> Prop) : list E -> list bytes -> list E -> Prop :=
| as_nil : forall es, assigned R es [] es
| as_cons : forall e t e' es ts es', R e t e' -> assigned R es ts es' -> assigned R (e :: es) (t :: ts) (e' :: es').
Definition arg_gets (a : arg) (t : bytes) (a' : arg) : Prop :=
  akind a' = akind a /\ exists v, parses (akind a) t v /\ aval a' = Some v.
Definition opt_gets (o : argopt) (t : bytes) (o' : argopt) : Prop :=
  okind o' = okind o /\ odefault o' = odefault o /\ exists v, parses (okind o) t v /\ oval o' = Some v.
Definition fv_gets (f : fvalue) (t : bytes) (f' : fvalue) : Prop :=
  vshort f' = vshort f /\ vlong f' = vlong f /\ vkind f' = vkind f /\ exists v, parses (vkind f) t v /\ vval f' = Some v.
(** [dealt ps ts gs]: the packs take the groups [gs], which make up [ts]: a bounded pack takes as many as it can,
    at least its minimum; an unbounded one (both bounds 0) can only be the last. *)
Inductive dealt : list pack -> list bytes -> list (list bytes) -> Prop :=
| d_nil : dealt [] [] []
| d_rest : forall p ts, pmin p = 0 -> pmax p = 0 -> dealt [p] ts [ts]
| d_some : forall p ps g ts gs, (pmin p <> 0 \/ pmax p <> 0) -> pmin p <= length (g ++ ts) ->
    (length g = pmax p \/ length g < pmax p /\ ts = []) -> dealt ps ts gs -> dealt (p :: ps) (g ++ ts) (g :: gs).
Inductive packs_get : list pack -> list (list bytes) -> list pack -> Prop :=
| pg_nil : packs_get [] [] []
| pg_cons : forall p g p' ps gs ps' vs, pkind p' = pkind p -> pmin p' = pmin p -> pmax p' = pmax p ->
    Forall2 (parses (pkind p)) g vs -> pvals p' = pvals p ++ vs ->
    packs_get ps gs ps' -> packs_get (p :: ps) (g :: gs) (p' :: ps').

(** ** Flags *)
Definition flag_named (f : flag) (n : bytes) : Prop := n = fshort f \/ n = flong f.
(** Flag number [i] is the first one named [n]. *)
Definition first_flag (fs : list flag) (n : bytes) (i : nat) : Prop :=
  (exists f, nth_error fs i = Some f /\ flag_named f n) /\
  forall j g, j < i -> nth_error fs j = Some g -> ~ flag_named g n.
Definition flags_given (fs : list flag) (ts : list bytes) (fs' : list flag) : Prop :=
  length fs' = length fs /\
  (forall t, In t ts -> exists i, first_flag fs t i) /\
  (forall i f f', nth_error fs i = Some f -> nth_error fs' i = Some f' ->
     fshort f' = fshort f /\ flong f' = flong f /\
     (factive f' = true <-> factive f = true \/ exists t, In t ts /\ first_flag fs t i)).
(** The tokens [--name=value] for optional flag values, and all the others, with their values in order. *)
Definition fv_named (f : fvalue) (n : bytes) : Prop := n = vshort f \/ n = vlong f.
Inductive values_given (os : list fvalue) : list bytes -> list bytes -> list bytes -> Prop :=
| vg_nil : values_given os [] [] []
| vg_skip : forall t ts r o, dashed t = false \/ has_eq t = false -> values_given os ts r o -> values_given os (t :: ts) r o
| vg_opt : forall t n v ts r o f, dashed t = true -> assigns t n v -> In f os -> fv_named f n ->
    values_given os ts r o -> values_given os (t :: ts) r (v :: o)
| vg_req : forall t n v ts r o, dashed t = true -> assigns t n v -> (forall f, In f os -> ~ fv_named f n) ->
    values_given os ts r o -> values_given os (t :: ts) (v :: r) o.

(** ** A command accepts the tokens and becomes [c'] *)
Record accepts (c : cmd) (ts : list bytes) (c' : cmd) : Prop := {
  acc_names : names c' = names c;
  (** required arguments, optional arguments and packs share the plain tokens, in this order *)
  acc_plain : exists a o p gs,
    plain ts = a ++ o ++ p /\
    length a = length (args c) /\
    (length o = length (opts c) \/ length o < length (opts c) /\ p = []) /\
    assigned arg_gets (args c) a (args c') /\
    assigned opt_gets (opts c) o (opts c') /\
    dealt (packs c) p gs /\ packs_get (packs c) gs (packs c');
  acc_flags : length (bare ts) <= length (flags c) /\ flags_given (flags c) (bare ts) (flags c');
  acc_values : exists r o, values_given (fopts c) ts r o /\
    length r = length (fvals c) /\ length o <= length (fopts c) /\
    assigned fv_gets (fvals c) r (fvals c') /\ assigned fv_gets (fopts c) o (fopts c') }.

(** ** Choice of the command *)
Inductive selected (x : ctx) : list bytes -> option nat -> cmd -> list bytes -> Prop :=
| sel_main : forall ts, match ts with [] => True | t :: _ => dashed t = true end -> selected x ts None (cmdMain x) ts
| sel_cmd : forall t ts i c, dashed t = false -> nth_error (cmds x) i = Some c -> In t (names c) ->
    (forall j d, j < i -> nth_error (cmds x) j = Some d -> ~ In t (names d)) -> selected x (t :: ts) (Some i) c ts.
(** [x'] is [x] with the selected command replaced by [c'] (and [ran] left open). *)
Definition updated (x : ctx) (sel : option nat) (c' : cmd) (x' : ctx) : Prop :=
  match sel with
  | None => cmdMain x' = c' /\ cmds x' = cmds x
  | Some i => cmdMain x' = cmdMain x /\ length (cmds x') = length (cmds x) /\ nth_error (cmds x') i = Some c' /\
              forall j, j <> i -> nth_error (cmds x') j = nth_error (cmds x) j
  end.
(** [s] is one of the names, at the least edit distance from [t]. *)
Definition nearest (ns : list bytes) (t s : bytes) : Prop :=
  In s ns /\ exists d, edits d s t /\ forall n k, In n ns -> edits k n t -> d <= k.

(** ** What each error says *)
(** [s] is a token, or the value part of a token [name=s]. *)
Definition mentioned (ts : list bytes) (s : bytes) : Prop := In s ts \/ exists t n, In t ts /\ assigns t n s.
Definition total (l : list nat) : nat := fold_right plus 0 l.
Definition error_means (c : cmd) (ts : list bytes) (e : error) : Prop :=
  match e with
  | EFlagNotFound n => In n (bare ts) /\ forall f, In f (flags c) -> ~ flag_named f n
  | ECmdNotFound _ _ => False
  | EFlags k => k = length (flags c) /\ k < length (bare ts)
  | EFlagValuesOpt k => k = length (fopts c) /\ exists r o, values_given (fopts c) ts r o /\ k < length o
  | EFlagValues k => k = length (fvals c) /\ exists r o, values_given (fopts c) ts r o /\ k <> length r
  | EArgs k => k = length (args c) /\ length (plain ts) < k
  | EPackPosition => exists ps p q qs, packs c = ps ++ p :: q :: qs /\ pmin p = 0 /\ pmax p = 0
  | EPack mn mx => exists ps p qs, packs c = ps ++ p :: qs /\ pmin p = mn /\ pmax p = mx /\
      length (plain ts) < length (args c) + length (opts c) + total (map pmax ps) + mn
  | ETooMany => length (args c) + length (opts c) + total (map pmax (packs c)) < length (plain ts)
  | EParse s => mentioned ts s /\ (forall v, ~ parses KBool s v)
  end.
