(** How help texts are to be read. *)
From Coq Require Import String Ascii ZArith NArith Arith Bool List.
From Verif Require Import Common IntToStrModel IntToStrSpec HelpModel.
Import ListNotations.
Local Open Scope nat_scope.

(** The lines of a text. *)
Fixpoint lines (s : bytes) : list bytes :=
  match s with
  | [] => [[]]
  | c :: r => if Ascii.eqb c (ch 10) then [] :: lines r
              else match lines r with l :: ls => (c :: l) :: ls | [] => [[c]] end
  end.
(** The lines that begin with [m], without it. *)
Fixpoint after (m s : bytes) : option bytes :=
  match m, s with
  | [], _ => Some s
  | c :: m', d :: s' => if Ascii.eqb c d then after m' s' else None
  | _, [] => None
  end.
Fixpoint marked (m : bytes) (ls : list bytes) : list bytes :=
  match ls with [] => [] | l :: r => match after m l with Some t => t :: marked m r | None => marked m r end end.

(** The numbers [std::size_t] can hold, and those its conversion to text survives (C07). *)
Definition size_ok (n : Z) : Prop := (0 <= n < 2 ^ 64)%Z.
Definition small (n : Z) : Prop := (0 <= n < 10 ^ 18)%Z.
Definition bounds (P : Z -> Prop) (e : element) : Prop := match eshape e with SPack a b => P a /\ P b | _ => True end.

(** The usage text of an element. *)
Inductive shows : element -> bytes -> Prop :=
| sh_arg : forall n b d, shows {| ename := n; ebrief := b; edesc := d; eshape := SArg |} (lit "(ARG " ++ n ++ lit ")")
| sh_opt : forall n b d, shows {| ename := n; ebrief := b; edesc := d; eshape := SArgOpt |} (lit "(ARGOPT " ++ n ++ lit ")")
| sh_pack : forall n b d x y s t, decimal x s -> decimal y t -> (x <> 0 \/ y <> 0)%Z ->
    shows {| ename := n; ebrief := b; edesc := d; eshape := SPack x y |} (lit "(PACK " ++ n ++ lit " [" ++ s ++ lit "/" ++ t ++ lit "])")
| sh_any : forall n b d,
    shows {| ename := n; ebrief := b; edesc := d; eshape := SPack 0 0 |} (lit "(PACK " ++ n ++ lit " [0/...])")
| sh_flag : forall n b d s l, shows {| ename := n; ebrief := b; edesc := d; eshape := SFlag s l |}
    (lit "[-" ++ s ++ lit " || --" ++ l ++ lit "]")
| sh_value : forall n b d s l, shows {| ename := n; ebrief := b; edesc := d; eshape := SFlagValue s l |}
    (lit "[-" ++ s ++ lit "=(...) || --" ++ l ++ lit "=(...)]")
| sh_value_opt : forall n b d s l, shows {| ename := n; ebrief := b; edesc := d; eshape := SFlagValueOpt s l |}
    (lit "[OPT -" ++ s ++ lit "=(...) || OPT --" ++ l ++ lit "=(...)]").

(** Flag names that can be typed: no blank and no '=' in them. *)
Definition word (s : bytes) : Prop := ~ In " "%char s /\ ~ In "="%char s.
Definition tidy (e : element) : Prop :=
  match eshape e with SFlag s l | SFlagValue s l | SFlagValueOpt s l => word s /\ word l | _ => True end.
(** One line. *)
Definition line (s : bytes) : Prop := ~ In (ch 10) s.
Definition on_lines (e : element) : Prop :=
  line (ename e) /\ line (ebrief e) /\ line (edesc e) /\
  match eshape e with SFlag s l | SFlagValue s l | SFlagValueOpt s l => line s /\ line l | _ => True end.
Definition described (e : element) : Prop := ename e <> [] /\ ebrief e <> [] /\ edesc e <> [].
(** The texts of an element that are not empty. *)
Definition texts (e : element) : list bytes :=
  filter (fun t => match t with [] => false | _ => true end) [ename e; ebrief e; edesc e].

(** The six sections: their titles and elements. *)
Definition section_of (e : element) : nat :=
  match eshape e with SArg => 0 | SArgOpt => 1 | SPack _ _ => 2 | SFlag _ _ => 3 | SFlagValue _ _ => 4 | SFlagValueOpt _ _ => 5 end.
Definition title (k : nat) : bytes :=
  nth k [lit "Required arguments:"; lit "Optional arguments:"; lit "Argument packs:"; lit "Flags:"; lit "Flag values:"; lit "Optional flag values:"] [].
Definition section (c : command) (k : nat) : list element := filter (fun e => section_of e =? k) (celems c).
Definition listed (c : command) : list element := flat_map (section c) (seq 0 6).
(** The sections that are not empty. *)
Definition present (c : command) : list nat := filter (fun k => match section c k with [] => false | _ => true end) (seq 0 6).

(** Problems with numbers that can be printed, and a name of a command that can be told from what follows. *)
Definition printable (P : Z -> Prop) (p : problem) : Prop :=
  match p with
  | Flags n | OptionalFlagValues n | RequiredFlagValues n | Args n => P n
  | PackCount _ a b => P a /\ P b
  | _ => True
  end.
Definition plain_problem (p : problem) : Prop := match p with NoCommand n _ => ~ In ">"%char n | _ => True end.
