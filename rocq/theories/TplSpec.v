(** Template trees and what they stand for. *)
From Coq Require Import String Ascii ZArith NArith Arith Bool Lia List.
From Verif Require Import Common StrModel TplModel.
Import ListNotations.

Inductive tpl :=
| Txt (s : bytes)                     (* literal text *)
| Key (k : bytes)                     (* {{k}} *)
| Sep (s : bytes)                     (* {{*s}} *)
| Sect (k : bytes) (body : list tpl). (* {{#k}}body{{/k}} *)
(** How a template is written. *)
Definition opening : bytes := [lbrace; lbrace].
Definition closing : bytes := [rbrace; rbrace].
Fixpoint write (t : tpl) : bytes :=
  match t with
  | Txt s => s
  | Key k => opening ++ k ++ closing
  | Sep s => opening ++ "*"%char :: s ++ closing
  | Sect k body => opening ++ "#"%char :: k ++ closing ++ flat_map write body ++ opening ++ "/"%char :: k ++ closing
  end.
Definition write_all (ts : list tpl) : bytes := flat_map write ts.

(** Literal text: every "{{" follows a backslash; it does not end in a brace or backslash. *)
Definition plain (s : bytes) : Prop :=
  (forall a b, s = a ++ lbrace :: lbrace :: b -> exists a', a = a' ++ [backslash]) /\
  (forall a, s <> a ++ [lbrace]) /\ (forall a, s <> a ++ [backslash]).
Definition no_braces (s : bytes) : Prop := ~ In lbrace s /\ ~ In rbrace s.
(** Well-formed inside sections named [ks]: names have no braces, keys do not start like another kind of tag, the name of an
    enclosing section is not a prefix of a section's name, and a section's content does not start with a closing brace. *)
Inductive wf (ks : list bytes) : tpl -> Prop :=
| wf_txt : forall s, plain s -> wf ks (Txt s)
| wf_key : forall k, no_braces k -> ~ In (hd lbrace k) ["#"; "*"; "/"]%char -> wf ks (Key k)
| wf_sep : forall s, no_braces s -> (forall a, s <> a ++ [backslash]) -> wf ks (Sep s)
| wf_sect : forall k body, no_braces k -> (forall k', In k' ks -> prefixb k' k = false) -> hd lbrace (write_all body) <> rbrace ->
    (forall t, In t body -> wf (k :: ks) t) -> wf ks (Sect k body).
(** All replacement texts, at any depth, are literal text. *)
Inductive tidy : dict -> Prop :=
| tidy_dict : forall r s, (forall k v, In (k, v) r -> plain v) -> (forall k ds d, In (k, ds) s -> In d ds -> tidy d) -> tidy (Dict r s).

(** Text with "\{" read as "{". *)
Fixpoint unescape (s : bytes) : bytes :=
  match s with
  | a :: (b :: _) as r => if Ascii.eqb a backslash && Ascii.eqb b lbrace then unescape r else a :: unescape r
  | s => s
  end.
(** Kept as written, but for the escapes. *)
Fixpoint show (t : tpl) : bytes :=
  match t with
  | Txt s => unescape s
  | Key k => opening ++ k ++ closing
  | Sep s => opening ++ "*"%char :: s ++ closing
  | Sect k body => opening ++ "#"%char :: k ++ closing ++ flat_map show body ++ opening ++ "/"%char :: k ++ closing
  end.
(** The innermost enclosing dictionary that has the key.  [env]: innermost first. *)
Definition innermost (env : list dict) (k v : bytes) : Prop :=
  exists e1 d e2, env = e1 ++ d :: e2 /\ assoc k (reps d) = Some v /\ forall d', In d' e1 -> assoc k (reps d') = None.
(** The innermost enclosing dictionary with a non-empty section of that name; [env'] is that dictionary and its parents. *)
Definition innermost_section (env : list dict) (k : bytes) (ds env' : list dict) : Prop :=
  exists e1 d e2, env = e1 ++ d :: e2 /\ env' = d :: e2 /\ assoc k (sects d) = Some ds /\ ds <> [] /\
    forall d', In d' e1 -> assoc k (sects d') = None \/ assoc k (sects d') = Some [].
(** What a template stands for.  [keep]: unknown keys and sections are kept; [sep]: a separator is wanted here. *)
Inductive means (keep : bool) : list dict -> bool -> tpl -> bytes -> Prop :=
| m_txt : forall env sep s, means keep env sep (Txt s) (unescape s)
| m_key : forall env sep k v, innermost env k v -> means keep env sep (Key k) (unescape v)
| m_key_unknown : forall env sep k, (forall v, ~ innermost env k v) -> means keep env sep (Key k) (if keep then show (Key k) else [])
| m_sep : forall env sep s, means keep env sep (Sep s) (if sep then s else [])
| m_sect : forall env sep k body ds env' out, innermost_section env k ds env' -> means_each keep env' ds body out ->
    means keep env sep (Sect k body) out
| m_sect_unknown : forall env sep k body, (forall ds env', ~ innermost_section env k ds env') ->
    means keep env sep (Sect k body) (if keep then show (Sect k body) else [])
with means_all (keep : bool) : list dict -> bool -> list tpl -> bytes -> Prop :=
| ma_nil : forall env sep, means_all keep env sep [] []
| ma_cons : forall env sep t ts a b, means keep env sep t a -> means_all keep env sep ts b -> means_all keep env sep (t :: ts) (a ++ b)
(** The content once per dictionary, with separators in all but the last. *)
with means_each (keep : bool) : list dict -> list dict -> list tpl -> bytes -> Prop :=
| me_last : forall env' d body a, means_all keep (d :: env') false body a -> means_each keep env' [d] body a
| me_more : forall env' d d' ds body a b, means_all keep (d :: env') true body a -> means_each keep env' (d' :: ds) body b ->
    means_each keep env' (d :: d' :: ds) body (a ++ b).

(** All replacement texts, at any depth, are themselves written templates; [Q] relates a key to the template of its text. *)
Inductive made (Q : bytes -> list tpl -> Prop) : dict -> Prop :=
| made_dict : forall r s,
    (forall k v, In (k, v) r -> exists vs, v = write_all vs /\ (forall t, In t vs -> wf [] t) /\ Q k vs) ->
    (forall k ds d, In (k, ds) s -> In d ds -> made Q d) -> made Q (Dict r s).
(** Texts made of literal text and keys of smaller rank only. *)
Definition lower (rank : bytes -> nat) (k : bytes) (vs : list tpl) : Prop :=
  forall t, In t vs -> match t with Txt _ => True | Key k' => rank k' < rank k | _ => False end.
(** Texts of keys in [K] mention a key in [K]. *)
Definition circular (K : bytes -> Prop) (k : bytes) (vs : list tpl) : Prop := K k -> exists k', K k' /\ In (Key k') vs.

(** Each of the first [n] passes over the text replaces something. *)
Fixpoint found_passes (n : nat) (d : dict) (src : bytes) (st : settings) : Prop :=
  match n with
  | O => True
  | S n => exists buf, expand (S (length src)) src st [d] false 0 (length src) [] false = Ok (buf, true) /\ found_passes n d buf st
  end.
