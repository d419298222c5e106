(** C61, C62: template expansion. *)
From Coq Require Import String Ascii ZArith NArith Arith Bool Lia List.
From Verif Require Import Common StrModel TplModel TplSpec TplProofs TplExpandProofs TplLoopProofs.
Import ListNotations.

(** Every well-formed template has a meaning, and expanding its text gives exactly that. *)
Theorem C61_erase : forall ts d, tidy d -> (forall t, In t ts -> wf [] t) ->
  (exists out, means_all false [d] false ts out) /\
  forall out, means_all false [d] false ts out -> forall n, getExpanded (2 + n) d (write_all ts) EraseUnexisting = Ok out.
Proof. exact (fun ts d => expansion EraseUnexisting ts d ltac:(discriminate)). Qed.
Print Assumptions C61_erase.

Theorem C61_maintain : forall ts d, tidy d -> (forall t, In t ts -> wf [] t) ->
  (exists out, means_all true [d] false ts out) /\
  forall out, means_all true [d] false ts out -> forall n, getExpanded (2 + n) d (write_all ts) MaintainUnexisting = Ok out.
Proof. exact (fun ts d => expansion MaintainUnexisting ts d ltac:(discriminate)). Qed.
Print Assumptions C61_maintain.

(** Filling a dictionary: setting a key (again) gives it that text; dictionaries added to a section stand there in
    the order of adding, after those already there; nothing else changes. *)
Theorem C61_set_key : forall d k v,
  assoc k (reps (set_rep k v d)) = Some v /\ (forall j, j <> k -> assoc j (reps (set_rep k v d)) = assoc j (reps d)) /\
  sects (set_rep k v d) = sects d.
Proof. exact set_rep_spec. Qed.
Print Assumptions C61_set_key.
Theorem C61_add_sections : forall ds d k, let d' := fold_left (fun d x => add_sect k x d) ds d in
  (ds <> [] -> assoc k (sects d') = Some (match assoc k (sects d) with Some old => old ++ ds | None => ds end)) /\
  (forall j, j <> k -> assoc j (sects d') = assoc j (sects d)) /\ reps d' = reps d.
Proof. exact add_sects_spec. Qed.
Print Assumptions C61_add_sections.
Example C61_filling_example :
  let item v := set_rep (lit "x") v (Dict [] []) in
  let d := set_rep (lit "t") (lit "new") (set_rep (lit "t") (lit "old") (fold_left (fun d x => add_sect (lit "s") x d) [item (lit "1"); item (lit "2"); item (lit "3")] (Dict [] []))) in
  getExpanded 5 d (lit "{{t}}: {{#s}}{{x}}{{*, }}{{/s}}") EraseUnexisting = Ok (lit "new: 1, 2, 3").
Proof. vm_compute. reflexivity. Qed.
(** "Only contents": whether the content of an unknown section is expanded depends on the rest of the text. *)
Theorem C61_only_contents_refuted : exists d k v,
  getExpanded 5 d (write_all [Sect (lit "nope") [Key k]]) MaintainUnexistingOnlyCnt = Ok (write_all [Key k]) /\
  getExpanded 5 d (write_all [Key k; Sect (lit "nope") [Key k]]) MaintainUnexistingOnlyCnt = Ok (v ++ v).
Proof. exact (ex_intro _ (Dict [(lit "x", lit "v")] []) (ex_intro _ (lit "x") (ex_intro _ (lit "v") (conj eq_refl eq_refl)))). Qed.
Print Assumptions C61_only_contents_refuted.

(** A key inside a replacement text is looked up in the outermost dictionary, not in the one the text came from. *)
Theorem C61_nested_text_refuted :
  let d := Dict [(lit "x", lit "outer")] [(lit "s", [Dict [(lit "k", lit "{{x}}"); (lit "x", lit "inner")] []])] in
  getExpanded 5 d (lit "{{#s}}{{k}}{{/s}}") EraseUnexisting = Ok (lit "outer") /\
  getExpanded 5 d (lit "{{#s}}{{x}}{{/s}}") EraseUnexisting = Ok (lit "inner").
Proof. exact (conj eq_refl eq_refl). Qed.
Print Assumptions C61_nested_text_refuted.

(** An escaped brace at the very end of the text comes out twice. *)
Theorem C61_final_escape_refuted : forall d st n, getExpanded (S n) d (lit "a\{") st = Ok (lit "a{{").
Proof. exact (fun d st n => eq_refl). Qed.
Print Assumptions C61_final_escape_refuted.

(** An end tag that merely starts with the section's name trips the assertion. *)
Theorem C61_end_prefix_refuted : forall d st n,
  getExpanded (S n) d (write_all [Sect (lit "a") [Sect (lit "ab") [Txt (lit "x")]]]) st = UB.
Proof. exact (fun d st n => eq_refl). Qed.
Print Assumptions C61_end_prefix_refuted.

(** Keys whose texts lead back to themselves: expansion never ends, whatever the rest of the template. *)
Theorem C62_diverges : forall (K : bytes -> Prop) st d, made (circular K) d -> (forall k, K k -> has d k = true) ->
  forall n ts k, (forall t, In t ts -> wf [] t) -> K k -> In (Key k) ts -> getExpanded n d (write_all ts) st = OutOfFuel.
Proof. exact diverges. Qed.
Print Assumptions C62_diverges.

(** That outcome always means passes that keep replacing, never a stuck pass: for any text at all. *)
Theorem C62_only_by_passes : forall n d src st, getExpanded n d src st = OutOfFuel -> found_passes n d src st.
Proof. exact budget. Qed.
Print Assumptions C62_only_by_passes.

(** Texts that mention only keys of smaller rank: expansion ends after at most two passes more than there are ranks. *)
Theorem C62_terminates : forall rank n st d ts, made (lower rank) d -> (forall k, rank k <= n) -> st <> MaintainUnexistingOnlyCnt ->
  (forall t, In t ts -> wf [] t) -> exists out, forall m, getExpanded (n + 2 + m) d (write_all ts) st = Ok out.
Proof. exact terminates. Qed.
Print Assumptions C62_terminates.

(** ** Concrete cases *)
Definition skills : dict :=
  Dict [(lit "name", lit "Meow")]
       [(lit "skills", [Dict [(lit "skill", lit "meowing")] []; Dict [(lit "skill", lit "jumping")] []; Dict [(lit "skill", lit "dancing")] []])].
Definition hello : list tpl :=
  [Txt (lit "\{{ Hello, my name is "); Key (lit "name"); Txt (lit "."); Key (lit "null"); Txt (lit " My skills are ");
   Sect (lit "skills") [Key (lit "skill"); Sep (lit ", ")]; Txt (lit ".")].
Definition plainb (s : bytes) : bool :=
  (fix go (esc : bool) (s : bytes) : bool :=
    match s with
    | [] => true
    | [c] => negb (Ascii.eqb c lbrace) && negb (Ascii.eqb c backslash)
    | c :: (d :: _) as r => (esc || negb (Ascii.eqb c lbrace && Ascii.eqb d lbrace)) && go (Ascii.eqb c backslash) r
    end) false s.
Lemma plainb_ok : forall s, plainb s = true -> plain s.
Proof.
  intros s H. unfold plainb in H. revert H.
  assert (G : forall s p esc, (esc = true -> exists a', p = a' ++ [backslash]) ->
    (fix go (esc : bool) (s : bytes) : bool :=
    match s with
    | [] => true
    | [c] => negb (Ascii.eqb c lbrace) && negb (Ascii.eqb c backslash)
    | c :: (d :: _) as r => (esc || negb (Ascii.eqb c lbrace && Ascii.eqb d lbrace)) && go (Ascii.eqb c backslash) r
    end) esc s = true -> (forall a b, s = a ++ lbrace :: lbrace :: b -> exists a', p ++ a = a' ++ [backslash]) /\ (forall a, s <> a ++ [lbrace]) /\ (forall a, s <> a ++ [backslash])).
  { clear s. induction s as [|c s IH]; intros p esc He H.
    - repeat split; intros [|? ?]; discriminate.
    - destruct s as [|d s].
      + apply andb_true_iff in H as (H1 & H2). apply negb_true_iff, Ascii.eqb_neq in H1. apply negb_true_iff, Ascii.eqb_neq in H2.
        split; [intros [|? [|? ?]]; discriminate|]. split; intros [|? [|? ?]] E; try discriminate; injection E as E; congruence.
      + apply andb_true_iff in H as (H1 & H2). destruct (IH (p ++ [c]) (Ascii.eqb c backslash)) as (A & B & C); [intros Ec; apply Ascii.eqb_eq in Ec as ->; eauto|exact H2|].
        split; [|split].
        * intros [|x a] b E.
          -- injection E as -> -> ->. rewrite app_nil_r. apply He. destruct esc; [reflexivity|]. cbn in H1. discriminate.
          -- injection E as -> E. destruct (A a b E) as (a' & Ea). exists a'. rewrite <- Ea, <- app_assoc. reflexivity.
        * intros [|x a] E; [discriminate|]. injection E as -> E. now destruct (B a).
        * intros [|x a] E; [discriminate|]. injection E as -> E. now destruct (C a). }
  intros H. destruct (G s [] false) as (A & B); [discriminate|exact H|]. split; [exact A|exact B].
Qed.
Ltac by_computation := match goal with |- plain _ => apply plainb_ok; vm_compute; reflexivity end.
Ltac no_in := let H := fresh in intros H; cbn in H; repeat (destruct H as [H|H]; [discriminate|]); contradiction.
Lemma hello_wf : forall t, In t hello -> wf [] t.
Proof.
  intros t H. repeat (destruct H as [<-|H]); [..|contradiction].
  all: try (constructor; by_computation).
  1, 2: constructor; [split; no_in|cbn; intros [X|[X|[X|[]]]]; discriminate].
  constructor; [split; no_in|intros k []|discriminate|].
  intros t [<-|[<-|[]]]; constructor; try (split; no_in).
  - cbn. intros [X|[X|[X|[]]]]; discriminate.
  - intros [|? [|? [|? ?]]]; discriminate.
Qed.
Lemma skills_tidy : tidy skills.
Proof.
  constructor.
  - intros k v [E|[]]. injection E as <- <-. by_computation.
  - intros k ds d [E|[]] I. injection E as <- <-. repeat (destruct I as [<-|I]); [..|contradiction]; constructor; try (intros k v [E|[]]; injection E as <- <-; by_computation); intros ? ? ? [].
Qed.
Example ex_hello : getExpanded 2 skills (write_all hello) EraseUnexisting = Ok (lit "{{ Hello, my name is Meow. My skills are meowing, jumping, dancing.") /\
  getExpanded 2 skills (write_all hello) MaintainUnexisting = Ok (lit "{{ Hello, my name is Meow.{{null}} My skills are meowing, jumping, dancing.") /\
  means_all false [skills] false hello (lit "{{ Hello, my name is Meow. My skills are meowing, jumping, dancing.").
Proof.
  split; [vm_compute; reflexivity|]. split; [vm_compute; reflexivity|].
  destruct (C61_erase hello skills skills_tidy hello_wf) as ((out & M) & H). specialize (H out M 0). replace (lit _) with out; [exact M|].
  assert (E : getExpanded 2 skills (write_all hello) EraseUnexisting = Ok (lit "{{ Hello, my name is Meow. My skills are meowing, jumping, dancing.")) by (vm_compute; reflexivity).
  cbn [plus] in H. rewrite E in H. injection H as <-. reflexivity.
Qed.
(** A circle of two keys. *)
Definition circle : dict := Dict [(lit "a", lit "<{{b}}>"); (lit "b", lit "{{a}}")] [].
Example ex_circle : forall n, getExpanded n circle (lit "{{a}}") EraseUnexisting = OutOfFuel.
Proof.
  intros n. apply (C62_diverges (fun k => k = lit "a" \/ k = lit "b") EraseUnexisting circle) with (ts := [Key (lit "a")]) (k := lit "a").
  - constructor; [|intros ? ? ? []]. intros k v [E|[E|[]]]; injection E as <- <-.
    + exists [Txt (lit "<"); Key (lit "b"); Txt (lit ">")]. split; [reflexivity|]. split.
      * intros t [<-|[<-|[<-|[]]]]; constructor; try by_computation; [split; no_in|cbn; intros [X|[X|[X|[]]]]; discriminate].
      * intros _. exists (lit "b"). split; [now right|right; now left].
    + exists [Key (lit "a")]. split; [reflexivity|]. split.
      * intros t [<-|[]]; constructor; [split; no_in|cbn; intros [X|[X|[X|[]]]]; discriminate].
      * intros _. exists (lit "a"). split; [now left|now left].
  - intros k [-> | ->]; reflexivity.
  - intros t [<-|[]]; constructor; [split; no_in|cbn; intros [X|[X|[X|[]]]]; discriminate].
  - now left.
  - now left.
Qed.
(** A chain of three. *)
Definition chain : dict := Dict [(lit "step0", lit "{{step1}}"); (lit "step1", lit "{{step2}}"); (lit "step2", lit "end")] [].
Definition step_rank (k : bytes) : nat := if bytes_eqb k (lit "step0") then 2 else if bytes_eqb k (lit "step1") then 1 else 0.
Example ex_chain : getExpanded 4 chain (lit "Test: {{step0}}") EraseUnexisting = Ok (lit "Test: end") /\ made (lower step_rank) chain /\ forall k, step_rank k <= 2.
Proof.
  split; [vm_compute; reflexivity|]. split.
  - constructor; [|intros ? ? ? []]. intros k v [E|[E|[E|[]]]]; injection E as <- <-.
    + exists [Key (lit "step1")]. split; [reflexivity|]. split; [intros t [<-|[]]; constructor; [split; no_in|cbn; intros [X|[X|[X|[]]]]; discriminate]|]. intros t [<-|[]]. vm_compute. lia.
    + exists [Key (lit "step2")]. split; [reflexivity|]. split; [intros t [<-|[]]; constructor; [split; no_in|cbn; intros [X|[X|[X|[]]]]; discriminate]|]. intros t [<-|[]]. vm_compute. lia.
    + exists [Txt (lit "end")]. split; [reflexivity|]. split; [intros t [<-|[]]; constructor; by_computation|]. intros t [<-|[]]. exact I.
  - intros k. unfold step_rank. destruct (bytes_eqb k (lit "step0")), (bytes_eqb k (lit "step1")); lia.
Qed.
