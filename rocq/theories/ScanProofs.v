(** Lemmas on folder scans. *)
From Coq Require Import String Ascii ZArith NArith Arith Bool Lia List Sorted Permutation.
Import ListNotations.
From Verif Require Import Common StrModel StrProofs StrProps PathModel PathSpec PathProofs.
Local Open Scope char_scope.
Local Open Scope nat_scope.

(** ** Sorting *)
Lemma text_le_cons : forall c a b, text_le a b -> text_le (c :: a) (c :: b).
Proof.
  intros c a b [[t E]|(p & x & y & a' & b' & E1 & E2 & L)].
  - left. exists t. now rewrite E.
  - right. exists (c :: p), x, y, a', b'. subst. now repeat split.
Qed.
Lemma str_lt_le : forall a b, str_lt a b = true -> text_le a b.
Proof.
  induction a as [|c a IH]; intros [|d b] H; try discriminate; cbn in H.
  - left. now exists (d :: b).
  - destruct (N_of_ascii c <? N_of_ascii d)%N eqn:L.
    + right. exists [], c, d, a, b. repeat split. now apply N.ltb_lt.
    + destruct (N_of_ascii d <? N_of_ascii c)%N eqn:G; [discriminate|].
      apply N.ltb_ge in L, G. assert (N_of_ascii c = N_of_ascii d) as E by lia.
      assert (c = d) as -> by (rewrite <- (ascii_N_embedding c), E; apply ascii_N_embedding).
      apply text_le_cons. now apply IH.
Qed.
Lemma str_lt_ge : forall a b, str_lt a b = false -> text_le b a.
Proof.
  induction a as [|c a IH]; intros [|d b] H; try discriminate; cbn in H.
  - left. now exists [].
  - left. now exists (c :: a).
  - destruct (N_of_ascii c <? N_of_ascii d)%N eqn:L; [discriminate|].
    destruct (N_of_ascii d <? N_of_ascii c)%N eqn:G.
    + right. exists [], d, c, b, a. repeat split. now apply N.ltb_lt.
    + apply N.ltb_ge in L, G. assert (N_of_ascii c = N_of_ascii d) as E by lia.
      assert (c = d) as -> by (rewrite <- (ascii_N_embedding c), E; apply ascii_N_embedding).
      apply text_le_cons. now apply IH.
Qed.
Lemma ins_perm : forall x l, Permutation (ins x l) (x :: l).
Proof.
  induction l as [|y l IH]; [constructor; constructor|]. cbn. destruct (str_lt y x); [|reflexivity].
  rewrite IH. apply perm_swap.
Qed.
Lemma sort_perm : forall l, Permutation (sort l) l.
Proof. induction l as [|x l IH]; [constructor|]. cbn. rewrite ins_perm. now constructor. Qed.
Lemma ins_hd : forall y x l, HdRel text_le y l -> text_le y x -> HdRel text_le y (ins x l).
Proof. intros y x l H L. destruct l as [|z l]; cbn; [now constructor|]. destruct (str_lt z x); constructor; [now inversion H|exact L]. Qed.
Lemma ins_sorted : forall x l, Sorted text_le l -> Sorted text_le (ins x l).
Proof.
  induction l as [|y l IH]; intros H; cbn; [now repeat constructor|].
  inversion H as [|? ? H1 H2]; subst. destruct (str_lt y x) eqn:E.
  - constructor; [now apply IH|]. apply ins_hd; [exact H2|now apply str_lt_le].
  - constructor; [exact H|]. constructor. now apply str_lt_ge.
Qed.
Lemma sort_sorted : forall l, Sorted text_le (sort l).
Proof. induction l as [|x l IH]; [constructor|]. cbn. now apply ins_sorted. Qed.

(** ** One folder *)
Definition wanted (pk : spick) (desired name : bytes) : Prop :=
  match pk with
  | PAny => True
  | PByExt => exists x, name = x ++ desired
  | PByName => name = desired
  end.
Lemma picks_spec : forall pk name desired, exists b, picks pk name desired = Ok b /\ (b = true <-> wanted pk desired name).
Proof.
  intros [| |] name desired; cbn.
  - exists true. now split.
  - destruct (C19_endsWith name desired) as (b & E & H). exists b. now split.
  - exists (bytes_eqb name desired). split; [reflexivity|]. apply bytes_eqb_eq.
Qed.

Lemma cstr_id : forall s, ~ In (ch 0) s -> cstr s = s.
Proof.
  induction s as [|c s IH]; intros H; [reflexivity|]. cbn [cstr].
  rewrite eqb_neq' by (intros ->; apply H; now left). f_equal. apply IH. intros K. apply H. now right.
Qed.
Lemma existsFolder_iff : forall stat s, ~ In (ch 0) s -> (existsFolder stat s = true <-> stat s = Some KFolder).
Proof.
  intros stat s H. unfold existsFolder. rewrite cstr_id by exact H. destruct (stat s) as [[| |]|]; split; congruence.
Qed.

Lemma app_two : forall (d n a b : bytes), d ++ n = a ++ b ->
  (exists t, a = d ++ t /\ n = t ++ b) \/ (exists t, d = a ++ t /\ b = t ++ n).
Proof.
  induction d as [|x d IH]; intros n a b E.
  - left. now exists a.
  - destruct a as [|y a].
    + right. exists (x :: d). cbn in *. now rewrite E.
    + cbn in E. injection E as -> E. destruct (IH n a b E) as [(t & -> & ->)|(t & -> & ->)].
      * left. now exists t.
      * right. now exists t.
Qed.
Lemma clean_app_name : forall d n, clean d -> ~ In "/" n -> ~ In (ch 92) n -> clean (d ++ n).
Proof.
  intros d n [D1 D2] N1 N2. split.
  - intros H. apply in_app_or in H. destruct H; contradiction.
  - intros a b E. destruct (app_two _ _ _ _ E) as [(t & -> & ->)|(t & E1 & E2)].
    + apply N1. apply in_or_app. right. now left.
    + destruct t as [|x t]; [cbn in E2; subst n; apply N1; now left|].
      injection E2 as <- E2. destruct t as [|y t]; [cbn in E2; subst n; apply N1; now left|].
      injection E2 as <- E2. now apply (D2 a t).
Qed.
Lemma ends_slash_name : forall d n, n <> [] -> ~ In "/" n -> ends_slash (d ++ n) = false.
Proof.
  intros d n Nn N. destruct n as [|c n _] using rev_ind; [contradiction|].
  unfold ends_slash. rewrite app_assoc, rev_app_distr. cbn. apply eqb_neq'. intros ->. apply N.
  apply in_or_app. right. now left.
Qed.
Lemma no_nul_app : forall (a b : bytes), ~ In (ch 0) a -> ~ In (ch 0) b -> ~ In (ch 0) (a ++ b).
Proof. intros a b A B H. apply in_app_or in H. tauto. Qed.

Lemma suffix_dots : forall s b, endsWith (s ++ ["/"]) (lit "./") = Ok b -> (b = true <-> exists x, s = x ++ ["."]).
Proof.
  intros s b H. destruct (C19_endsWith (s ++ ["/"]) (lit "./")) as (b' & E & K). rewrite H in E. injection E as <-.
  rewrite K. change (lit "./") with (["."] ++ ["/"]). split.
  - intros [t T]. rewrite app_assoc in T. apply app_inj_tail in T. destruct T as [-> _]. now exists t.
  - intros [x ->]. exists x. now rewrite app_assoc.
Qed.
Lemma dots_folder : forall s, exists b, isRootOrParent (s ++ ["/"]) = Ok b /\ (b = true <-> exists x, s = x ++ ["."]).
Proof.
  intros s. unfold isRootOrParent. destruct (C19_endsWith (s ++ ["/"]) (lit "./")) as (b & E & K).
  pose proof (suffix_dots s b E) as S0. rewrite E. cbn [obind]. destruct b.
  - exists true. split; [reflexivity|exact S0].
  - destruct (C19_endsWith (s ++ ["/"]) (lit "../")) as (b2 & E2 & K2). exists b2. split; [exact E2|].
    rewrite K2. split.
    + intros [t T]. exfalso. change (lit "../") with (["."] ++ lit "./") in T. rewrite app_assoc in T.
      assert (false = true) as X by (apply K; eexists; exact T). discriminate.
    + intros X. exfalso. assert (false = true) by (now apply S0). discriminate.
Qed.
Lemma dots_file : forall s, ends_slash s = false -> isRootOrParent s = Ok false.
Proof.
  intros s H. unfold isRootOrParent.
  assert (G : forall p, endsWith s (p ++ ["/"]) = Ok false).
  { intros p. destruct (C19_endsWith s (p ++ ["/"])) as (b & E & K). rewrite E. f_equal. destruct b; [|reflexivity].
    destruct (proj1 K eq_refl) as [t T]. subst s. rewrite app_assoc in H.
    change "/" with slash in H. now rewrite ends_slash_app in H. }
  change (lit "./") with (["."] ++ ["/"]). change (lit "../") with ([".";"."] ++ ["/"]). now rewrite !G.
Qed.
Lemma ends_dot_app : forall d n, n <> [] -> ((exists x, d ++ n = x ++ ["."]) <-> exists x, n = x ++ ["."]).
Proof.
  intros d n Nn. destruct n as [|c n _] using rev_ind; [contradiction|]. split; intros [x E].
  - rewrite app_assoc in E. apply app_inj_tail in E. destruct E as [_ ->]. now exists n.
  - apply app_inj_tail in E. destruct E as [_ ->]. exists (d ++ n). now rewrite app_assoc.
Qed.

Lemma normal_folder_slash : forall stat s t, normalText stat s = Ok t -> existsFolder stat t = true -> ends_slash t = true.
Proof.
  intros stat s t H F. destruct (ends_slash t) eqn:E; [reflexivity|]. exfalso.
  destruct (normal_result stat s t H) as [C I]. rewrite (normalText_clean stat t C) in I. rewrite E, F in I. cbn in I.
  injection I as I. apply (f_equal (@length _)) in I. rewrite app_length in I. cbn in I. lia.
Qed.

(** The loop over the entries, as a definition of its own. *)
Definition each (rec : list bytes -> bytes -> outcome (list bytes * bytes)) stat m ty pk desired (dir : option bytes) :=
  fix each (entries : list bytes) (target : list bytes) (buf : bytes) : outcome (list bytes * bytes) :=
    match entries with
    | [] => Ok (target, buf)
    | name :: rest =>
        obind (normalText stat (match dir with Some d => d | None => [] end ++ name)) (fun p =>
        obind (isRootOrParent p) (fun dots =>
        if dots then each rest target p
        else if existsFolder stat p then
          let target1 := if wantsFolders ty then target ++ [p] else target in
          match m with
          | Single => each rest target1 p
          | Recurse => obind (rec target1 p) (fun '(target2, buf2) => each rest target2 buf2)
          end
        else if wantsFiles ty then
          obind (picks pk name desired) (fun yes => each rest (if yes then target ++ [p] else target) p)
        else each rest target p))
    end.
Lemma scan_S : forall fuel stat ls m ty pk so desired target src buf,
  scan (S fuel) stat ls m ty pk so desired target src buf =
  obind (normalText stat (match src with Some t => t | None => buf end)) (fun dir =>
    if existsFolder stat dir then
      obind (each (fun t b => scan fuel stat ls m ty pk so desired t None b) stat m ty pk desired
               (match src with Some _ => Some dir | None => None end)
               (ls dir) target (match src with Some _ => buf | None => dir end))
        (fun '(target', buf') => Ok (match so with SNone => target' | SAlphabetic => sort target' end, buf'))
    else Throw "Directory not found"%string).
Proof. intros. destruct src; reflexivity. Qed.

Section One.
Variables (stat : fsys) (m : smode) (ty : stype) (pk : spick) (desired : bytes) (od : option bytes).
Let dir : bytes := match od with Some d => d | None => [] end.
Hypothesis slashes : forall p, stat p = Some KFolder -> stat (p ++ ["/"]) = Some KFolder.
Hypothesis dirc : clean dir.
Hypothesis dir0 : ~ In (ch 0) dir.

Definition isf (p : bytes) : Prop := stat p = Some KFolder.

(** Not entered: the scan is not recursive, or the entry is not a folder it would go into. *)
Definition stays (name : bytes) : Prop := m = Single \/ (isf (dir ++ name) -> exists x, name = x ++ ["."]).

Lemma one_entry : forall rec rest name target buf, plain_name name -> stays name -> exists l buf',
  found isf (wantsFolders ty) (wantsFiles ty) (wanted pk desired) dir name l /\
  each rec stat m ty pk desired od (name :: rest) target buf =
  each rec stat m ty pk desired od rest (target ++ l) buf'.
Proof.
  intros rec rest name target buf (Nn & N1 & N2 & N3) St.
  cbn [each]. fold dir. pose proof (clean_app_name dir name dirc N1 N2) as C.
  rewrite (normalText_clean stat _ C), (ends_slash_name dir name Nn N1). cbn [negb andb obind].
  assert (Z : ~ In (ch 0) (dir ++ name)) by (now apply no_nul_app).
  destruct (existsFolder stat (dir ++ name)) eqn:F.
  - assert (F1 : isf (dir ++ name)) by (now apply existsFolder_iff in F).
    destruct (dots_folder (dir ++ name)) as (b & E & K). change [slash] with ["/"]. rewrite E. cbn [obind].
    rewrite (ends_dot_app dir name Nn) in K. destruct b.
    + exists [], ((dir ++ name) ++ ["/"]). split; [|now rewrite app_nil_r].
      apply found_dots; [exact F1|now apply K].
    + assert (F2 : existsFolder stat ((dir ++ name) ++ ["/"]) = true).
      { apply existsFolder_iff.
        - apply no_nul_app; [exact Z|]. intros [H|[]]. discriminate.
        - now apply slashes. }
      assert (m = Single) as ->.
      { destruct St as [St|St]; [exact St|]. apply St in F1. apply K in F1. discriminate. }
      rewrite F2. destruct (wantsFolders ty) eqn:W.
      * exists [dir ++ name ++ ["/"]], ((dir ++ name) ++ ["/"]). split.
        -- apply found_folder; [exact F1| |reflexivity]. intros x X.
           assert (false = true) by (apply K; now exists x). discriminate.
        -- now rewrite <- (app_assoc dir name).
      * exists [], ((dir ++ name) ++ ["/"]). split; [now apply found_no_folder|]. now rewrite app_nil_r.
  - assert (F1 : ~ isf (dir ++ name)) by (intros H; apply existsFolder_iff in H; congruence).
    rewrite (dots_file _ (ends_slash_name dir name Nn N1)). cbn [obind]. rewrite F.
    destruct (wantsFiles ty) eqn:W.
    + destruct (picks_spec pk name desired) as (b & E & K). rewrite E. cbn [obind]. destruct b.
      * exists [dir ++ name], (dir ++ name). split; [|reflexivity]. apply found_file; [exact F1|reflexivity|now apply K].
      * exists [], (dir ++ name). split; [|now rewrite app_nil_r]. apply found_no_file; [exact F1|].
        intros [_ X]. apply K in X. discriminate.
    + exists [], (dir ++ name). split; [|now rewrite app_nil_r]. apply found_no_file; [exact F1|].
      intros [X _]. discriminate.
Qed.

Lemma all_entries : forall rec names target buf, Forall plain_name names -> Forall stays names -> exists ls buf',
  Forall2 (found isf (wantsFolders ty) (wantsFiles ty) (wanted pk desired) dir) names ls /\
  each rec stat m ty pk desired od names target buf = Ok (target ++ concat ls, buf').
Proof.
  intros rec names. induction names as [|n names IH]; intros target buf F G.
  - exists [], buf. split; [constructor|]. cbn. now rewrite app_nil_r.
  - inversion F as [|? ? P F']; subst. inversion G as [|? ? Q G']; subst. destruct (one_entry rec names n target buf P Q) as (l & b1 & Fd & E).
    rewrite E. destruct (IH (target ++ l) b1 F' G') as (ls & b2 & Fs & E2). exists (l :: ls), b2. split.
    + now constructor.
    + rewrite E2. cbn. now rewrite app_assoc.
Qed.
End One.

Lemma no_nul_normal : forall stat s t, ~ In (ch 0) s -> normalText stat s = Ok t -> ~ In (ch 0) t.
Proof.
  intros stat s t H E K. rewrite normalText_eq in E. injection E as <-.
  assert (G : ~ In (ch 0) (collapse (unback s))).
  { intros I. apply collapse_in in I. apply in_map_iff in I. destruct I as (c & X & Y).
    destruct (Ascii.eqb c backslash); [discriminate|]. subst. contradiction. }
  destruct (negb _ && _); [|contradiction]. apply in_app_or in K. destruct K as [K|[K|[]]]; [contradiction|discriminate].
Qed.

Lemma scan_single : forall stat ls ty pk so desired target s buf fuel dir,
  (forall p, stat p = Some KFolder -> stat (p ++ ["/"]) = Some KFolder) ->
  ~ In (ch 0) s -> normalText stat s = Ok dir -> stat dir = Some KFolder -> Forall plain_name (ls dir) ->
  exists r lists buf', scan (S fuel) stat ls Single ty pk so desired target (Some s) buf = Ok (r, buf') /\
    Forall2 (found (isf stat) (wantsFolders ty) (wantsFiles ty) (wanted pk desired) dir) (ls dir) lists /\
    match so with
    | SNone => r = target ++ concat lists
    | SAlphabetic => Permutation r (target ++ concat lists) /\ Sorted text_le r
    end.
Proof.
  intros stat ls ty pk so desired target s buf fuel dir SL Z N F P. rewrite scan_S, N. cbn [obind].
  pose proof (no_nul_normal _ _ _ Z N) as Z'.
  rewrite (proj2 (existsFolder_iff stat dir Z') F).
  destruct (normal_result _ _ _ N) as [C _].
  destruct (all_entries stat Single ty pk desired (Some dir) SL C Z'
              (fun t b => scan fuel stat ls Single ty pk so desired t None b) (ls dir) target buf P) as (lists & b' & Fs & E).
  { apply Forall_forall. intros x _. now left. }
  rewrite E. cbn [obind]. destruct so.
  - eexists _, lists, b'. split; [reflexivity|]. now split.
  - eexists _, lists, b'. split; [reflexivity|]. split; [exact Fs|]. split; [apply sort_perm|apply sort_sorted].
Qed.
Lemma scan_missing : forall stat ls m ty pk so desired target s buf fuel dir,
  ~ In (ch 0) s -> normalText stat s = Ok dir -> stat dir <> Some KFolder ->
  scan (S fuel) stat ls m ty pk so desired target (Some s) buf = Throw "Directory not found"%string.
Proof.
  intros stat ls m ty pk so desired target s buf fuel dir Z N F. rewrite scan_S, N. cbn [obind].
  destruct (existsFolder stat dir) eqn:E; [|reflexivity].
  apply existsFolder_iff in E; [contradiction|]. exact (no_nul_normal _ _ _ Z N).
Qed.

(** ** Recursion *)
Lemma obind_ok : forall A B (x : outcome A) (f : A -> outcome B) r, obind x f = Ok r -> exists a, x = Ok a /\ f a = Ok r.
Proof. intros A B [a| | |] f r H; try discriminate. now exists a. Qed.

Lemma each_visits : forall rec stat ty pk desired dir names e p target buf r, In e names ->
  normalText stat (match dir with Some d => d | None => [] end ++ e) = Ok p ->
  isRootOrParent p = Ok false -> existsFolder stat p = true ->
  each rec stat Recurse ty pk desired dir names target buf = Ok r -> exists t r', rec t p = Ok r'.
Proof.
  intros rec stat ty pk desired dir names. induction names as [|n names IH]; intros e p target buf r I N D F H; [destruct I|].
  cbn [each] in H. apply obind_ok in H. destruct H as (q & Nq & H). apply obind_ok in H. destruct H as (dots & Dq & H).
  destruct I as [->|I].
  - rewrite N in Nq. injection Nq as <-. rewrite D in Dq. injection Dq as <-. rewrite F in H.
    apply obind_ok in H. destruct H as ([t2 b2] & Hr & _). eauto.
  - destruct dots; [exact (IH _ _ _ _ _ I N D F H)|]. destruct (existsFolder stat q).
    + apply obind_ok in H. destruct H as ([t2 b2] & _ & H). exact (IH _ _ _ _ _ I N D F H).
    + destruct (wantsFiles ty).
      * apply obind_ok in H. destruct H as (y & _ & H). exact (IH _ _ _ _ _ I N D F H).
      * exact (IH _ _ _ _ _ I N D F H).
Qed.

Lemma clean_nil : clean [].
Proof. split; [intros []|]. intros a b H. destruct a; discriminate. Qed.
Lemma clean_name : forall e, plain_name e -> clean e.
Proof. intros e (Nn & N1 & N2 & _). change e with ([] ++ e). apply clean_app_name; [|exact N1|exact N2]. split; [intros []|]. intros a b H. destruct a; discriminate. Qed.

Lemma scan_recurse_never : forall stat ls ty pk so desired e, plain_name e -> (forall x, e <> x ++ ["."]) ->
  stat e = Some KFolder -> stat (e ++ ["/"]) = Some KFolder -> In e (ls (e ++ ["/"])) ->
  stat (e ++ ["/"] ++ e) = Some KFolder -> stat (e ++ ["/"] ++ e ++ ["/"]) = Some KFolder ->
  In e (ls (e ++ ["/"] ++ e ++ ["/"])) ->
  forall fuel target buf r, scan fuel stat ls Recurse ty pk so desired target (Some e) buf <> Ok r.
Proof.
  intros stat ls ty pk so desired e P D F F2 I G1 G2 G3.
  assert (Ce : clean e) by (now apply clean_name).
  destruct P as (Nn & N1 & N2 & N3).
  assert (Es : ends_slash e = false) by (apply (ends_slash_name [] e Nn N1)).
  pose proof (clean_snoc e Ce Es) as Cs.
  assert (NE : normalText stat e = Ok (e ++ ["/"])).
  { rewrite (normalText_clean stat e Ce), Es. rewrite (proj2 (existsFolder_iff stat e N3) F). reflexivity. }
  assert (NS : normalText stat (e ++ ["/"]) = Ok (e ++ ["/"])).
  { change ["/"] with [slash]. rewrite (normalText_clean stat _ Cs), ends_slash_app. reflexivity. }
  assert (Z2 : ~ In (ch 0) (e ++ ["/"])) by (apply no_nul_app; [exact N3|intros [H|[]]; discriminate]).
  assert (X2 : existsFolder stat (e ++ ["/"]) = true) by (now apply existsFolder_iff).
  assert (Dt : isRootOrParent (e ++ ["/"]) = Ok false).
  { destruct (dots_folder e) as (b & E & K). rewrite E. f_equal. destruct b; [|reflexivity].
    destruct (proj1 K eq_refl) as [x X]. exfalso. now apply (D x). }
  (* below the first level *)
  assert (Inner : forall fuel target buf r, buf = e \/ buf = e ++ ["/"] -> scan fuel stat ls Recurse ty pk so desired target None buf <> Ok r).
  { induction fuel as [|fuel IH]; intros target buf r B H; [discriminate|]. rewrite scan_S in H.
    assert (Nb : normalText stat buf = Ok (e ++ ["/"])) by (destruct B as [->| ->]; assumption).
    rewrite Nb in H. cbn [obind] in H. rewrite X2 in H. apply obind_ok in H. destruct H as ([t b] & H & _).
    destruct (each_visits _ _ _ _ _ None _ e (e ++ ["/"]) _ _ _ I NE Dt X2 H) as (t' & r' & R).
    refine (IH _ _ _ _ R). now right. }
  intros fuel target buf r H. destruct fuel as [|fuel]; [discriminate|]. rewrite scan_S in H.
  rewrite NE in H. cbn [obind] in H. rewrite X2 in H. apply obind_ok in H. destruct H as ([t1 b] & H & _).
  pose proof (clean_app_name (e ++ ["/"]) e Cs N1 N2) as C2.
  assert (E2 : ends_slash ((e ++ ["/"]) ++ e) = false) by (now apply ends_slash_name).
  assert (Z3 : ~ In (ch 0) ((e ++ ["/"]) ++ e)) by (now apply no_nul_app).
  assert (Z4 : ~ In (ch 0) (((e ++ ["/"]) ++ e) ++ ["/"])) by (apply no_nul_app; [exact Z3|intros [X|[]]; discriminate]).
  assert (N2' : normalText stat ((e ++ ["/"]) ++ e) = Ok (((e ++ ["/"]) ++ e) ++ ["/"])).
  { rewrite (normalText_clean stat _ C2), E2. rewrite (proj2 (existsFolder_iff stat _ Z3)); [reflexivity|].
    now rewrite <- app_assoc. }
  assert (D2 : isRootOrParent (((e ++ ["/"]) ++ e) ++ ["/"]) = Ok false).
  { destruct (dots_folder ((e ++ ["/"]) ++ e)) as (b' & E & K). rewrite E. f_equal. destruct b'; [|reflexivity].
    destruct (proj1 (ends_dot_app (e ++ ["/"]) e Nn) (proj1 K eq_refl)) as [x X]. exfalso. now apply (D x). }
  assert (X3 : existsFolder stat (((e ++ ["/"]) ++ e) ++ ["/"]) = true).
  { apply existsFolder_iff; [exact Z4|]. rewrite <- !app_assoc. exact G2. }
  destruct (each_visits _ _ _ _ _ (Some (e ++ ["/"])) _ e _ _ _ _ I N2' D2 X3 H) as (t' & r' & R).
  destruct fuel as [|fuel]; [discriminate|]. rewrite scan_S in R.
  assert (N5 : normalText stat (((e ++ ["/"]) ++ e) ++ ["/"]) = Ok (((e ++ ["/"]) ++ e) ++ ["/"])).
  { change ["/"] with [slash] at 2 4. rewrite (normalText_clean stat _ (clean_snoc _ C2 E2)), ends_slash_app. reflexivity. }
  rewrite N5 in R. cbn [obind] in R. rewrite X3 in R. apply obind_ok in R. destruct R as ([t2 b2] & R & _).
  assert (I3 : In e (ls (((e ++ ["/"]) ++ e) ++ ["/"]))) by (rewrite <- !app_assoc; exact G3).
  destruct (each_visits _ _ _ _ _ None _ e (e ++ ["/"]) _ _ _ I3 NE Dt X2 R) as (t'' & r'' & R2).
  refine (Inner _ _ _ _ _ R2). now right.
Qed.

(** One level of subfolders: what is below the first level is looked up in, and reported relative to, the
    working folder. *)
Lemma enters_dec : forall stat dir name, enters (isf stat) dir name \/ ~ enters (isf stat) dir name.
Proof.
  intros stat dir name. unfold enters, isf. destruct (stat (dir ++ name)) as [[| |]|]; try (right; intros [H _]; discriminate).
  destruct name as [|c name _] using rev_ind.
  - left. split; [reflexivity|]. intros x H. destruct x; discriminate.
  - destruct (ascii_dec c ".") as [->|N].
    + right. intros [_ H]. now apply (H name).
    + left. split; [reflexivity|]. intros x H. apply app_inj_tail in H. destruct H as [_ H]. contradiction.
Qed.

Section Two.
Variables (stat : fsys) (ls : bytes -> list bytes) (ty : stype) (pk : spick) (desired dir : bytes).
Hypothesis slashes : forall p, stat p = Some KFolder -> stat (p ++ ["/"]) = Some KFolder.
Hypothesis dirc : clean dir.
Hypothesis dir0 : ~ In (ch 0) dir.

Lemma inner_scan : forall fuel name target, plain_name name -> enters (isf stat) dir name ->
  Forall plain_name (ls (dir ++ name ++ ["/"])) ->
  Forall (fun n => ~ enters (isf stat) [] n) (ls (dir ++ name ++ ["/"])) ->
  exists inner buf',
    Forall2 (found (isf stat) (wantsFolders ty) (wantsFiles ty) (wanted pk desired) []) (ls (dir ++ name ++ ["/"])) inner /\
    scan (S fuel) stat ls Recurse ty pk SNone desired target None ((dir ++ name) ++ ["/"]) = Ok (target ++ concat inner, buf').
Proof.
  intros fuel name target (Nn & N1 & N2 & N3) [F D] P Q. rewrite scan_S.
  pose proof (clean_app_name dir name dirc N1 N2) as C2. pose proof (ends_slash_name dir name Nn N1) as E2.
  assert (Zs : ~ In (ch 0) (dir ++ name)) by (now apply no_nul_app).
  assert (N5 : normalText stat ((dir ++ name) ++ ["/"]) = Ok ((dir ++ name) ++ ["/"])).
  { change ["/"] with [slash]. rewrite (normalText_clean stat _ (clean_snoc _ C2 E2)), ends_slash_app. reflexivity. }
  assert (X2 : existsFolder stat ((dir ++ name) ++ ["/"]) = true).
  { apply existsFolder_iff; [apply no_nul_app; [exact Zs|intros [H|[]]; discriminate]|now apply slashes]. }
  rewrite N5. cbn [obind]. rewrite X2. rewrite <- (app_assoc dir name).
  assert (St : Forall (stays stat Recurse None) (ls (dir ++ name ++ ["/"]))).
  { eapply Forall_impl; [|exact Q]. intros n H. right. intros K. cbn in K.
    destruct n as [|c n _] using rev_ind.
    - exfalso. apply H. split; [exact K|]. intros x X. destruct x; discriminate.
    - destruct (ascii_dec c ".") as [->|Nc]; [now exists n|]. exfalso. apply H. split; [exact K|].
      intros x X. apply app_inj_tail in X. destruct X as [_ X]. contradiction. }
  destruct (all_entries stat Recurse ty pk desired None slashes (clean_nil) (fun K => K)
              (fun t b => scan fuel stat ls Recurse ty pk SNone desired t None b) _ target (dir ++ name ++ ["/"]) P St)
    as (inner & b' & Fs & E).
  rewrite E. cbn [obind]. exists inner, b'. split; [exact Fs|reflexivity].
Qed.

Lemma outer_entries : forall fuel names target buf, Forall plain_name names ->
  Forall (fun name => enters (isf stat) dir name -> Forall plain_name (ls (dir ++ name ++ ["/"])) /\
                                              Forall (fun n => ~ enters (isf stat) [] n) (ls (dir ++ name ++ ["/"]))) names ->
  exists lists buf', Forall2 (found2 (isf stat) (wantsFolders ty) (wantsFiles ty) (wanted pk desired) ls dir) names lists /\
    each (fun t b => scan (S fuel) stat ls Recurse ty pk SNone desired t None b) stat Recurse ty pk desired (Some dir) names target buf =
      Ok (target ++ concat lists, buf').
Proof.
  intros fuel names. induction names as [|name names IH]; intros target buf F G.
  - exists [], buf. split; [constructor|]. cbn. now rewrite app_nil_r.
  - inversion F as [|? ? P F']; subst. inversion G as [|? ? Q G']; subst.
    destruct (enters_dec stat dir name) as [En|En].
    + destruct (Q En) as [Q1 Q2]. pose proof En as [F1 D]. pose proof P as (Nn & N1 & N2 & N3).
      pose proof (clean_app_name dir name dirc N1 N2) as C2. pose proof (ends_slash_name dir name Nn N1) as E2.
      assert (Zs : ~ In (ch 0) (dir ++ name)) by (now apply no_nul_app).
      cbn [each]. rewrite (normalText_clean stat _ C2), E2. rewrite (proj2 (existsFolder_iff stat _ Zs) F1). cbn [negb andb obind].
      assert (Dt : isRootOrParent ((dir ++ name) ++ ["/"]) = Ok false).
      { destruct (dots_folder (dir ++ name)) as (b & E & K). rewrite E. f_equal. destruct b; [|reflexivity].
        destruct (proj1 (ends_dot_app dir name Nn) (proj1 K eq_refl)) as [x X]. exfalso. now apply (D x). }
      change [slash] with ["/"]. rewrite Dt. cbn [obind].
      assert (X2 : existsFolder stat ((dir ++ name) ++ ["/"]) = true).
      { apply existsFolder_iff; [apply no_nul_app; [exact Zs|intros [H|[]]; discriminate]|now apply slashes]. }
      rewrite X2. set (l0 := if wantsFolders ty then [dir ++ name ++ ["/"]] else []).
      replace (if wantsFolders ty then target ++ [(dir ++ name) ++ ["/"]] else target) with (target ++ l0)
        by (subst l0; destruct (wantsFolders ty); [now rewrite <- app_assoc|now rewrite app_nil_r]).
      destruct (inner_scan fuel name (target ++ l0) P En Q1 Q2) as (inner & b1 & Fs & E). rewrite E. cbn [obind].
      destruct (IH ((target ++ l0) ++ concat inner) b1 F' G') as (lists & b2 & Fl & El).
      exists ((l0 ++ concat inner) :: lists), b2. split.
      * constructor; [|exact Fl]. exists l0, inner. repeat split.
        -- subst l0. destruct (wantsFolders ty) eqn:W; [now apply found_folder|now apply found_no_folder].
        -- intros _. exact Fs.
        -- intros K. contradiction.
      * rewrite El. cbn [concat]. now rewrite <- !app_assoc.
    + assert (St : stays stat Recurse (Some dir) name).
      { right. intros K. destruct name as [|c name _] using rev_ind; [destruct P; contradiction|].
        destruct (ascii_dec c ".") as [->|Nc]; [now exists name|]. exfalso. apply En. split; [exact K|].
        intros x X. apply app_inj_tail in X. destruct X as [_ X]. contradiction. }
      destruct (one_entry stat Recurse ty pk desired (Some dir) slashes dirc dir0
                  (fun t b => scan (S fuel) stat ls Recurse ty pk SNone desired t None b) names name target buf P St)
        as (l & b1 & Fd & E).
      rewrite E. destruct (IH (target ++ l) b1 F' G') as (lists & b2 & Fl & El).
      exists (l :: lists), b2. split.
      * constructor; [|exact Fl]. exists l, []. cbn. rewrite app_nil_r. repeat split; [exact Fd|intros K; contradiction].
      * rewrite El. cbn [concat]. now rewrite app_assoc.
Qed.
End Two.

Lemma scan_recurse_two : forall stat ls ty pk desired target s buf fuel dir,
  (forall p, stat p = Some KFolder -> stat (p ++ ["/"]) = Some KFolder) ->
  ~ In (ch 0) s -> normalText stat s = Ok dir -> stat dir = Some KFolder -> Forall plain_name (ls dir) ->
  (forall name, In name (ls dir) -> enters (isf stat) dir name ->
     Forall plain_name (ls (dir ++ name ++ ["/"])) /\ Forall (fun n => ~ enters (isf stat) [] n) (ls (dir ++ name ++ ["/"]))) ->
  exists lists buf', scan (S (S fuel)) stat ls Recurse ty pk SNone desired target (Some s) buf = Ok (target ++ concat lists, buf') /\
    Forall2 (found2 (isf stat) (wantsFolders ty) (wantsFiles ty) (wanted pk desired) ls dir) (ls dir) lists.
Proof.
  intros stat ls ty pk desired target s buf fuel dir SL Z N F P G. rewrite scan_S, N. cbn [obind].
  pose proof (no_nul_normal _ _ _ Z N) as Z'. rewrite (proj2 (existsFolder_iff stat dir Z') F).
  destruct (normal_result _ _ _ N) as [C _].
  destruct (outer_entries stat ls ty pk desired dir SL C Z' fuel (ls dir) target buf P) as (lists & b' & Fs & E).
  { apply Forall_forall. exact G. }
  rewrite E. cbn [obind]. exists lists, b'. now split.
Qed.

(** ** Path objects *)
Lemma getStr_full : forall stat s, ~ In (ch 0) s -> exists t0 t, getStr stat (mkPath s) = Ok (t, Path t false) /\
  clean t0 /\ components t0 = components s /\ starts_sep t0 = starts_sep s /\ ends_sep t0 = ends_sep s /\
  clean t /\ (stat t0 = Some KFolder /\ ends_sep s = false /\ t = t0 ++ ["/"] \/
              (stat t0 <> Some KFolder \/ ends_sep s = true) /\ t = t0).
Proof.
  intros stat s Z. destruct (normal_full stat s) as (t0 & t & N & Ct & _ & St & _ & En & C0 & Co & E).
  exists t0, t. unfold getStr, normalize, mkPath. cbn. rewrite N. cbn.
  repeat split; try exact (proj1 C0); try exact (proj2 C0); try exact Co; try exact St; try exact En;
    try exact (proj1 Ct); try exact (proj2 Ct).
  assert (Z0 : ~ In (ch 0) t0).
  { intros K. apply (no_nul_normal stat s t Z N). rewrite E. destruct (negb _ && _); [apply in_or_app; now left|exact K]. }
  destruct (ends_sep s); cbn in E.
  - right. split; [now right|exact E].
  - destruct (existsFolder stat t0) eqn:F.
    + left. repeat split; [|exact E]. now apply existsFolder_iff.
    + right. split; [|exact E]. left. intros K. apply existsFolder_iff in K; [congruence|exact Z0].
Qed.
Lemma getStr_again : forall stat p t q, getStr stat p = Ok (t, q) -> getStr stat q = Ok (t, q) /\
  (mustNormalize p = true -> getStr stat (mkPath t) = Ok (t, q)).
Proof.
  intros stat p t q H. unfold getStr in H. destruct (normalize stat p) as [p'| | |] eqn:E; try discriminate.
  injection H as <- <-. unfold normalize in E. destruct (mustNormalize p) eqn:M.
  - destruct (normalText stat (text p)) as [u| | |] eqn:N; try discriminate. injection E as <-. cbn.
    split; [reflexivity|]. intros _. unfold getStr, normalize, mkPath. cbn.
    now rewrite (proj2 (normal_result _ _ _ N)).
  - injection E as <-. split; [|discriminate]. unfold getStr, normalize. now rewrite M.
Qed.

Lemma hasExtension_spec : forall t ext, exists b, hasExtension t ext = Ok b /\
  (b = true <-> exists x y, t = x ++ y /\ toLower y = toLower ext).
Proof.
  intros t ext. destruct (C19_endsWith (toLower t) (toLower ext)) as (b & E & H). exists b. split; [exact E|].
  rewrite H. unfold toLower. split.
  - intros [u U]. apply map_eq_app in U. destruct U as (x & y & -> & _ & <-). now exists x, y.
  - intros (x & y & -> & <-). exists (map char_lower x). now rewrite map_app.
Qed.

Lemma expand_spec : forall stat home p t q fuel, getStr stat p = Ok (t, q) -> ~ In "~" home -> length t < fuel ->
  expandUserPath stat (Some home) fuel p = Ok (mkPath (flat_map (fun c => if Ascii.eqb c "~" then home else [c]) t)).
Proof.
  intros stat home p t q fuel G H L. unfold expandUserPath. rewrite G. cbn [obind].
  change (lit "~") with ["~"]. rewrite (C13_replaceAll_char t "~" home fuel H L). reflexivity.
Qed.
Lemma expand_diverges : forall stat home p t q, getStr stat p = Ok (t, q) -> In "~" home -> In "~" t ->
  forall fuel, expandUserPath stat (Some home) fuel p = OutOfFuel.
Proof.
  intros stat home p t q G H I fuel. unfold expandUserPath. rewrite G. cbn [obind].
  change (lit "~") with ["~"]. rewrite C14_replaceAll_diverges; [reflexivity| |].
  - apply in_split in H. destruct H as (a & b & ->). now exists a, b.
  - apply in_split in I. destruct I as (a & b & ->). now exists a, b.
Qed.


(** A working folder that contains a/a/a. *)
Definition aaa_stat : fsys := fun p =>
  if existsb (bytes_eqb p) [lit "a"; lit "a/"; lit "a/a"; lit "a/a/"; lit "a/a/a"; lit "a/a/a/"] then Some KFolder else None.
Definition aaa_ls (p : bytes) : list bytes :=
  if existsb (bytes_eqb p) [lit "a/"; lit "a/a/"] then [lit "."; lit ".."; lit "a"] else [lit "."; lit ".."].
Lemma exists_spec : forall stat t, ~ In (ch 0) t ->
  (existsAny stat t = true <-> exists k, stat t = Some k) /\ (existsFile stat t = true <-> stat t = Some KFile) /\
  (existsFolder stat t = true <-> stat t = Some KFolder).
Proof.
  intros stat t H. unfold existsAny, existsFile, existsFolder. rewrite cstr_id by exact H.
  destruct (stat t) as [[]|]; repeat split; intros E; try discriminate; eauto; destruct E; discriminate.
Qed.
