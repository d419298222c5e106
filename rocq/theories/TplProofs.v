(** Correctness of template expansion. *)
From Coq Require Import String Ascii ZArith NArith Arith Bool Lia List.
From Verif Require Import Common StrModel TplModel TplSpec.
Import ListNotations.

Section NESTED.
Variable P : tpl -> Prop.
Hypothesis h_txt : forall s, P (Txt s).
Hypothesis h_key : forall k, P (Key k).
Hypothesis h_sep : forall s, P (Sep s).
Hypothesis h_sect : forall k body, (forall t, In t body -> P t) -> P (Sect k body).
Fixpoint tpl_nested (t : tpl) : P t :=
  match t with
  | Txt s => h_txt s
  | Key k => h_key k
  | Sep s => h_sep s
  | Sect k body => h_sect k body ((fix all body : forall t, In t body -> P t :=
      match body with
      | [] => fun t (H : In t []) => match H with end
      | u :: body => fun t (H : In t (u :: body)) =>
          match H with or_introl E => eq_ind u P (tpl_nested u) t E | or_intror H => all body t H end
      end) body)
  end.
End NESTED.

(** ** Reading characters *)
Lemma at_here : forall pre c post, at_ (pre ++ c :: post) (length pre) = Ok c.
Proof. intros. unfold at_. rewrite nth_error_app2, Nat.sub_diag by lia. reflexivity. Qed.
Lemma at_off : forall pre post n, at_ (pre ++ post) (length pre + n) = at_ post n.
Proof. intros. unfold at_. rewrite nth_error_app2 by lia. replace (length pre + n - length pre) with n by lia. reflexivity. Qed.
Lemma at_0 : forall c s, at_ (c :: s) 0 = Ok c. Proof. reflexivity. Qed.
Lemma at_S : forall c s n, at_ (c :: s) (S n) = at_ s n. Proof. reflexivity. Qed.
Ltac norm_app := unfold write_all; repeat (progress (rewrite <- ?app_assoc; cbn [app])).
Ltac rat := rewrite ?at_S; rewrite ?at_0; cbn [obind].
Definition ends (pre : bytes) : bool := match rev pre with c :: _ => Ascii.eqb c backslash | [] => false end.
Lemma ends_snoc : forall p x, ends (p ++ [x]) = Ascii.eqb x backslash.
Proof. intros. unfold ends. rewrite rev_app_distr. reflexivity. Qed.
Lemma ends_app : forall p s, s <> [] -> ends (p ++ s) = ends s.
Proof. intros p s H. destruct (exists_last H) as (s' & x & ->). rewrite app_assoc, !ends_snoc. reflexivity. Qed.
Lemma ends_app_false : forall p s, ends p = false -> ends s = false -> ends (p ++ s) = false.
Proof. intros p s H1 H2. destruct s as [|c s]; [now rewrite app_nil_r|]. rewrite ends_app by discriminate. exact H2. Qed.
Lemma ends_spec : forall s, ends s = true <-> exists a, s = a ++ [backslash].
Proof.
  intros s. split.
  - intros H. destruct s as [|c s]; [discriminate|]. destruct (@exists_last _ (c :: s)) as (p & x & E); [discriminate|]. rewrite E in *. rewrite ends_snoc in H. apply Ascii.eqb_eq in H as ->. eauto.
  - intros (a & ->). rewrite ends_snoc. reflexivity.
Qed.
Lemma ends_none : forall s, (forall a, s <> a ++ [backslash]) -> ends s = false.
Proof. intros s H. destruct (ends s) eqn:E; [|reflexivity]. apply ends_spec in E as (a & ->). now destruct (H a). Qed.
Lemma after_here : forall pre post, after_backslash (pre ++ post) (length pre) = ends pre.
Proof.
  intros pre post. destruct pre as [|c pre]; [reflexivity|]. destruct (@exists_last _ (c :: pre)) as (p & x & E); [discriminate|]. rewrite E. rewrite ends_snoc, app_length.
  cbn [length]. rewrite Nat.add_1_r. cbn [after_backslash]. rewrite <- app_assoc, nth_error_app2, Nat.sub_diag by lia. reflexivity.
Qed.
Lemma eqb_not_in : forall (c x : ascii) (l : bytes), ~ In x (c :: l) -> Ascii.eqb c x = false.
Proof. intros c x l H. apply Ascii.eqb_neq. intros ->. apply H. now left. Qed.
Lemma read_key_ok : forall k pre post acc fuel, ~ In rbrace k -> length k < fuel ->
  read_key fuel (pre ++ k ++ rbrace :: post) (length pre) acc = Ok (acc ++ k, length pre + length k).
Proof.
  induction k as [|c k IH]; intros pre post acc fuel H L; (destruct fuel as [|fuel]; [cbn in L; lia|]); cbn [read_key app].
  - rewrite at_here. cbn [obind]. rewrite Ascii.eqb_refl, app_nil_r. f_equal. f_equal. cbn. lia.
  - rewrite at_here. cbn [obind]. rewrite (eqb_not_in _ _ _ H).
    replace (pre ++ c :: k ++ rbrace :: post) with ((pre ++ [c]) ++ k ++ rbrace :: post) by (rewrite <- app_assoc; reflexivity).
    replace (S (length pre)) with (length (pre ++ [c])) by (rewrite app_length; cbn; lia). rewrite IH.
    + rewrite <- app_assoc, app_length. cbn. f_equal. f_equal. lia.
    + intros I. apply H. now right.
    + cbn in L. lia.
Qed.

(** ** Finding the end of a section *)
Definition skips (key : bytes) (s : bytes) : Prop := forall pre post fuel, ends pre = false -> length s < fuel ->
  exists fuel', fuel - length s <= fuel' /\
    find_end fuel (pre ++ s ++ post) (length pre) key = find_end fuel' (pre ++ s ++ post) (length pre + length s) key.
Lemma skip_one : forall key pre c post fuel, c <> lbrace -> find_end (S fuel) (pre ++ c :: post) (length pre) key = find_end fuel (pre ++ c :: post) (S (length pre)) key.
Proof. intros. cbn [find_end]. rewrite at_here. cbn [obind]. apply Ascii.eqb_neq in H. rewrite H. reflexivity. Qed.
Lemma skip_nobrace : forall key s pre post fuel, ~ In lbrace s -> length s < fuel ->
  find_end fuel (pre ++ s ++ post) (length pre) key = find_end (fuel - length s) (pre ++ s ++ post) (length pre + length s) key.
Proof.
  induction s as [|c s IH]; intros pre post fuel H L.
  - cbn. rewrite Nat.sub_0_r, Nat.add_0_r. reflexivity.
  - destruct fuel as [|fuel]; [cbn in L; lia|]. cbn [app]. rewrite skip_one by (intros ->; apply H; now left).
    replace (pre ++ c :: s ++ post) with ((pre ++ [c]) ++ s ++ post) by (rewrite <- app_assoc; reflexivity).
    replace (S (length pre)) with (length (pre ++ [c])) by (rewrite app_length; cbn; lia). rewrite IH.
    + rewrite app_length. cbn [length]. f_equal; lia.
    + intros I. apply H. now right.
    + cbn in L. lia.
Qed.
Lemma length_opening : length opening = 2. Proof. reflexivity. Qed.
Lemma length_closing : length closing = 2. Proof. reflexivity. Qed.
Lemma lbrace_rbrace : lbrace <> rbrace. Proof. discriminate. Qed.
Lemma not_in_closing : ~ In lbrace closing.
Proof. intros [H|[H|[]]]; discriminate. Qed.
(** "{{x}}" where x has no opening brace and does not start with a slash. *)
Lemma skips_tag : forall key x, ~ In lbrace x -> hd lbrace x <> "/"%char -> skips key (opening ++ x ++ closing).
Proof.
  intros key x Hx Hd pre post fuel E L. rewrite !app_length, length_opening, length_closing in *. cbn [length] in L.
  destruct fuel as [|[|fuel]]; try lia. exists (fuel - length (x ++ closing)). rewrite app_length, length_closing. split; [lia|].
  cbn [opening app]. cbn [find_end]. rewrite at_here. cbn [obind]. rewrite Ascii.eqb_refl. cbn [negb].
  rewrite after_here, E. rewrite at_off. rat. rewrite Ascii.eqb_refl. cbn [negb]. rewrite at_off.
  assert (Hc : exists c2 rest, (x ++ closing) ++ post = c2 :: rest /\ c2 <> "/"%char /\ c2 <> lbrace).
  { destruct x as [|c x]; [exists rbrace, (rbrace :: post); repeat split; discriminate|]. exists c, ((x ++ closing) ++ post). repeat split; [exact Hd|intros ->; apply Hx; now left]. }
  destruct Hc as (c2 & rest & Ec & N1 & N2). rewrite Ec; rat. apply Ascii.eqb_neq in N1. rewrite N1. cbn [negb].
  rewrite <- Ec.
  replace (pre ++ lbrace :: lbrace :: (x ++ closing) ++ post) with ((pre ++ [lbrace]) ++ lbrace :: (x ++ closing) ++ post) by (rewrite <- app_assoc; reflexivity).
  replace (S (length pre)) with (length (pre ++ [lbrace])) by (rewrite app_length; cbn; lia). rewrite at_here. cbn [obind]. rewrite Ascii.eqb_refl. cbn [negb].
  rewrite after_here, ends_snoc. cbn [Ascii.eqb]. change (Ascii.eqb lbrace backslash) with false. cbv iota. rewrite at_off, at_S, Ec; rat.
  apply Ascii.eqb_neq in N2. rewrite N2. cbn [negb]. rewrite <- Ec.
  replace ((pre ++ [lbrace]) ++ lbrace :: (x ++ closing) ++ post) with ((pre ++ opening) ++ (x ++ closing) ++ post) by (rewrite <- !app_assoc; reflexivity).
  replace (S (length (pre ++ [lbrace]))) with (length (pre ++ opening)) by (rewrite !app_length; cbn; lia). rewrite skip_nobrace.
  - rewrite !app_length, length_opening, length_closing. f_equal. lia.
  - intros I. apply in_app_or in I as [I|I]; [auto|]. now apply not_in_closing in I.
  - rewrite app_length, length_closing. lia.
Qed.
Lemma match_key_diff : forall key k pre post, ~ In rbrace key -> prefixb key k = false ->
  exists m, m <= length k /\ match_key (pre ++ k ++ rbrace :: post) (length pre) key = Ok (inr (length pre + m)).
Proof.
  induction key as [|x key IH]; intros k pre post H P; [discriminate|]. cbn [match_key]. destruct k as [|c k].
  - cbn [app]. rewrite at_here. cbn [obind]. assert (Nx : Ascii.eqb rbrace x = false) by (apply Ascii.eqb_neq; intros <-; apply H; now left). rewrite Nx.
    exists 0. rewrite Nat.add_0_r. split; [cbn; lia|reflexivity].
  - cbn [app]. rewrite at_here. cbn [obind]. cbn [prefixb] in P. rewrite Ascii.eqb_sym. destruct (Ascii.eqb x c) eqn:Ex.
    + cbn in P. destruct (IH k (pre ++ [c]) post) as (m & Lm & Em); [intros I; apply H; now right|exact P|]. exists (S m). split; [cbn; lia|].
      replace (pre ++ c :: k ++ rbrace :: post) with ((pre ++ [c]) ++ k ++ rbrace :: post) by (rewrite <- app_assoc; reflexivity).
      replace (S (length pre)) with (length (pre ++ [c])) by (rewrite app_length; cbn; lia). rewrite Em, app_length. cbn. do 2 f_equal. lia.
    + exists 0. rewrite Nat.add_0_r. split; [cbn; lia|reflexivity].
Qed.
Lemma match_key_same : forall key pre post, match_key (pre ++ key ++ post) (length pre) key = Ok (inl (length pre + length key)).
Proof.
  induction key as [|x key IH]; intros pre post; cbn [match_key].
  - cbn. do 2 f_equal. lia.
  - cbn [app]. rewrite at_here. cbn [obind]. rewrite Ascii.eqb_refl.
    replace (pre ++ x :: key ++ post) with ((pre ++ [x]) ++ key ++ post) by (rewrite <- app_assoc; reflexivity).
    replace (S (length pre)) with (length (pre ++ [x])) by (rewrite app_length; cbn; lia). rewrite IH, app_length. cbn. do 2 f_equal. lia.
Qed.
Lemma find_end_tag : forall key pre k post fuel, ends pre = false ->
  find_end (S fuel) (pre ++ opening ++ "/"%char :: k ++ post) (length pre) key =
  obind (match_key (pre ++ opening ++ "/"%char :: k ++ post) (length pre + 3) key) (fun m =>
    match m with
    | inr j => find_end fuel (pre ++ opening ++ "/"%char :: k ++ post) (S j) key
    | inl j => obind (at_ (pre ++ opening ++ "/"%char :: k ++ post) j) (fun d1 => if negb (Ascii.eqb d1 rbrace) then UB else
        obind (at_ (pre ++ opening ++ "/"%char :: k ++ post) (j + 1)) (fun d2 => if negb (Ascii.eqb d2 rbrace) then UB else Ok (length pre, j + 1)))
    end).
Proof.
  intros key pre k post fuel E. cbn [opening app]. cbn [find_end]. rewrite at_here. cbn [obind]. rewrite Ascii.eqb_refl. cbn [negb]. rewrite after_here, E.
  rewrite (at_off pre _ 1). rat. rewrite Ascii.eqb_refl. cbn [negb]. rewrite (at_off pre _ 2). rat. rewrite Ascii.eqb_refl. reflexivity.
Qed.
Lemma skips_end : forall key k, ~ In rbrace key -> prefixb key k = false -> ~ In lbrace k -> skips key (opening ++ "/"%char :: k ++ closing).
Proof.
  intros key k Hk P Hb pre post fuel E L. rewrite !app_length in *. cbn [length] in *. rewrite app_length in *. rewrite length_opening, length_closing in *.
  destruct fuel as [|fuel]; [lia|]. replace (pre ++ (opening ++ "/"%char :: k ++ closing) ++ post) with (pre ++ opening ++ "/"%char :: k ++ closing ++ post) by (rewrite <- !app_assoc; cbn; now rewrite <- app_assoc).
  rewrite (find_end_tag key pre k (closing ++ post) fuel E).
  set (src := pre ++ opening ++ "/"%char :: k ++ closing ++ post).
  assert (Es : src = (pre ++ opening ++ ["/"%char]) ++ k ++ rbrace :: rbrace :: post) by (subst src; rewrite <- !app_assoc; reflexivity).
  destruct (match_key_diff key k (pre ++ opening ++ ["/"%char]) (rbrace :: post) Hk P) as (m & Lm & Em).
  rewrite <- Es in Em. rewrite app_length in Em. replace (length (opening ++ ["/"%char])) with 3 in Em by reflexivity. rewrite Em. cbn [obind].
  (* the rest has no opening brace *)
  set (r := firstn (S m) (k ++ closing)). set (t := skipn (S m) (k ++ closing)).
  assert (Er : k ++ closing = r ++ t) by (symmetry; apply firstn_skipn).
  assert (Lr : length r = S m) by (subst r; rewrite firstn_length, app_length, length_closing; lia).
  assert (Lt : length t = length k + 2 - S m) by (subst t; rewrite skipn_length, app_length, length_closing; lia).
  assert (Et : src = (pre ++ opening ++ "/"%char :: r) ++ t ++ post).
  { subst src. rewrite <- !app_assoc. cbn [app]. do 2 f_equal. f_equal. rewrite !app_assoc. f_equal. rewrite Er. reflexivity. }
  clearbody r t.
  assert (Lp : S (length pre + 3 + m) = length (pre ++ opening ++ "/"%char :: r)).
  { rewrite !app_length. cbn [length]. rewrite length_opening, Lr. lia. }
  rewrite Lp, Et. rewrite skip_nobrace.
  - exists (fuel - length t). split; [lia|]. f_equal. rewrite !app_length. cbn [length]. rewrite length_opening, Lr, Lt. lia.
  - intros I. assert (I2 : In lbrace (k ++ closing)) by (rewrite Er; apply in_or_app; now right). apply in_app_or in I2 as [I2|I2]; [auto|]. now apply not_in_closing in I2.
  - lia.
Qed.
Lemma skips_app : forall key a b, skips key a -> skips key b -> ends a = false -> skips key (a ++ b).
Proof.
  intros key a b Sa Sb Ea pre post fuel E L. rewrite app_length in *. destruct (Sa pre (b ++ post) fuel E) as (f1 & L1 & E1); [lia|].
  destruct (Sb (pre ++ a) post f1) as (f2 & L2 & E2); [now apply ends_app_false|lia|].
  exists f2. split; [lia|]. rewrite <- !app_assoc in *. rewrite E1. rewrite app_length in E2. rewrite E2. f_equal. lia.
Qed.
Lemma skips_nil : forall key, skips key [].
Proof. intros key pre post fuel _ L. exists fuel. cbn [length]. rewrite Nat.sub_0_r, Nat.add_0_r. auto. Qed.
Lemma skips_plain : forall key s, plain s -> skips key s.
Proof.
  intros key s (P & Q & _) pre post fuel _ L.
  assert (G : forall b a fuel, s = a ++ b -> length b < fuel ->
    exists fuel', fuel - length b <= fuel' /\ find_end fuel (pre ++ s ++ post) (length (pre ++ a)) key = find_end fuel' (pre ++ s ++ post) (length (pre ++ a) + length b) key).
  { induction b as [|c b IH]; intros a f Es Lf.
    - exists f. cbn [length]. rewrite Nat.sub_0_r, Nat.add_0_r. auto.
    - destruct f as [|f]; [cbn in Lf; lia|]. cbn [length] in Lf. destruct (IH (a ++ [c]) f) as (f' & L' & E'); [rewrite Es, <- app_assoc; reflexivity|lia|].
      exists f'. split; [cbn; lia|]. replace (length (pre ++ a) + length (c :: b)) with (length (pre ++ a ++ [c]) + length b) by (rewrite !app_length; cbn; lia).
      rewrite <- E'. replace (length (pre ++ a ++ [c])) with (S (length (pre ++ a))) by (rewrite !app_length; cbn; lia).
      assert (Esrc : pre ++ s ++ post = (pre ++ a) ++ c :: b ++ post) by (rewrite Es, <- !app_assoc; reflexivity). rewrite Esrc.
      cbn [find_end]. rewrite at_here. cbn [obind]. destruct (Ascii.eqb c lbrace) eqn:Ec; [|reflexivity]. cbn [negb]. apply Ascii.eqb_eq in Ec as ->.
      rewrite after_here. destruct (ends (pre ++ a)) eqn:Ee; [reflexivity|]. destruct b as [|c1 b]; [now destruct (Q a)|].
      rewrite at_off. cbn [app]; rat. destruct (Ascii.eqb c1 lbrace) eqn:E1; [|reflexivity]. apply Ascii.eqb_eq in E1 as ->.
      destruct (P a b Es) as (a' & ->). rewrite app_assoc, ends_snoc in Ee. discriminate. }
  destruct (G s [] fuel eq_refl L) as (f' & L' & E'). rewrite app_nil_r in E'. eauto.
Qed.
Lemma ends_tag : forall x, ends (x ++ closing) = false.
Proof. intros. rewrite ends_app by discriminate. reflexivity. Qed.
Lemma write_ends : forall ks t, wf ks t -> ends (write t) = false.
Proof.
  intros ks t W. destruct W as [s (_ & _ & Q)|k|s|k body]; cbn [write].
  - now apply ends_none.
  - rewrite app_assoc. apply ends_tag.
  - change (opening ++ "*"%char :: s ++ closing) with ((opening ++ "*"%char :: s) ++ closing). apply ends_tag.
  - replace (opening ++ "#"%char :: k ++ closing ++ flat_map write body ++ opening ++ "/"%char :: k ++ closing)
      with ((opening ++ "#"%char :: k ++ closing ++ flat_map write body ++ opening ++ "/"%char :: k) ++ closing) by (norm_app; reflexivity).
    apply ends_tag.
Qed.
Lemma write_all_ends : forall ks ts, (forall t, In t ts -> wf ks t) -> ends (write_all ts) = false.
Proof.
  intros ks. induction ts as [|t ts IH]; intros W; [reflexivity|]. cbn [write_all flat_map]. apply ends_app_false; [eapply write_ends; apply W; now left|]. apply IH. intros u I. apply W. now right.
Qed.
Lemma skips_write : forall key, ~ In rbrace key -> forall t ks, In key ks -> wf ks t -> skips key (write t).
Proof.
  intros key Hk. apply (tpl_nested (fun t => forall ks, In key ks -> wf ks t -> skips key (write t))).
  - intros s ks I W. inversion W; subst. now apply skips_plain.
  - intros k ks I W. inversion W as [|? (N1 & N2) Hd| |]; subst. apply skips_tag; [exact N1|]. intros E. apply Hd. rewrite E. cbn. auto.
  - intros s ks I W. inversion W as [| |? (N1 & N2) Hd|]; subst. change (skips key (opening ++ ("*"%char :: s) ++ closing)). apply skips_tag; [|discriminate].
    intros [X|X]; [discriminate|auto].
  - intros k body IH ks I W. inversion W as [| | |? ? (N1 & N2) Hp Hh Hb]; subst. cbn [write].
    replace (opening ++ "#"%char :: k ++ closing ++ flat_map write body ++ opening ++ "/"%char :: k ++ closing)
      with ((opening ++ ("#"%char :: k) ++ closing) ++ write_all body ++ (opening ++ "/"%char :: k ++ closing)) by (norm_app; reflexivity).
    apply skips_app; [apply skips_tag; [intros [X|X]; [discriminate|auto]|discriminate]| |rewrite app_assoc; apply ends_tag].
    apply skips_app; [|apply skips_end; auto|now apply write_all_ends with (ks := k :: ks)].
    clear Hh W. induction body as [|t body IHb]; [apply skips_nil|]. cbn [write_all flat_map]. apply skips_app.
    + apply IH with (ks := k :: ks); [now left|now right|apply Hb; now left].
    + apply IHb; [intros u Iu; apply IH; now right|intros u Iu; apply Hb; now right].
    + eapply write_ends. apply Hb. now left.
Qed.
Lemma skips_write_all : forall key ks ts, ~ In rbrace key -> In key ks -> (forall t, In t ts -> wf ks t) -> skips key (write_all ts).
Proof.
  intros key ks ts Hk I. induction ts as [|t ts IH]; intros W; [apply skips_nil|]. cbn [write_all flat_map].
  apply skips_app; [eapply skips_write; eauto; apply W; now left|apply IH; intros u Iu; apply W; now right|eapply write_ends; apply W; now left].
Qed.
Lemma find_end_ok : forall k ks body pre post fuel, ~ In rbrace k -> (forall t, In t body -> wf (k :: ks) t) -> ends pre = false ->
  length (write_all body) + 1 < fuel ->
  find_end fuel (pre ++ write_all body ++ opening ++ "/"%char :: k ++ closing ++ post) (length pre) k =
    Ok (length pre + length (write_all body), length pre + length (write_all body) + length k + 4).
Proof.
  intros k ks body pre post fuel Hk W E L.
  destruct (skips_write_all k (k :: ks) body Hk (or_introl eq_refl) W pre (opening ++ "/"%char :: k ++ closing ++ post) fuel E) as (f & Lf & Ef); [lia|].
  rewrite Ef. destruct f as [|f]; [lia|]. rewrite app_assoc. rewrite <- app_length.
  assert (E2 : ends (pre ++ write_all body) = false) by (apply ends_app_false; [exact E|eapply write_all_ends; eauto]).
  rewrite (find_end_tag k (pre ++ write_all body) k (closing ++ post) f E2).
  generalize (pre ++ write_all body). intros p.
  replace (p ++ opening ++ "/"%char :: k ++ closing ++ post) with ((p ++ opening ++ ["/"%char]) ++ k ++ closing ++ post) by (rewrite <- !app_assoc; reflexivity).
  replace (length p + 3) with (length (p ++ opening ++ ["/"%char])) by (rewrite !app_length; cbn; lia). rewrite match_key_same. cbn [obind].
  rewrite at_off. rewrite <- (app_length _ k). rewrite <- Nat.add_assoc.
  replace (at_ (k ++ closing ++ post) (length k)) with (@Ok ascii rbrace) by (symmetry; apply at_here). cbn [obind]. rewrite Ascii.eqb_refl. cbn [negb].
  rewrite (app_length _ k), <- Nat.add_assoc, at_off, at_off. cbn [closing app]; rat. rewrite Ascii.eqb_refl. cbn [negb].
  f_equal. f_equal. rewrite !app_length. cbn. lia.
Qed.
