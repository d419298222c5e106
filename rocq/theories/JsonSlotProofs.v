(** Soundness of JSON value storage. *)
From Coq Require Import String Ascii ZArith NArith Arith Bool Lia List Permutation.
From Verif Require Import Common JsonNumModel JsonModel JsonSlotModel JsonSlotSpec.
Import ListNotations.

Section NESTED.
Variable P : slot -> Prop.
Hypothesis h_clean : forall t, P (Clean t).
Hypothesis h_leaf : forall t id l, P (Leaf t id l).
Hypothesis h_node : forall t id obj kids, Forall (fun p => P (snd p)) kids -> P (Node t id obj kids).
Fixpoint slot_nested (s : slot) : P s :=
  match s with
  | Clean t => h_clean t
  | Leaf t id l => h_leaf t id l
  | Node t id obj kids => h_node t id obj kids ((fix all kids : Forall (fun p => P (snd p)) kids :=
      match kids with [] => Forall_nil _ | p :: kids => Forall_cons p (slot_nested (snd p)) (all kids) end) kids)
  end.
End NESTED.

Lemma kind_eqb_eq : forall a b, kind_eqb a b = true <-> a = b.
Proof. intros a b. destruct a, b; cbn; split; congruence. Qed.
Lemma kind_eqb_refl : forall a, kind_eqb a a = true.
Proof. intros. now apply kind_eqb_eq. Qed.

Lemma destroy_ok : forall s, matches s -> exists g, destroy s = Ok g /\ Permutation g (live s).
Proof.
  apply (slot_nested (fun s => matches s -> exists g, destroy s = Ok g /\ Permutation g (live s))).
  - intros t M. inversion M; subst. exists []. split; reflexivity.
  - intros t id l M. inversion M; subst. exists [id]. cbn. rewrite kind_eqb_refl. split; reflexivity.
  - intros t id obj kids F M. inversion M as [| |? ? ? Mk]; subst. cbn [destroy live]. rewrite kind_eqb_refl.
    match goal with |- exists g, obind ?e _ = _ /\ _ => cut (exists h, e = Ok h /\ Permutation h (flat_map (fun p => live (snd p)) kids)) end.
    { intros (h & -> & Ph). exists (h ++ [id]). split; [reflexivity|]. rewrite <- Permutation_cons_append. now constructor. }
    clear M. induction F as [|(k, s) kids Ps F IH]; [exists []; split; reflexivity|].
    cbn [snd] in Ps. destruct Ps as (g & Eg & Pg); [apply (Mk (k, s)); now left|]. destruct IH as (h & Eh & Ph); [intros p I; apply Mk; now right|].
    rewrite Eg. cbn [obind]. rewrite Eh. cbn [obind]. exists (g ++ h). split; [reflexivity|]. cbn [flat_map snd]. now apply Permutation_app.
Qed.
Lemma copy_ok : forall s n s' n', copy n s = Ok (s', n') ->
  matches s /\ matches s' /\ value s' = value s /\ n <= n' /\ Permutation (live s') (seq n (n' - n)).
Proof.
  apply (slot_nested (fun s => forall n s' n', copy n s = Ok (s', n') -> matches s /\ matches s' /\ value s' = value s /\ n <= n' /\ Permutation (live s') (seq n (n' - n)))).
  - intros t n s' n' E. cbn in E. destruct (kind_eqb t KNll) eqn:K; [|discriminate]. apply kind_eqb_eq in K as ->. injection E as <- <-.
    rewrite Nat.sub_diag. repeat split; try constructor.
  - intros t id l n s' n' E. cbn in E. destruct (kind_eqb t (leaf_kind l)) eqn:K; [|discriminate]. apply kind_eqb_eq in K as ->. injection E as <- <-.
    replace (S n - n) with 1 by lia. split; [constructor|]. split; [constructor|]. split; [reflexivity|]. split; [lia|]. apply Permutation_refl.
  - intros t id obj kids F n s' n' E. cbn [copy] in E. destruct (kind_eqb t (node_kind obj)) eqn:K; [|discriminate]. apply kind_eqb_eq in K as ->.
    match type of E with obind ?e _ = _ => destruct e as [(kids', m)| | |] eqn:Ee end; try discriminate. cbn [obind] in E. injection E as <- <-.
    assert (G : (forall p, In p kids -> matches (snd p)) /\ (forall p, In p kids' -> matches (snd p)) /\
      map (fun p => (fst p, value (snd p))) kids' = map (fun p => (fst p, value (snd p))) kids /\
      S n <= m /\ Permutation (flat_map (fun p => live (snd p)) kids') (seq (S n) (m - S n))).
    { revert Ee. generalize (S n). intros b. revert kids' m b. induction F as [|(k, s) kids Ps F IH]; intros kids' m b Ee.
      - injection Ee as <- <-. rewrite Nat.sub_diag. repeat split; auto; try contradiction; try constructor.
      - cbn [snd] in Ps. destruct (copy b s) as [(s1, b1)| | |] eqn:Es; try discriminate. cbn [obind] in Ee.
        match type of Ee with obind ?e _ = _ => destruct e as [(ks1, m1)| | |] eqn:Ek end; try discriminate. cbn [obind] in Ee. injection Ee as <- <-.
        destruct (Ps _ _ _ Es) as (M1 & M2 & V & L & Pl). destruct (IH _ _ _ Ek) as (Q1 & Q2 & Q3 & Q4 & Q5).
        repeat split.
        + intros p [<-|I]; auto.
        + intros p [<-|I]; auto.
        + cbn [map fst snd]. rewrite V, Q3. reflexivity.
        + lia.
        + cbn [flat_map snd]. replace (m1 - b) with ((b1 - b) + (m1 - b1)) by lia. rewrite seq_app. replace (b + (b1 - b)) with b1 by lia.
          now apply Permutation_app. }
    destruct G as (Q1 & Q2 & Q3 & Q4 & Q5). repeat split.
    + now constructor.
    + now constructor.
    + cbn [value]. destruct obj; f_equal; [exact Q3|]. apply (f_equal (map snd)) in Q3. rewrite !map_map in Q3. exact Q3.
    + lia.
    + cbn [live]. replace (m - n) with (S (m - S n)) by lia. cbn [seq]. now constructor.
Qed.
Lemma copy_total : forall s, matches s -> forall n, exists s' n', copy n s = Ok (s', n').
Proof.
  apply (slot_nested (fun s => matches s -> forall n, exists s' n', copy n s = Ok (s', n'))).
  - intros t M n. inversion M; subst. cbn. eauto.
  - intros t id l M n. inversion M; subst. cbn. rewrite kind_eqb_refl. eauto.
  - intros t id obj kids F M n. inversion M as [| |? ? ? Mk]; subst. cbn [copy]. rewrite kind_eqb_refl.
    match goal with |- exists a b, obind ?e _ = _ => cut (exists k' m, e = Ok (k', m)) end; [intros (k' & m & ->); cbn; eauto|].
    generalize (S n). clear M. induction F as [|(k, s) kids Ps F IH]; intros b; [eauto|].
    cbn [snd] in Ps. destruct (Ps (Mk (k, s) (or_introl eq_refl)) b) as (s1 & b1 & ->). cbn [obind].
    destruct (IH (fun p I => Mk p (or_intror I)) b1) as (k1 & m & ->). cbn. eauto.
Qed.

(** ** Paths *)
Lemma set_nth_app : forall A (x y : A) l r, set_nth (length l) x (l ++ y :: r) = l ++ x :: r.
Proof. induction l as [|a l IH]; intros r; [reflexivity|]. cbn. now rewrite IH. Qed.
Lemma set_nth_same : forall A i (x : A) l y, nth_error l i = Some y -> nth_error (set_nth i x l) i = Some x.
Proof. induction i; intros x l y H; destruct l; try discriminate; [reflexivity|]. cbn in *. eauto. Qed.
Lemma set_nth_other : forall A i j (x : A) l, i <> j -> nth_error (set_nth i x l) j = nth_error l j.
Proof. induction i; intros j x l H; destruct l; auto; destruct j; cbn; auto; try lia. Qed.
Lemma set_nth_twice : forall A i (x y : A) l, set_nth i y (set_nth i x l) = set_nth i y l.
Proof. induction i; intros x y l; destruct l; cbn; auto. now rewrite IHi. Qed.
Lemma set_nth_comm : forall A i j (x y : A) l, i <> j -> set_nth i x (set_nth j y l) = set_nth j y (set_nth i x l).
Proof. induction i; intros j x y l H; destruct l, j; cbn; auto; try lia. rewrite IHi by lia. reflexivity. Qed.
Lemma get_cons : forall i p ks, get (i :: p) ks =
  match nth_error ks i with None => None | Some (_, s) => match p with [] => Some s | _ => match s with Node _ _ _ kids => get p kids | _ => None end end end.
Proof. reflexivity. Qed.
Lemma put_total : forall p z ks x, get p ks = Some x -> exists ks', put p z ks = Some ks' /\ get p ks' = Some z.
Proof.
  induction p as [|i p IH]; intros z ks x H; [discriminate|]. cbn [get] in H. cbn [put].
  destruct (nth_error ks i) as [(k, s)|] eqn:E; [|discriminate]. destruct p as [|j p].
  - eexists. split; [reflexivity|]. cbn [get]. rewrite (set_nth_same _ _ _ _ _ E). reflexivity.
  - destruct s as [| |t id obj kids]; try discriminate. destruct (IH z kids x H) as (kids' & -> & G). eexists. split; [reflexivity|].
    rewrite get_cons, (set_nth_same _ _ _ _ _ E). exact G.
Qed.
Lemma put_some : forall p z ks ks', put p z ks = Some ks' -> exists x, get p ks = Some x.
Proof.
  induction p as [|i p IH]; intros z ks ks' H; [discriminate|]. cbn [put] in H. rewrite get_cons.
  destruct (nth_error ks i) as [(k, s)|] eqn:E; [|discriminate]. destruct p as [|j p]; [eauto|].
  destruct s as [| |t id obj kids]; try discriminate. destruct (put (j :: p) z kids) eqn:Ep; [|discriminate]. eauto.
Qed.
Lemma put_put : forall p x z ks ks', put p x ks = Some ks' -> put p z ks' = put p z ks.
Proof.
  induction p as [|i p IH]; intros x z ks ks' H; [discriminate|]. cbn [put] in H |- *.
  destruct (nth_error ks i) as [(k, s)|] eqn:E; [|discriminate]. destruct p as [|j p].
  - injection H as <-. rewrite (set_nth_same _ _ _ _ _ E). now rewrite set_nth_twice.
  - destruct s as [| |t id obj kids]; try discriminate. destruct (put (j :: p) x kids) as [kids'|] eqn:Ep; [|discriminate]. injection H as <-.
    rewrite (set_nth_same _ _ _ _ _ E). rewrite (IH x z kids kids' Ep). destruct (put (j :: p) z kids); [|reflexivity]. now rewrite set_nth_twice.
Qed.
Lemma put_self : forall p x ks, get p ks = Some x -> put p x ks = Some ks.
Proof.
  assert (N : forall A i (x : A) l, nth_error l i = Some x -> set_nth i x l = l).
  { induction i; intros x l H; destruct l; try discriminate; cbn in *; [congruence|]. now rewrite IHi. }
  induction p as [|i p IH]; intros x ks H; [discriminate|]. cbn [get] in H. cbn [put].
  destruct (nth_error ks i) as [(k, s)|] eqn:E; [|discriminate]. destruct p as [|j p].
  - injection H as <-. now rewrite N.
  - destruct s as [| |t id obj kids]; try discriminate. rewrite (IH x kids H). now rewrite N.
Qed.
Lemma put_live : forall p ks x, get p ks = Some x -> exists rest, forall z ks', put p z ks = Some ks' ->
  Permutation (live_all ks') (live z ++ rest).
Proof.
  unfold live_all. induction p as [|i p IH]; intros ks x H; [discriminate|]. cbn [get] in H. cbn [put].
  destruct (nth_error ks i) as [(k, s)|] eqn:E; [|discriminate]. destruct (nth_error_split ks i E) as (l1 & l2 & -> & <-).
  destruct p as [|j p].
  - exists (flat_map (fun p => live (snd p)) (l1 ++ l2)). intros z ks' Ez. injection Ez as <-. rewrite set_nth_app, !flat_map_app. cbn [flat_map snd].
    rewrite Permutation_app_comm, <- app_assoc. apply Permutation_app_head, Permutation_app_comm.
  - destruct s as [| |t id obj kids]; try discriminate. destruct (IH kids x H) as (rest & G).
    exists (id :: rest ++ flat_map (fun p => live (snd p)) (l1 ++ l2)). intros z ks' Ez.
    destruct (put (j :: p) z kids) as [kids'|] eqn:Ep; [|discriminate]. injection Ez as <-. rewrite set_nth_app, !flat_map_app. cbn [flat_map snd live app].
    rewrite <- (Permutation_middle (flat_map _ l1)). rewrite <- Permutation_middle. constructor. rewrite (G z kids' Ep), <- !app_assoc.
    rewrite (Permutation_app_comm (flat_map _ l1)). rewrite <- !app_assoc. do 2 apply Permutation_app_head. apply Permutation_app_comm.
Qed.
Lemma in_set_nth : forall A i (x y : A) l, In y (set_nth i x l) -> y = x \/ In y l.
Proof. induction i; intros x y l H; destruct l; cbn in *; auto; [intuition|]. destruct H as [H|H]; [auto|]. apply IHi in H. tauto. Qed.
Lemma put_matches : forall p z ks ks', put p z ks = Some ks' -> (forall q, In q ks -> matches (snd q)) -> matches z -> forall q, In q ks' -> matches (snd q).
Proof.
  induction p as [|i p IH]; intros z ks ks' H M Mz q I; [discriminate|]. cbn [put] in H.
  destruct (nth_error ks i) as [(k, s)|] eqn:E; [|discriminate]. destruct p as [|j p].
  - injection H as <-. apply in_set_nth in I as [->|I]; auto.
  - destruct s as [| |t id obj kids]; try discriminate. destruct (put (j :: p) z kids) as [kids'|] eqn:Ep; [|discriminate]. injection H as <-.
    apply in_set_nth in I as [->|I]; auto. cbn [snd]. apply nth_error_In in E. apply M in E. cbn [snd] in E. inversion E as [| |? ? ? Mk]; subst.
    constructor. eapply IH; eauto.
Qed.
Lemma get_matches : forall p ks x, get p ks = Some x -> (forall q, In q ks -> matches (snd q)) -> matches x.
Proof.
  induction p as [|i p IH]; intros ks x H M; [discriminate|]. cbn [get] in H.
  destruct (nth_error ks i) as [(k, s)|] eqn:E; [|discriminate]. apply nth_error_In in E. apply M in E. cbn [snd] in E. destruct p as [|j p].
  - injection H as <-. exact E.
  - destruct s as [| |t id obj kids]; try discriminate. inversion E as [| |? ? ? Mk]; subst. eapply IH; eauto.
Qed.
Lemma apart_sym : forall p q, apart p q -> apart q p.
Proof. unfold apart. tauto. Qed.
Lemma apart_tail : forall i p q, apart (i :: p) (i :: q) -> apart p q.
Proof. intros i p q (H1 & H2). split; intros r E; [apply (H1 r)|apply (H2 r)]; cbn; now f_equal. Qed.
Lemma get_put_apart : forall p q x ks ks', apart p q -> put p x ks = Some ks' -> get q ks' = get q ks.
Proof.
  induction p as [|i p IH]; intros q x ks ks' A H; [discriminate|]. cbn [put] in H.
  destruct (nth_error ks i) as [(k, s)|] eqn:E; [|discriminate]. destruct q as [|j q]; [reflexivity|].
  destruct (Nat.eq_dec i j) as [->|N].
  - apply apart_tail in A. destruct p as [|a p]; [destruct A as (A & _); now destruct (A q)|]. destruct q as [|b q]; [destruct A as (_ & A); now destruct (A (a :: p))|].
    destruct s as [| |t id obj kids]; try discriminate. destruct (put (a :: p) x kids) as [kids'|] eqn:Ep; [|discriminate]. injection H as <-.
    rewrite !(get_cons j), (set_nth_same _ _ _ _ _ E), E. eapply IH; eauto.
  - assert (G : exists w, ks' = set_nth i w ks).
    { destruct p as [|a p]; [injection H as <-; eauto|]. destruct s; try discriminate. destruct (put (a :: p) x kids); [|discriminate]. injection H as <-. eauto. }
    destruct G as (w & ->). rewrite !get_cons. now rewrite set_nth_other.
Qed.
Lemma put_comm : forall p q x y ks a b, apart p q -> put p x ks = Some a -> put q y a = Some b ->
  exists c, put q y ks = Some c /\ put p x c = Some b.
Proof.
  induction p as [|i p IH]; intros q x y ks a b A H1 H2; [discriminate|]. destruct q as [|j q]; [discriminate|]. cbn [put] in *.
  destruct (nth_error ks i) as [(k, s)|] eqn:E; [|discriminate]. destruct (Nat.eq_dec i j) as [->|N].
  - apply apart_tail in A. destruct p as [|u p]; [destruct A as (A & _); now destruct (A q)|]. destruct q as [|w q]; [destruct A as (_ & A); now destruct (A (u :: p))|].
    destruct s as [| |t id obj kids]; try discriminate. destruct (put (u :: p) x kids) as [kids1|] eqn:E1; [|discriminate]. injection H1 as <-.
    rewrite (set_nth_same _ _ _ _ _ E) in H2. destruct (put (w :: q) y kids1) as [kids2|] eqn:E2; [|discriminate]. injection H2 as <-.
    destruct (IH _ _ _ _ _ _ A E1 E2) as (kids3 & E3 & E4). rewrite E, E3. eexists. split; [reflexivity|]. rewrite (set_nth_same _ _ _ _ _ E), E4, !set_nth_twice. reflexivity.
  - assert (G : exists w, a = set_nth i w ks /\ forall c, nth_error c i = Some (k, s) -> match p with [] => Some (set_nth i (k, x) c) | _ :: _ =>
        match s with Node t id obj kids => match put p x kids with Some kids' => Some (set_nth i (k, Node t id obj kids') c) | None => None end | _ => None end end = Some (set_nth i w c)).
    { destruct p as [|u p]; [injection H1 as <-; eexists; split; [reflexivity|reflexivity]|]. destruct s; try discriminate. destruct (put (u :: p) x kids); [|discriminate]. injection H1 as <-. eexists. split; [reflexivity|reflexivity]. }
    destruct G as (w & -> & G). rewrite set_nth_other in H2 by exact N. destruct (nth_error ks j) as [(k2, s2)|] eqn:Ej; [|discriminate].
    destruct q as [|v q].
    + injection H2 as <-. eexists. split; [reflexivity|]. rewrite set_nth_other by auto. rewrite E. rewrite G by (now rewrite set_nth_other by auto). f_equal. now rewrite set_nth_comm.
    + destruct s2 as [| |t2 id2 obj2 kids2]; try discriminate. destruct (put (v :: q) y kids2) as [kids3|]; [|discriminate]. injection H2 as <-.
      eexists. split; [reflexivity|]. rewrite set_nth_other by auto. rewrite E. rewrite G by (now rewrite set_nth_other by auto). f_equal. now rewrite set_nth_comm.
Qed.
Lemma relation : forall p q, apart p q \/ (exists r, q = p ++ r) \/ (exists r, p = q ++ r).
Proof.
  induction p as [|i p IH]; intros q; [right; left; exists q; reflexivity|]. destruct q as [|j q]; [right; right; exists (i :: p); reflexivity|].
  destruct (Nat.eq_dec i j) as [->|N].
  - destruct (IH q) as [(A & B)|[(r & ->)|(r & ->)]].
    + left. split; intros r E; injection E as E; [now apply (A r)|now apply (B r)].
    + right. left. exists r. reflexivity.
    + right. right. exists r. reflexivity.
  - left. split; intros r E; injection E as E1 E2; congruence.
Qed.
Lemma get_below : forall p r z ks ks', put p z ks = Some ks' -> r <> [] -> (match z with Node _ _ _ [] => True | Node _ _ _ _ => False | _ => True end) -> get (p ++ r) ks' = None.
Proof.
  induction p as [|i p IH]; intros r z ks ks' H Nr Hz; [discriminate|]. cbn [put] in H. cbn [app]. rewrite get_cons.
  destruct (nth_error ks i) as [(k, s)|] eqn:E; [|discriminate]. destruct p as [|j p].
  - injection H as <-. rewrite (set_nth_same _ _ _ _ _ E). destruct r as [|a r]; [congruence|]. cbn [app].
    destruct z as [| |t id obj kids]; auto. destruct kids; [|contradiction]. cbn [get]. destruct a; reflexivity.
  - destruct s as [| |t id obj kids]; try discriminate. destruct (put (j :: p) z kids) as [kids'|] eqn:Ep; [|discriminate]. injection H as <-.
    rewrite (set_nth_same _ _ _ _ _ E). cbn [app]. eapply (IH r z); eauto.
Qed.

(** ** Steps *)
Lemma deinit_ok : forall d st st', deinit d st = Ok st' -> exists x g, get d (vars st) = Some x /\ destroy x = Ok g /\
  put d (Clean (tag_of x)) (vars st) = Some (vars st') /\ next st' = next st /\ gone st' = gone st ++ g.
Proof.
  intros d st st' H. unfold deinit in H. destruct (get d (vars st)) as [x|] eqn:Ex; [|discriminate]. cbn [opt obind] in H.
  destruct (destroy x) as [g| | |] eqn:Eg; try discriminate. cbn [obind] in H.
  destruct (put d (Clean (tag_of x)) (vars st)) as [ks|] eqn:Ek; [|discriminate]. cbn [opt obind] in H. injection H as <-. exists x, g. auto.
Qed.
Lemma deinit_total : forall d st x, sound st -> get d (vars st) = Some x -> exists st' g, deinit d st = Ok st' /\ destroy x = Ok g /\
  put d (Clean (tag_of x)) (vars st) = Some (vars st') /\ next st' = next st /\ gone st' = gone st ++ g.
Proof.
  intros d st x (M & _) G. unfold deinit. rewrite G. cbn [opt obind]. destruct (destroy_ok x (get_matches _ _ _ G M)) as (g & Eg & _). rewrite Eg. cbn [obind].
  destruct (put_total d (Clean (tag_of x)) _ _ G) as (ks & -> & _). cbn [opt obind]. do 2 eexists. split; [reflexivity|]. auto.
Qed.
Lemma install : forall st d x g z n ks, sound st -> get d (vars st) = Some x -> destroy x = Ok g -> put d z (vars st) = Some ks ->
  matches z -> next st <= n -> Permutation (live z) (seq (next st) (n - next st)) ->
  sound {| vars := ks; next := n; gone := gone st ++ g |}.
Proof.
  intros st d x g z n ks (M & A) G D P Mz L Pz. split; [cbn; eapply put_matches; eauto|]. unfold accounted in *. cbn [gone vars next].
  destruct (destroy_ok x (get_matches _ _ _ G M)) as (g' & Eg & Pg). rewrite D in Eg. injection Eg as <-.
  destruct (put_live d _ _ G) as (rest & R). rewrite (R z ks P). rewrite (R x _ (put_self _ _ _ G)) in A.
  replace n with (next st + (n - next st)) by lia. rewrite seq_app. cbn [plus]. rewrite <- Pz, <- A, Pg, <- !app_assoc.
  do 2 apply Permutation_app_head. apply Permutation_app_comm.
Qed.
Lemma build_ok : forall n v z m, build n v = (z, m) -> matches z /\ n <= m /\ Permutation (live z) (seq n (m - n)) /\ value z = plain_jval v.
Proof.
  intros n v z m E. destruct v as [l|obj|]; injection E as <- <-; (split; [constructor; try (intros p [])|]); (split; [lia|]).
  - replace (S n - n) with 1 by lia. destruct l; auto.
  - replace (S n - n) with 1 by lia. destruct obj; auto.
  - rewrite Nat.sub_diag. auto.
Qed.
Lemma take_ok : forall n y z y' m, take n y = Ok (z, y', m) -> matches y -> matches z /\ matches y' /\ n <= m /\
  Permutation (live z ++ live y') (live y ++ seq n (m - n)) /\ value z = value y /\ value y' = emptied (value y) /\
  (match y' with Node _ _ _ [] => True | Node _ _ _ _ => False | _ => True end).
Proof.
  intros n y z y' m E M. destruct y as [t|t id l|t id obj kids]; cbn [take] in E; inversion M as [|? ?|? ? ? Mk]; subst; rewrite kind_eqb_refl in E; injection E as <- <- <-.
  - rewrite Nat.sub_diag. repeat split; constructor.
  - replace (S n - n) with 1 by lia. destruct l; repeat split; cbn; try (constructor; lia); try apply perm_swap; try apply (m_leaf id (LStr [])); try apply (m_leaf _ (LNum _)); try apply (m_leaf _ (LBln _)); try apply (m_leaf _ (LStr _)); lia.
  - replace (S n - n) with 1 by lia. repeat split; try (constructor; auto; intros p []); try lia.
    + cbn [live flat_map seq app]. rewrite <- Permutation_cons_append. rewrite Permutation_app_comm. cbn. apply perm_swap.
    + destruct obj; reflexivity.
Qed.
Lemma seq_extend : forall a n, a <= n -> seq 0 n = seq 0 a ++ seq a (n - a).
Proof. intros a n L. replace n with (a + (n - a)) at 1 by lia. now rewrite seq_app. Qed.

Lemma step_sound : forall st o st', sound st -> step st o = Ok st' -> sound st'.
Proof.
  intros st o st' S H. destruct o as [d s|d s|d v|d v|d|d pos k|d]; cbn [step] in H.
  - destruct (deinit d st) as [s1| | |] eqn:D; try discriminate. cbn [obind] in H. destruct (deinit_ok _ _ _ D) as (x & g & G & Dx & P & En & Eg).
    destruct (get s (vars s1)) as [y|]; [|discriminate]. cbn [opt obind] in H. destruct (copy (next s1) y) as [(z, n)| | |] eqn:C; try discriminate. cbn [obind] in H.
    destruct (put d z (vars s1)) as [ks|] eqn:Pk; [|discriminate]. cbn [opt obind] in H. injection H as <-. rewrite (put_put _ _ _ _ _ P) in Pk.
    destruct (copy_ok _ _ _ _ C) as (_ & Mz & _ & L & Pz). rewrite En in *. rewrite Eg. eapply install; eauto.
  - destruct (deinit d st) as [s1| | |] eqn:D; try discriminate. cbn [obind] in H. destruct (deinit_ok _ _ _ D) as (x & g & G & Dx & P & En & Eg).
    destruct (get s (vars s1)) as [y|] eqn:Gy; [|discriminate]. cbn [opt obind] in H. destruct (take (next s1) y) as [((z, y'), n)| | |] eqn:C; try discriminate. cbn [obind] in H.
    destruct (put s y' (vars s1)) as [ks|] eqn:Pk; [|discriminate]. cbn [opt obind] in H. destruct (put d z ks) as [ks2|] eqn:Pd; [|discriminate]. cbn [opt obind] in H. injection H as <-.
    destruct (relation d s) as [A|[(r & ->)|(r & ->)]].
    + assert (Gs : get s (vars st) = Some y) by (rewrite <- Gy; symmetry; eapply get_put_apart; eauto).
      destruct S as (M & Ac). pose proof (get_matches _ _ _ Gs M) as My. rewrite En in C. destruct (take_ok _ _ _ _ _ C My) as (Mz & My' & L & Pl & _).
      destruct (put_comm _ _ _ _ _ _ _ A P Pk) as (c & Pc & Pc2).
      assert (Gc : get d c = Some x) by (rewrite <- G; eapply get_put_apart; [apply apart_sym|]; eauto).
      rewrite (put_put _ _ _ _ _ Pc2) in Pd. split.
      * cbn. eapply put_matches; [exact Pd| |exact Mz]. eapply put_matches; eauto.
      * unfold accounted in *. cbn [gone vars next]. rewrite Eg.
        destruct (destroy_ok x (get_matches _ _ _ G M)) as (g' & Eg' & Pg). rewrite Dx in Eg'. injection Eg' as <-.
        destruct (put_live d c x Gc) as (rd & Rd). rewrite (Rd z ks2 Pd). pose proof (Rd x c (put_self _ _ _ Gc)) as Lc.
        destruct (put_live s _ _ Gs) as (rs & Rs). pose proof (Rs y' c Pc) as Lc2. pose proof (Rs y _ (put_self _ _ _ Gs)) as Ls.
        rewrite (seq_extend (next st) n L), <- Ac, Ls, Pg.
        assert (E1 : Permutation (live x ++ rd) (live y' ++ rs)) by (rewrite <- Lc; exact Lc2).
        rewrite <- !app_assoc. apply Permutation_app_head.
        transitivity (live z ++ (live x ++ rd)); [rewrite !app_assoc; apply Permutation_app_tail, Permutation_app_comm|].
        rewrite E1, app_assoc, Pl, <- !app_assoc. apply Permutation_app_head, Permutation_app_comm.
    + destruct r as [|a r].
      * rewrite app_nil_r in *. destruct (put_total d (Clean (tag_of x)) _ _ G) as (k1 & E1 & G1). rewrite P in E1. injection E1 as <-. rewrite Gy in G1. injection G1 as ->.
        cbn [take] in C. destruct (kind_eqb (tag_of x) KNll) eqn:K; [|discriminate]. injection C as <- <- <-. apply kind_eqb_eq in K.
        rewrite (put_put _ _ _ _ _ Pk), (put_put _ _ _ _ _ P) in Pd. rewrite En, Eg. eapply install; eauto; [constructor|rewrite Nat.sub_diag; constructor].
      * rewrite (get_below d (a :: r) _ _ _ P) in Gy; [discriminate|discriminate|exact I].
    + destruct r as [|a r].
      * rewrite app_nil_r in *. destruct (put_total s (Clean (tag_of x)) _ _ G) as (k1 & E1 & G1). rewrite P in E1. injection E1 as <-. rewrite Gy in G1. injection G1 as ->.
        cbn [take] in C. destruct (kind_eqb (tag_of x) KNll) eqn:K; [|discriminate]. injection C as <- <- <-. apply kind_eqb_eq in K.
        rewrite (put_put _ _ _ _ _ Pk), (put_put _ _ _ _ _ P) in Pd. rewrite En, Eg. eapply install; eauto; [constructor|rewrite Nat.sub_diag; constructor].
      * destruct (put_some _ _ _ _ Pd) as (w & Gw).
        assert (Hy : match y' with Node _ _ _ [] => True | Node _ _ _ _ => False | _ => True end).
        { destruct y as [t|t id l|t id obj kids]; cbn [take] in C; destruct (kind_eqb _ _); try discriminate; injection C as <- <- <-; exact I. }
        rewrite (get_below s (a :: r) _ _ _ Pk) in Gw; [discriminate|discriminate|exact Hy].
  - destruct (deinit d st) as [s1| | |] eqn:D; try discriminate. cbn [obind] in H. destruct (deinit_ok _ _ _ D) as (x & g & G & Dx & P & En & Eg).
    destruct (build (next s1) v) as (z, n) eqn:B. destruct (put d z (vars s1)) as [ks|] eqn:Pk; [|discriminate]. cbn [opt obind] in H. injection H as <-.
    rewrite (put_put _ _ _ _ _ P) in Pk. rewrite En in B. destruct (build_ok _ _ _ _ B) as (Mz & L & Pz & _). rewrite Eg. eapply install; eauto.
  - destruct (deinit d st) as [s1| | |] eqn:D; try discriminate. cbn [obind] in H. destruct (deinit_ok _ _ _ D) as (x & g & G & Dx & P & En & Eg).
    destruct (deinit d s1) as [s2| | |] eqn:D2; try discriminate. cbn [obind] in H. destruct (deinit_ok _ _ _ D2) as (x2 & g2 & G2 & Dx2 & P2 & En2 & Eg2).
    destruct (put_total d (Clean (tag_of x)) _ _ G) as (k1 & E1 & G1). rewrite P in E1. injection E1 as <-. rewrite G2 in G1. injection G1 as ->.
    cbn [destroy] in Dx2. destruct (kind_eqb (tag_of x) KNll); [|discriminate]. injection Dx2 as <-. rewrite app_nil_r in Eg2.
    destruct (build (next s2) v) as (z, n) eqn:B. destruct (put d z (vars s2)) as [ks|] eqn:Pk; [|discriminate]. cbn [opt obind] in H. injection H as <-.
    rewrite (put_put _ _ _ _ _ P2), (put_put _ _ _ _ _ P) in Pk. rewrite En2, En in B. destruct (build_ok _ _ _ _ B) as (Mz & L & Pz & _). rewrite Eg2, Eg. eapply install; eauto.
  - destruct (get d (vars st)) as [x|] eqn:G; [|discriminate]. cbn [opt obind] in H. destruct x as [| |t id obj kids]; try discriminate.
    destruct t; try discriminate. destruct obj; try discriminate. destruct (put d _ (vars st)) as [ks|] eqn:Pk; [|discriminate]. cbn [opt obind] in H. injection H as <-.
    destruct S as (M & A). pose proof (get_matches _ _ _ G M) as Mx. inversion Mx as [| |? ? ? Mk]; subst. split.
    + cbn. eapply put_matches; eauto. apply (m_node id false). intros p I. apply in_app_or in I as [I|[<-|[]]]; [auto|constructor].
    + unfold accounted in *. cbn [gone vars next]. destruct (put_live d _ _ G) as (rest & R). rewrite (R _ ks Pk). rewrite (R _ _ (put_self _ _ _ G)) in A. rewrite <- A.
      apply Permutation_app_head, Permutation_app_tail. cbn [live]. rewrite flat_map_app. cbn. rewrite app_nil_r. apply Permutation_refl.
  - destruct (get d (vars st)) as [x|] eqn:G; [|discriminate]. cbn [opt obind] in H. destruct x as [| |t id obj kids]; try discriminate.
    destruct t; try discriminate. destruct obj; try discriminate. destruct (put d _ (vars st)) as [ks|] eqn:Pk; [|discriminate]. cbn [opt obind] in H. injection H as <-.
    destruct S as (M & A). pose proof (get_matches _ _ _ G M) as Mx. inversion Mx as [| |? ? ? Mk]; subst. split.
    + cbn. eapply put_matches; eauto. apply (m_node id true). intros p I. rewrite <- (firstn_skipn pos kids) in Mk.
      apply in_app_or in I as [I|[<-|I]]; [apply Mk; apply in_or_app; now left|constructor|apply Mk; apply in_or_app; now right].
    + unfold accounted in *. cbn [gone vars next]. destruct (put_live d _ _ G) as (rest & R). rewrite (R _ ks Pk). rewrite (R _ _ (put_self _ _ _ G)) in A. rewrite <- A.
      apply Permutation_app_head, Permutation_app_tail. cbn [live]. rewrite flat_map_app. cbn [flat_map snd live app]. rewrite <- flat_map_app, firstn_skipn. apply Permutation_refl.
  - destruct (deinit [d] st) as [s1| | |] eqn:D; try discriminate. cbn [obind] in H. destruct (deinit_ok _ _ _ D) as (x & g & G & Dx & P & En & Eg).
    destruct (put [d] (Clean KNll) (vars s1)) as [ks|] eqn:Pk; [|discriminate]. cbn [opt obind] in H. injection H as <-.
    rewrite (put_put _ _ _ _ _ P) in Pk. rewrite En, Eg. eapply install; eauto; [constructor|rewrite Nat.sub_diag; constructor].
Qed.
Lemma start_sound : forall names, sound (start names).
Proof.
  intros names. split.
  - cbn. intros p I. apply in_map_iff in I as (k & <- & _). constructor.
  - unfold accounted, start, live_all. cbn. induction names as [|k names IH]; [constructor|exact IH].
Qed.
Lemma run_sound : forall ops st st', sound st -> run st ops = Ok st' -> sound st'.
Proof.
  induction ops as [|o ops IH]; intros st st' S H; [injection H as <-; exact S|]. cbn [run] in H.
  destruct (step st o) as [s1| | |] eqn:E; try discriminate. cbn [obind] in H. eapply IH; [|exact H]. eapply step_sound; eauto.
Qed.
Lemma histories : forall names ops st, run (start names) ops = Ok st -> sound st.
Proof. intros names ops st H. eapply run_sound; [apply start_sound|exact H]. Qed.

(** ** Effects *)
Lemma copy_effect : forall st d s x y, sound st -> get d (vars st) = Some x -> get s (vars st) = Some y -> apart d s ->
  exists st', step st (Copy d s) = Ok st' /\ value_at d st' = Some (value y) /\ forall q, apart d q -> get q (vars st') = get q (vars st).
Proof.
  intros st d s x y S Gd Gs A. destruct (deinit_total d st x S Gd) as (s1 & g & D & _ & P & En & _). cbn [step]. rewrite D. cbn [obind].
  rewrite (get_put_apart _ _ _ _ _ A P), Gs. cbn [opt obind]. destruct (copy_total y (get_matches _ _ _ Gs (proj1 S)) (next s1)) as (z & n & C). rewrite C. cbn [obind].
  destruct (put_total d (Clean (tag_of x)) _ _ Gd) as (k1 & E1 & G1). rewrite P in E1. injection E1 as <-.
  destruct (put_total d z _ _ G1) as (ks & E2 & G2). rewrite E2. cbn [opt obind]. eexists. split; [reflexivity|]. destruct (copy_ok _ _ _ _ C) as (_ & _ & V & _).
  unfold value_at. cbn [vars]. rewrite G2. cbn. split; [now rewrite V|]. intros q Aq. rewrite (get_put_apart _ _ _ _ _ Aq E2). exact (get_put_apart _ _ _ _ _ Aq P).
Qed.
Lemma move_effect : forall st d s x y, sound st -> get d (vars st) = Some x -> get s (vars st) = Some y -> apart d s ->
  exists st', step st (Move d s) = Ok st' /\ value_at d st' = Some (value y) /\ value_at s st' = Some (emptied (value y)) /\
    forall q, apart d q -> apart s q -> get q (vars st') = get q (vars st).
Proof.
  intros st d s x y S Gd Gs A. destruct (deinit_total d st x S Gd) as (s1 & g & D & _ & P & En & _). cbn [step]. rewrite D. cbn [obind].
  pose proof (get_put_apart _ _ _ _ _ A P) as Gs1. rewrite Gs in Gs1. rewrite Gs1. cbn [opt obind]. pose proof (get_matches _ _ _ Gs (proj1 S)) as My.
  assert (T : exists z y' n, take (next s1) y = Ok (z, y', n)) by (inversion My; subst; cbn [take]; rewrite kind_eqb_refl; eauto).
  destruct T as (z & y' & n & T). rewrite T. cbn [obind]. destruct (take_ok _ _ _ _ _ T My) as (_ & _ & _ & _ & V & V' & _).
  destruct (put_total s y' _ _ Gs1) as (ks & E1 & G1). rewrite E1. cbn [opt obind].
  destruct (put_total d (Clean (tag_of x)) _ _ Gd) as (k1 & Ek & Gk). rewrite P in Ek. injection Ek as <-.
  assert (Gd2 : get d ks = Some (Clean (tag_of x))) by (rewrite <- Gk; exact (get_put_apart _ _ _ _ _ (apart_sym _ _ A) E1)).
  destruct (put_total d z _ _ Gd2) as (ks2 & E2 & G2). rewrite E2. cbn [opt obind]. eexists. split; [reflexivity|]. unfold value_at. cbn [vars]. rewrite G2. cbn.
  split; [now rewrite V|]. split; [rewrite (get_put_apart _ _ _ _ _ A E2), G1; cbn; now rewrite V'|].
  intros q Aq As. rewrite (get_put_apart _ _ _ _ _ Aq E2), (get_put_apart _ _ _ _ _ As E1). exact (get_put_apart _ _ _ _ _ Aq P).
Qed.
Lemma set_effect : forall st d v x, sound st -> get d (vars st) = Some x ->
  exists st', step st (Set_ d v) = Ok st' /\ value_at d st' = Some (plain_jval v) /\ forall q, apart d q -> get q (vars st') = get q (vars st).
Proof.
  intros st d v x S Gd. destruct (deinit_total d st x S Gd) as (s1 & g & D & _ & P & En & _). cbn [step]. rewrite D. cbn [obind].
  destruct (build (next s1) v) as (z, n) eqn:B. destruct (put_total d (Clean (tag_of x)) _ _ Gd) as (k1 & Ek & Gk). rewrite P in Ek. injection Ek as <-.
  destruct (put_total d z _ _ Gk) as (ks2 & E2 & G2). rewrite E2. cbn [opt obind]. eexists. split; [reflexivity|]. unfold value_at. cbn [vars]. rewrite G2. cbn.
  destruct (build_ok _ _ _ _ B) as (_ & _ & _ & V). split; [now rewrite V|]. intros q Aq. rewrite (get_put_apart _ _ _ _ _ Aq E2). exact (get_put_apart _ _ _ _ _ Aq P).
Qed.
Lemma overlap_ub : forall st d r x, sound st -> get d (vars st) = Some x -> value x <> JNll -> step st (Copy d (d ++ r)) = UB /\ step st (Move d (d ++ r)) = UB.
Proof.
  intros st d r x S Gd V. destruct (deinit_total d st x S Gd) as (s1 & g & D & _ & P & En & _). cbn [step]. rewrite D. cbn [obind].
  destruct r as [|a r].
  - rewrite app_nil_r. destruct (put_total d (Clean (tag_of x)) _ _ Gd) as (k1 & Ek & Gk). rewrite P in Ek. injection Ek as <-. rewrite Gk. cbn [opt obind copy take].
    destruct (kind_eqb (tag_of x) KNll) eqn:K; [|split; reflexivity]. apply kind_eqb_eq in K. pose proof (get_matches _ _ _ Gd (proj1 S)) as M. destruct V. inversion M as [|? l|? o]; subst; cbn in K; [reflexivity|destruct l; discriminate|destruct o; discriminate].
  - rewrite (get_below d (a :: r) _ _ _ P); [split; reflexivity|discriminate|exact I].
Qed.
Lemma via_ub : forall st d v x, sound st -> get d (vars st) = Some x -> value x <> JNll -> step st (SetVia d v) = UB.
Proof.
  intros st d v x S Gd V. destruct (deinit_total d st x S Gd) as (s1 & g & D & _ & P & En & _). cbn [step]. rewrite D. cbn [obind]. unfold deinit at 1.
  destruct (put_total d (Clean (tag_of x)) _ _ Gd) as (k1 & Ek & Gk). rewrite P in Ek. injection Ek as <-. rewrite Gk. cbn [opt obind destroy].
  destruct (kind_eqb (tag_of x) KNll) eqn:K; [|reflexivity]. apply kind_eqb_eq in K. pose proof (get_matches _ _ _ Gd (proj1 S)) as M. destruct V. inversion M as [|? l|? o]; subst; cbn in K; [reflexivity|destruct l; discriminate|destruct o; discriminate].
Qed.

(** ** Nothing is leaked *)
Lemma set_nth_length : forall A i (x : A) l, length (set_nth i x l) = length l.
Proof. induction i; intros x l; destruct l; cbn; auto. Qed.
Lemma put_length : forall p z ks ks', put p z ks = Some ks' -> length ks' = length ks.
Proof.
  intros p z ks ks' H. destruct p as [|i p]; [discriminate|]. cbn [put] in H. destruct (nth_error ks i) as [(k, s)|]; [|discriminate].
  destruct p as [|j p]; [injection H as <-; apply set_nth_length|]. destruct s; try discriminate. destruct (put (j :: p) z kids); [|discriminate]. injection H as <-. apply set_nth_length.
Qed.
Lemma deinit_length : forall d st st', deinit d st = Ok st' -> length (vars st') = length (vars st).
Proof. intros d st st' H. destruct (deinit_ok _ _ _ H) as (x & g & _ & _ & P & _). eapply put_length; eauto. Qed.
Lemma step_length : forall st o st', step st o = Ok st' -> length (vars st') = length (vars st).
Proof.
  intros st o st' H. destruct o as [d s|d s|d v|d v|d|d pos k|d]; cbn [step] in H.
  - destruct (deinit d st) as [s1| | |] eqn:D; try discriminate. cbn [obind] in H. rewrite <- (deinit_length _ _ _ D).
    destruct (get s (vars s1)) as [y|]; [|discriminate]. cbn [opt obind] in H. destruct (copy (next s1) y) as [(z, n)| | |]; try discriminate. cbn [obind] in H.
    destruct (put d z (vars s1)) as [ks|] eqn:P; [|discriminate]. injection H as <-. eapply put_length; eauto.
  - destruct (deinit d st) as [s1| | |] eqn:D; try discriminate. cbn [obind] in H. rewrite <- (deinit_length _ _ _ D).
    destruct (get s (vars s1)) as [y|]; [|discriminate]. cbn [opt obind] in H. destruct (take (next s1) y) as [((z, y'), n)| | |]; try discriminate. cbn [obind] in H.
    destruct (put s y' (vars s1)) as [ks|] eqn:P; [|discriminate]. cbn [opt obind] in H. destruct (put d z ks) as [ks2|] eqn:P2; [|discriminate]. injection H as <-. rewrite <- (put_length _ _ _ _ P). eapply put_length; eauto.
  - destruct (deinit d st) as [s1| | |] eqn:D; try discriminate. cbn [obind] in H. rewrite <- (deinit_length _ _ _ D). destruct (build (next s1) v) as (z, n).
    destruct (put d z (vars s1)) as [ks|] eqn:P; [|discriminate]. injection H as <-. eapply put_length; eauto.
  - destruct (deinit d st) as [s1| | |] eqn:D; try discriminate. cbn [obind] in H. rewrite <- (deinit_length _ _ _ D).
    destruct (deinit d s1) as [s2| | |] eqn:D2; try discriminate. cbn [obind] in H. rewrite <- (deinit_length _ _ _ D2). destruct (build (next s2) v) as (z, n).
    destruct (put d z (vars s2)) as [ks|] eqn:P; [|discriminate]. injection H as <-. eapply put_length; eauto.
  - destruct (get d (vars st)) as [x|]; [|discriminate]. cbn [opt obind] in H. destruct x as [| |t id obj kids]; try discriminate. destruct t; try discriminate. destruct obj; try discriminate.
    destruct (put d _ (vars st)) as [ks|] eqn:P; [|discriminate]. injection H as <-. eapply put_length; eauto.
  - destruct (get d (vars st)) as [x|]; [|discriminate]. cbn [opt obind] in H. destruct x as [| |t id obj kids]; try discriminate. destruct t; try discriminate. destruct obj; try discriminate.
    destruct (put d _ (vars st)) as [ks|] eqn:P; [|discriminate]. injection H as <-. eapply put_length; eauto.
  - destruct (deinit [d] st) as [s1| | |] eqn:D; try discriminate. cbn [obind] in H. rewrite <- (deinit_length _ _ _ D).
    destruct (put [d] (Clean KNll) (vars s1)) as [ks|] eqn:P; [|discriminate]. injection H as <-. eapply put_length; eauto.
Qed.
Lemma run_length : forall ops st st', run st ops = Ok st' -> length (vars st') = length (vars st).
Proof.
  induction ops as [|o ops IH]; intros st st' H; [now injection H as <-|]. cbn [run] in H. destruct (step st o) as [s1| | |] eqn:E; try discriminate. cbn [obind] in H.
  rewrite (IH _ _ H). eapply step_length; eauto.
Qed.
Lemma renew_effect : forall st l1 k s l2, sound st -> vars st = l1 ++ (k, s) :: l2 -> exists st', step st (Renew (length l1)) = Ok st' /\ vars st' = l1 ++ (k, Clean KNll) :: l2.
Proof.
  intros st l1 k s l2 S E. assert (G : get [length l1] (vars st) = Some s).
  { cbn [get]. rewrite E, nth_error_app2, Nat.sub_diag by lia. reflexivity. }
  destruct (deinit_total _ st s S G) as (s1 & g & D & _ & P & _). cbn [step]. rewrite D. cbn [obind].
  assert (E1 : put [length l1] (Clean KNll) (vars s1) = Some (l1 ++ (k, Clean KNll) :: l2)).
  { rewrite (put_put _ _ _ _ _ P). cbn [put]. rewrite E, nth_error_app2, Nat.sub_diag by lia. cbn [nth_error]. now rewrite set_nth_app. }
  rewrite E1. cbn [opt obind]. eexists. split; [reflexivity|reflexivity].
Qed.
Lemma renew_all : forall l2 l1 st, sound st -> vars st = l1 ++ l2 -> (forall p, In p l1 -> snd p = Clean KNll) ->
  exists st', run st (map Renew (seq (length l1) (length l2))) = Ok st' /\ sound st' /\ forall p, In p (vars st') -> snd p = Clean KNll.
Proof.
  induction l2 as [|(k, s) l2 IH]; intros l1 st S E H.
  - exists st. split; [reflexivity|]. split; [exact S|]. rewrite E, app_nil_r. exact H.
  - cbn [length seq map run]. destruct (renew_effect st l1 k s l2 S E) as (s1 & E1 & V1). rewrite E1. cbn [obind].
    destruct (IH (l1 ++ [(k, Clean KNll)]) s1) as (st' & R & S' & H').
    + eapply step_sound; eauto.
    + rewrite V1, <- app_assoc. reflexivity.
    + intros p I. apply in_app_or in I as [I|[<-|[]]]; [auto|reflexivity].
    + rewrite app_length in R. cbn [length] in R. rewrite Nat.add_1_r in R. eauto.
Qed.
Lemma no_leak : forall names ops st, run (start names) ops = Ok st ->
  exists st', run st (map Renew (seq 0 (length names))) = Ok st' /\ Permutation (gone st') (seq 0 (next st')).
Proof.
  intros names ops st H. pose proof (histories _ _ _ H) as S. pose proof (run_length _ _ _ H) as L. cbn in L. rewrite map_length in L.
  destruct (renew_all (vars st) [] st S eq_refl) as (st' & R & (M & A) & Hn); [intros p []|]. cbn [length] in R. rewrite L in R. exists st'. split; [exact R|].
  unfold accounted in A. replace (live_all (vars st')) with (@nil nat) in A; [now rewrite app_nil_r in A|].
  clear - Hn. unfold live_all. induction (vars st') as [|p ks IH]; [reflexivity|]. cbn [flat_map]. rewrite (Hn p (or_introl eq_refl)). apply IH. intros q I. apply Hn. now right.
Qed.
Lemma via_null : forall st d v x, sound st -> get d (vars st) = Some x -> value x = JNll ->
  exists st', step st (SetVia d v) = Ok st' /\ value_at d st' = Some (plain_jval v) /\ forall q, apart d q -> get q (vars st') = get q (vars st).
Proof.
  intros st d v x S Gd V. destruct (deinit_total d st x S Gd) as (s1 & g & D & _ & P & En & _). cbn [step]. rewrite D. cbn [obind].
  destruct (put_total d (Clean (tag_of x)) _ _ Gd) as (k1 & Ek & Gk). rewrite P in Ek. injection Ek as <-.
  assert (Tx : tag_of x = KNll). { pose proof (get_matches _ _ _ Gd (proj1 S)) as M. inversion M as [|? l|? o]; subst; [reflexivity|destruct l; discriminate|destruct o; discriminate]. }
  unfold deinit at 1. rewrite Gk. rewrite Tx in *. cbn [opt obind destroy kind_eqb tag_of]. rewrite (put_self _ _ _ Gk). cbn [opt obind next vars].
  destruct (build (next s1) v) as (z, n) eqn:B. destruct (put_total d z _ _ Gk) as (ks2 & E2 & G2). rewrite E2. cbn [opt obind]. eexists. split; [reflexivity|].
  unfold value_at. cbn [vars]. rewrite G2. cbn. destruct (build_ok _ _ _ _ B) as (_ & _ & _ & Vz). split; [now rewrite Vz|].
  intros q Aq. rewrite (get_put_apart _ _ _ _ _ Aq E2). exact (get_put_apart _ _ _ _ _ Aq P).
Qed.
