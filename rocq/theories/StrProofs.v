(** Lemmas on string search, replacement and splitting. *)
From Coq Require Import String Ascii ZArith NArith Arith Bool Lia List.
From Verif Require Import Common ListAux StrModel StrSpec.
Import ListNotations.

(** ** Search *)
Lemma prefixb_spec : forall p s, prefixb p s = true <-> exists q, s = p ++ q.
Proof.
  induction p as [|x p IH]; intros s; cbn.
  - split; [intros _; exists s; reflexivity|reflexivity].
  - destruct s as [|y s].
    + split; [discriminate|intros [q E]; discriminate].
    + rewrite andb_true_iff, Ascii.eqb_eq, IH. split.
      * intros [-> [q ->]]. exists q. reflexivity.
      * intros [q E]. injection E as -> ->. split; [reflexivity|exists q; reflexivity].
Qed.

Lemma prefixb_app : forall p q, prefixb p (p ++ q) = true.
Proof. intros. apply prefixb_spec. exists q. reflexivity. Qed.

Lemma leftmost_nil_prefix : forall x q, leftmost x (x ++ q) [] q.
Proof. intros. split; [reflexivity|]. intros. cbn. lia. Qed.

Lemma leftmost_pref : forall x s q, s = x ++ q -> leftmost x s [] q.
Proof. intros x s q ->. apply leftmost_nil_prefix. Qed.

Lemma leftmost_cons : forall x y s p q, prefixb x (y :: s) = false ->
  leftmost x s p q -> leftmost x (y :: s) (y :: p) q.
Proof.
  intros x y s p q Hn [E M]. split; [cbn; rewrite E; reflexivity|].
  intros p' q' E'. destruct p' as [|z p'].
  - cbn in E'. assert (prefixb x (y :: s) = true) by (apply prefixb_spec; exists q'; exact E'). congruence.
  - cbn in E'. injection E' as _ E'. apply M in E'. cbn. lia.
Qed.

Lemma find_aux_some : forall x s i k, find_aux x s i = Some k ->
  exists p q, leftmost x s p q /\ k = i + length p.
Proof.
  induction s as [|y s IH]; intros i k H.
  - cbn in H. destruct (prefixb x []) eqn:E; [|discriminate]. injection H as <-.
    apply prefixb_spec in E. destruct E as [q E]. exists [], q. split; [apply leftmost_pref; exact E|cbn; lia].
  - cbn [find_aux] in H. destruct (prefixb x (y :: s)) eqn:E.
    + injection H as <-. apply prefixb_spec in E. destruct E as [q E]. exists [], q.
      split; [apply leftmost_pref; exact E|cbn; lia].
    + apply IH in H. destruct H as (p & q & L & ->). exists (y :: p), q.
      split; [apply leftmost_cons; assumption|cbn; lia].
Qed.

Lemma find_aux_none : forall x s i, find_aux x s i = None -> ~ occurs x s.
Proof.
  induction s as [|y s IH]; intros i H [p [q E]]; cbn [find_aux] in H.
  - destruct (prefixb x []) eqn:E'; [discriminate|]. destruct p; [|discriminate].
    cbn in E. assert (prefixb x [] = true) by (apply prefixb_spec; exists q; exact E). congruence.
  - destruct (prefixb x (y :: s)) eqn:E'; [discriminate|]. destruct p as [|z p].
    + cbn in E. assert (prefixb x (y :: s) = true) by (apply prefixb_spec; exists q; exact E). congruence.
    + cbn in E. injection E as _ E. apply (IH (S i) H). exists p, q. exact E.
Qed.

Lemma leftmost_unique : forall x s p q p' q', leftmost x s p q -> leftmost x s p' q' -> p = p' /\ q = q'.
Proof.
  intros x s p q p' q' [E M] [E' M'].
  assert (L : length p = length p') by (specialize (M _ _ E'); specialize (M' _ _ E); lia).
  rewrite E in E'.
  assert (P : p = p').
  { apply (f_equal (firstn (length p))) in E'.
    rewrite firstn_app, firstn_all, Nat.sub_diag, firstn_O, app_nil_r in E'.
    rewrite L, firstn_app, firstn_all, Nat.sub_diag, firstn_O, app_nil_r in E'. exact E'. }
  subst p'. apply app_inv_head in E'. apply app_inv_head in E'. split; [reflexivity|assumption].
Qed.

Lemma skipn_app_len : forall A (p q : list A), skipn (length p) (p ++ q) = q.
Proof. intros. rewrite skipn_app, skipn_all, Nat.sub_diag. reflexivity. Qed.

Lemma firstn_app_len : forall A (p q : list A), firstn (length p) (p ++ q) = p.
Proof. intros. rewrite firstn_app, firstn_all, Nat.sub_diag, firstn_O, app_nil_r. reflexivity. Qed.

(** [find] on a string already read up to [length d]. *)
Lemma find_split : forall x d s, find x (d ++ s) (length d) = find_aux x s (length d).
Proof.
  intros. unfold find. rewrite app_length.
  destruct (Nat.leb_spec (length d) (length d + length s)); [|lia].
  rewrite skipn_app_len. reflexivity.
Qed.

Lemma find_leftmost : forall x d s p q, leftmost x s p q -> 
  find x (d ++ s) (length d) = Some (length d + length p).
Proof.
  intros x d s p q L. rewrite find_split. destruct (find_aux x s (length d)) as [k|] eqn:E.
  - apply find_aux_some in E. destruct E as (p' & q' & L' & ->).
    destruct (leftmost_unique _ _ _ _ _ _ L L') as [-> ->]. reflexivity.
  - apply find_aux_none in E. exfalso. apply E. exists p, q. apply L.
Qed.

Lemma find_none : forall x d s, ~ occurs x s -> find x (d ++ s) (length d) = None.
Proof.
  intros x d s H. rewrite find_split. destruct (find_aux x s (length d)) as [k|] eqn:E; [|reflexivity].
  apply find_aux_some in E. destruct E as (p & q & [E _] & _). exfalso. apply H. exists p, q. exact E.
Qed.

Lemma occurs_dec : forall x s, (exists p q, leftmost x s p q) \/ ~ occurs x s.
Proof.
  intros x s. destruct (find_aux x s 0) as [k|] eqn:E.
  - left. apply find_aux_some in E. destruct E as (p & q & L & _). exists p, q. exact L.
  - right. eapply find_aux_none. exact E.
Qed.

Lemma find0_leftmost : forall x s p q, leftmost x s p q -> find x s 0 = Some (length p).
Proof. intros x s p q L. pose proof (find_leftmost x [] s p q L) as H. exact H. Qed.
Lemma find0_none : forall x s, ~ occurs x s -> find x s 0 = None.
Proof. intros x s L. exact (find_none x [] s L). Qed.

(** ** replace *)
Lemma str_replace_at : forall p x q to, str_replace (p ++ x ++ q) (length p) (length x) to = p ++ to ++ q.
Proof.
  intros. unfold str_replace. rewrite firstn_app_len. f_equal. f_equal.
  rewrite <- app_length, app_assoc. apply skipn_app_len.
Qed.

Lemma replace_spec : forall s from to,
  (~ occurs from s -> replace s from to = s) /\
  (occurs from s -> exists p q, leftmost from s p q /\ replace s from to = p ++ to ++ q).
Proof.
  intros s from to. unfold replace. split.
  - intros H. rewrite find0_none by assumption. reflexivity.
  - intros H. destruct (occurs_dec from s) as [(p & q & L)|N]; [|contradiction].
    exists p, q. split; [assumption|]. rewrite (find0_leftmost _ _ _ _ L).
    destruct L as [-> _]. apply str_replace_at.
Qed.

(** ** replaceAll *)
Lemma replaceAll_step : forall fuel s from to p q, leftmost from s p q ->
  replaceAll (S fuel) s from to = replaceAll fuel (p ++ to ++ q) from to.
Proof.
  intros fuel s from to p q L. cbn [replaceAll]. rewrite (find0_leftmost _ _ _ _ L).
  destruct L as [-> _]. rewrite str_replace_at. reflexivity.
Qed.
Lemma replaceAll_stop : forall fuel s from to, ~ occurs from s -> replaceAll (S fuel) s from to = Ok s.
Proof. intros. cbn [replaceAll]. rewrite find0_none by assumption. reflexivity. Qed.

Lemma replaceAll_clean : forall fuel s from to r, replaceAll fuel s from to = Ok r -> ~ occurs from r.
Proof.
  induction fuel as [|fuel IH]; intros s from to r H; [discriminate|].
  destruct (occurs_dec from s) as [(p & q & L)|N].
  - rewrite (replaceAll_step _ _ _ _ _ _ L) in H. eapply IH. exact H.
  - rewrite replaceAll_stop in H by assumption. injection H as <-. assumption.
Qed.

Lemma replaceAll_shorter : forall from to, length to < length from -> forall fuel s, length s < fuel ->
  exists r, replaceAll fuel s from to = Ok r.
Proof.
  intros from to Hl. induction fuel as [|fuel IH]; intros s Hs; [lia|].
  destruct (occurs_dec from s) as [(p & q & L)|N].
  - rewrite (replaceAll_step _ _ _ _ _ _ L). apply IH. destruct L as [-> _].
    rewrite !app_length in *. lia.
  - rewrite replaceAll_stop by assumption. eexists. reflexivity.
Qed.

Lemma app_split : forall A (a b c d : list A), a ++ b = c ++ d -> length a <= length c ->
  exists e, c = a ++ e /\ b = e ++ d.
Proof.
  induction a as [|x a IH]; intros b c d E L.
  - exists c. split; [reflexivity|exact E].
  - destruct c as [|y c]; cbn in L; [lia|]. cbn in E. injection E as -> E.
    destruct (IH b c d E ltac:(lia)) as (e & -> & ->). exists e. split; reflexivity.
Qed.

(** With a non-empty [to] sharing no character with [from], no new occurrence can arise. *)
Lemma occ_after : forall from to s p q, from <> [] -> to <> [] ->
  (forall c, In c from -> ~ In c to) -> leftmost from s p q ->
  (forall r, leftmost from q r (skipn (length r + length from) q) ->
     leftmost from (p ++ to ++ q) (p ++ to ++ r) (skipn (length r + length from) q)) /\
  (~ occurs from q -> ~ occurs from (p ++ to ++ q)).
Proof.
  intros from to s p q Hf Ht Hd [Es M].
  assert (K : forall p' q', p ++ to ++ q = p' ++ from ++ q' ->
             exists e, p' = p ++ to ++ e /\ q = e ++ from ++ q').
  { intros p' q' E.
    destruct (Nat.le_gt_cases (length (p ++ to)) (length p')) as [L|L].
    - rewrite app_assoc in E. destruct (app_split _ _ _ _ _ E L) as (e & -> & ->).
      exists e. rewrite <- app_assoc. split; reflexivity.
    - exfalso. destruct (Nat.le_gt_cases (length (p' ++ from)) (length p)) as [L2|L2].
      + (* inside p *)
        rewrite (app_assoc p' from) in E.
        destruct (app_split _ _ _ _ _ (eq_sym E) L2) as (e & Ep & _).
        assert (H : s = p' ++ from ++ (e ++ from ++ q)).
        { rewrite Es, Ep, <- !app_assoc. reflexivity. }
        apply M in H. rewrite app_length in L2. destruct from; [contradiction|]. cbn in *. 
        lia.
      + (* overlaps to *)
        rewrite app_length in L, L2.
        destruct to as [|t0 to']; [contradiction|]. set (to := t0 :: to') in *.
        (* position max |p| |p'| lies in both from and to *)
        set (i := Nat.max (length p) (length p')).
        assert (A : exists c, nth_error (p ++ to ++ q) i = Some c /\ In c to).
        { destruct (nth_error to (i - length p)) as [c|] eqn:En.
          - exists c. split; [|eapply nth_error_In; exact En].
            rewrite nth_error_app2 by lia. rewrite nth_error_app1 by (unfold i, to in *; cbn [length] in *; lia).
            exact En.
          - apply nth_error_None in En. unfold i, to in *. cbn [length] in *. lia. }
        assert (B : exists c, nth_error (p' ++ from ++ q') i = Some c /\ In c from).
        { destruct (nth_error from (i - length p')) as [c|] eqn:En.
          - exists c. split; [|eapply nth_error_In; exact En].
            rewrite nth_error_app2 by lia. rewrite nth_error_app1 by (unfold i in *; destruct from; [contradiction|cbn [length] in *; lia]).
            exact En.
          - apply nth_error_None in En. unfold i in *. destruct from; [contradiction|]. cbn [length] in *. lia. }
        destruct A as (c & A1 & A2). destruct B as (c' & B1 & B2). rewrite E in A1.
        assert (c = c') by congruence. subst c'. exact (Hd c B2 A2). }
  split.
  - intros r [Eq Mq]. split; [rewrite Eq at 1; rewrite <- !app_assoc; reflexivity|].
    intros p' q' E. destruct (K p' q' E) as (e & -> & Ee). apply Mq in Ee.
    rewrite !app_length. lia.
  - intros N [p' [q' E]]. destruct (K p' q' E) as (e & _ & Ee). apply N. exists e, q'. exact Ee.
Qed.

Lemma leftmost_skipn : forall x q r t, leftmost x q r t -> t = skipn (length r + length x) q.
Proof.
  intros x q r t [E _]. rewrite E, <- app_length, app_assoc. symmetry. apply skipn_app_len.
Qed.

Lemma replaceAll_disjoint_gen : forall from to, from <> [] -> to <> [] ->
  (forall c, In c from -> ~ In c to) ->
  forall n s, length s <= n -> forall d, 
  (forall p q, leftmost from s p q -> leftmost from (d ++ s) (d ++ p) q) ->
  (~ occurs from s -> ~ occurs from (d ++ s)) ->
  exists r, replaced from to s r /\ forall fuel, n < fuel -> replaceAll fuel (d ++ s) from to = Ok (d ++ r).
Proof.
  intros from to Hf Ht Hd. induction n as [|n IH]; intros s Hs d H1 H2.
  - destruct s; [|cbn in Hs; lia].
    assert (N : ~ occurs from []).
    { intros [p [q E]]. destruct p; [|discriminate]. destruct from; [contradiction|discriminate]. }
    exists []. split; [constructor; assumption|]. intros fuel Hfu. destruct fuel; [lia|].
    apply replaceAll_stop. apply H2. assumption.
  - destruct (occurs_dec from s) as [(p & q & L)|N].
    + pose proof (H1 p q L) as L'.
      destruct (occ_after from to (d ++ s) (d ++ p) q Hf Ht Hd L') as [K1 K2].
      assert (Lq : length q <= n).
      { destruct L as [-> _]. rewrite !app_length in Hs. destruct from; [contradiction|]. cbn in Hs. lia. }
      destruct (IH q Lq ((d ++ p) ++ to)) as (r & R & F).
      * intros r t Lr. pose proof (leftmost_skipn _ _ _ _ Lr) as Et. rewrite Et in Lr |- *.
        specialize (K1 r Lr). rewrite <- !app_assoc in *. exact K1.
      * intros Nq. rewrite <- app_assoc. apply K2. exact Nq.
      * exists (p ++ to ++ r). split; [econstructor; eassumption|].
        intros fuel Hfu. destruct fuel; [lia|]. rewrite (replaceAll_step _ _ _ _ _ _ L').
        specialize (F fuel ltac:(lia)). rewrite <- !app_assoc in *. exact F.
    + exists s. split; [constructor; assumption|]. intros fuel Hfu. destruct fuel; [lia|].
      apply replaceAll_stop. apply H2. assumption.
Qed.

Lemma replaceAll_disjoint : forall s from to, from <> [] -> to <> [] ->
  (forall c, In c from -> ~ In c to) ->
  exists r, replaced from to s r /\ forall fuel, length s < fuel -> replaceAll fuel s from to = Ok r.
Proof.
  intros s from to Hf Ht Hd.
  apply (replaceAll_disjoint_gen from to Hf Ht Hd (length s) s (le_n _) []).
  - intros p q L. exact L.
  - intros N. exact N.
Qed.

(** One-character pattern. *)
Lemma one_char : forall c s, (exists p q, leftmost [c] s p q /\ ~ In c p) \/ ~ In c s.
Proof.
  intros c s. destruct (occurs_dec [c] s) as [(p & q & L)|N].
  - left. exists p, q. split; [assumption|]. intros I. apply in_split in I. destruct I as (a & b & ->).
    destruct L as [E M]. specialize (M a (b ++ [c] ++ q)).
    rewrite <- app_assoc in E. specialize (M E). rewrite app_length in M. cbn in M. lia.
  - right. intros I. apply in_split in I. destruct I as (a & b & ->). apply N. exists a, b. reflexivity.
Qed.

Definition subst1 (c : ascii) (to : bytes) (s : bytes) : bytes :=
  flat_map (fun x => if Ascii.eqb x c then to else [x]) s.

Lemma subst1_id : forall c to s, ~ In c s -> subst1 c to s = s.
Proof.
  induction s as [|x s IH]; intros H; [reflexivity|]. cbn.
  destruct (Ascii.eqb_spec x c) as [->|N]; [exfalso; apply H; left; reflexivity|].
  cbn. f_equal. apply IH. intros I. apply H. right. exact I.
Qed.

Lemma subst1_app : forall c to a b, subst1 c to (a ++ b) = subst1 c to a ++ subst1 c to b.
Proof. intros. unfold subst1. apply flat_map_app. Qed.

Lemma replaceAll_one : forall c to, ~ In c to -> forall n s, count_occ ascii_dec s c <= n ->
  forall fuel, n < fuel -> replaceAll fuel s [c] to = Ok (subst1 c to s).
Proof.
  intros c to Hc. induction n as [|n IH]; intros s Hs fuel Hfu; (destruct fuel; [lia|]).
  - assert (N : ~ In c s) by (apply (count_occ_not_In ascii_dec); lia).
    rewrite subst1_id by assumption. apply replaceAll_stop.
    intros [p [q ->]]. apply N. apply in_or_app. right. left. reflexivity.
  - destruct (one_char c s) as [(p & q & L & Np)|N].
    + rewrite (replaceAll_step _ _ _ _ _ _ L). destruct L as [-> _].
      rewrite IH.
      * rewrite !subst1_app. cbn [subst1 flat_map]. rewrite Ascii.eqb_refl, app_nil_r.
        rewrite (subst1_id c to to) by assumption. reflexivity.
      * rewrite !count_occ_app in *. cbn [count_occ] in Hs. destruct (ascii_dec c c); [|contradiction].
        apply (count_occ_not_In ascii_dec) in Hc. lia.
      * lia.
    + rewrite subst1_id by assumption. apply replaceAll_stop.
      intros [p [q ->]]. apply N. apply in_or_app. right. left. reflexivity.
Qed.

Lemma count_occ_le : forall s (c : ascii), count_occ ascii_dec s c <= length s.
Proof. induction s as [|x s IH]; intros c; cbn; [lia|]. specialize (IH c). destruct (ascii_dec x c); lia. Qed.

Lemma replaceAll_one' : forall s c to fuel, ~ In c to -> length s < fuel ->
  replaceAll fuel s [c] to = Ok (subst1 c to s).
Proof.
  intros. eapply replaceAll_one; [assumption|reflexivity|]. pose proof (count_occ_le s c). lia.
Qed.

Lemma replaceAll_diverges : forall from to, occurs from to -> forall fuel s, occurs from s ->
  replaceAll fuel s from to = OutOfFuel.
Proof.
  intros from to [a [b E]]. induction fuel as [|fuel IH]; intros s H; [reflexivity|].
  destruct (occurs_dec from s) as [(p & q & L)|N]; [|contradiction].
  rewrite (replaceAll_step _ _ _ _ _ _ L). apply IH. exists (p ++ a), (b ++ q).
  rewrite E, <- !app_assoc. reflexivity.
Qed.

(** ** split, one separator *)
Lemma push_nonempty_filter : forall t acc, push_nonempty t acc = acc ++ filter nonempty [t].
Proof. destruct t; intros; cbn; [rewrite app_nil_r|]; reflexivity. Qed.

Lemma substr_at : forall d t r n, n = length t -> substr (d ++ t ++ r) (length d) n = Ok t.
Proof.
  intros d t r n ->. unfold substr. rewrite app_length.
  destruct (Nat.leb_spec (length d) (length d + length (t ++ r))); [|lia].
  rewrite skipn_app_len, firstn_app_len. reflexivity.
Qed.

Lemma substr_rest : forall d t, substr (d ++ t) (length d) (length (d ++ t) - length d) = Ok t.
Proof.
  intros. rewrite <- (app_nil_r t) at 1. apply substr_at. rewrite app_length. lia.
Qed.

Lemma pieces_exist : forall sep, sep <> [] -> forall n s, length s <= n -> exists ps, pieces sep s ps.
Proof.
  intros sep Hs. induction n as [|n IH]; intros s H.
  - destruct s; [|cbn in H; lia]. exists [[]]. constructor. intros [p [q E]].
    destruct p; [|discriminate]. destruct sep; [contradiction|discriminate].
  - destruct (occurs_dec sep s) as [(p & q & L)|N].
    + destruct (IH q) as (ps & P).
      { destruct L as [-> _]. rewrite !app_length in H. destruct sep; [contradiction|]. cbn in H. lia. }
      exists (p :: ps). econstructor; eassumption.
    + exists [s]. constructor. assumption.
Qed.

Lemma pieces_props : forall sep s ps, sep <> [] -> pieces sep s ps ->
  join sep ps = s /\ Forall (fun p => ~ occurs sep p) ps.
Proof.
  intros sep s ps Hs H. induction H as [s N|s p q ps L H [IH1 IH2]].
  - split; [reflexivity|]. constructor; [assumption|constructor].
  - split.
    + destruct ps as [|p2 ps]; [inversion H|].
      change (join sep (p :: p2 :: ps)) with (p ++ sep ++ join sep (p2 :: ps)). rewrite IH1.
      symmetry. apply L.
    + constructor; [|assumption]. intros [a [b E]]. destruct L as [E' M].
      specialize (M a (b ++ sep ++ q)). rewrite E' , E, <- !app_assoc in M. specialize (M eq_refl).
      rewrite !app_length in M. destruct sep; [contradiction|]. cbn in M. lia.
Qed.

Lemma pieces_unique : forall sep s ps, pieces sep s ps -> forall ps', pieces sep s ps' -> ps = ps'.
Proof.
  induction 1 as [s N|s p q ps L H IH]; intros ps' H'; inversion H' as [s' N'|s' p' q' ps'' L' H'']; subst.
  - reflexivity.
  - exfalso. apply N. exists p', q'. apply L'.
  - exfalso. apply N'. exists p, q. apply L.
  - destruct (leftmost_unique _ _ _ _ _ _ L L') as [-> ->]. f_equal. apply IH. assumption.
Qed.

(** Tokens of the modes, from the pieces. *)
Fixpoint add_sep (sep : bytes) (ps : list bytes) : list bytes :=
  match ps with
  | [] => []
  | [p] => [p]
  | p :: r => (p ++ sep) :: add_sep sep r
  end.

Lemma filter_cons1 : forall A (f : A -> bool) a l, filter f (a :: l) = filter f [a] ++ filter f l.
Proof. intros. cbn. destruct (f a); reflexivity. Qed.

Lemma split1_normal : forall sep, sep <> [] -> forall s ps, pieces sep s ps ->
  forall fuel d acc, length s < fuel ->
  split1_loop fuel Normal (d ++ s) sep (length d) acc = Ok (acc ++ filter nonempty ps).
Proof.
  intros sep Hs s ps H. induction H as [s N|s p q ps L H IH]; intros fuel d acc Hf; (destruct fuel; [lia|]).
  - cbn [split1_loop]. rewrite find_none by assumption. rewrite substr_rest. cbn [obind].
    rewrite push_nonempty_filter. reflexivity.
  - cbn [split1_loop]. rewrite (find_leftmost _ _ _ _ _ L). cbv zeta.
    destruct L as [-> M].
    rewrite substr_at by lia. cbn [obind].
    replace (d ++ p ++ sep ++ q) with (((d ++ p) ++ sep) ++ q) by (rewrite <- !app_assoc; reflexivity).
    replace (length d + length p + length sep) with (length ((d ++ p) ++ sep)) by (rewrite !app_length; lia).
    rewrite IH.
    + rewrite push_nonempty_filter, <- app_assoc. f_equal. f_equal.
      change (p :: ps) with ([p] ++ ps). rewrite filter_app. reflexivity.
    + rewrite !app_length in Hf. destruct sep; [contradiction|]. cbn in Hf. lia.
Qed.

Lemma split1_trailing : forall sep, sep <> [] -> forall s ps, pieces sep s ps ->
  forall fuel d acc, length s < fuel ->
  split1_loop fuel TrailingSeparator (d ++ s) sep (length d) acc = Ok (acc ++ filter nonempty (add_sep sep ps)).
Proof.
  intros sep Hs s ps H. induction H as [s N|s p q ps L H IH]; intros fuel d acc Hf; (destruct fuel; [lia|]).
  - cbn [split1_loop]. rewrite find_none by assumption. rewrite substr_rest. cbn [obind].
    rewrite push_nonempty_filter. reflexivity.
  - cbn [split1_loop]. rewrite (find_leftmost _ _ _ _ _ L). cbv zeta.
    destruct L as [-> M].
    rewrite (app_assoc p sep q).
    rewrite substr_at by (rewrite app_length; lia). cbn [obind].
    replace (d ++ (p ++ sep) ++ q) with (((d ++ p) ++ sep) ++ q) by (rewrite <- !app_assoc; reflexivity).
    replace (length d + length p + length sep) with (length ((d ++ p) ++ sep)) by (rewrite !app_length; lia).
    rewrite IH.
    + rewrite push_nonempty_filter, <- app_assoc. f_equal. f_equal.
      destruct ps as [|p2 ps]; [inversion H|].
      change (add_sep sep (p :: p2 :: ps)) with ([p ++ sep] ++ add_sep sep (p2 :: ps)).
      rewrite filter_app. reflexivity.
    + rewrite !app_length in Hf. destruct sep; [contradiction|]. cbn in Hf. lia.
Qed.

Lemma concat_filter : forall l, concat (filter nonempty l) = concat l.
Proof. induction l as [|[|c x] l IH]; cbn; [reflexivity|assumption|]. rewrite IH. reflexivity. Qed.

Lemma concat_add_sep : forall sep ps, concat (add_sep sep ps) = join sep ps.
Proof.
  induction ps as [|p ps IH]; [reflexivity|]. destruct ps as [|p2 ps]; [cbn; apply app_nil_r|].
  change (add_sep sep (p :: p2 :: ps)) with ((p ++ sep) :: add_sep sep (p2 :: ps)).
  cbn [concat]. rewrite IH.
  change (join sep (p :: p2 :: ps)) with (p ++ sep ++ join sep (p2 :: ps)).
  rewrite <- app_assoc. reflexivity.
Qed.

Lemma split_normal_spec : forall s sep, sep <> [] -> exists ps,
  pieces sep s ps /\ join sep ps = s /\ Forall (fun p => ~ occurs sep p) ps /\
  forall fuel, length s < fuel -> split1 fuel Normal s sep = Ok (filter nonempty ps).
Proof.
  intros s sep Hs. destruct (pieces_exist sep Hs (length s) s (le_n _)) as (ps & P).
  exists ps. destruct (pieces_props sep s ps Hs P). repeat split; try assumption.
  intros fuel Hf. exact (split1_normal sep Hs s ps P fuel [] [] Hf).
Qed.

Lemma split_trailing_spec : forall s sep, sep <> [] -> exists ps ts,
  pieces sep s ps /\
  (forall fuel, length s < fuel -> split1 fuel TrailingSeparator s sep = Ok ts) /\
  concat ts = s /\
  exists r, ts = map (fun p => p ++ sep) (removelast ps) ++ r /\ (r = [] \/ r = [last ps []]).
Proof.
  intros s sep Hs. destruct (pieces_exist sep Hs (length s) s (le_n _)) as (ps & P).
  exists ps, (filter nonempty (add_sep sep ps)). destruct (pieces_props sep s ps Hs P) as [J _].
  split; [assumption|]. split; [|split].
  - intros fuel Hf. exact (split1_trailing sep Hs s ps P fuel [] [] Hf).
  - rewrite concat_filter, concat_add_sep. assumption.
  - clear P J s. induction ps as [|p ps IH].
    + exists []. split; [reflexivity|left; reflexivity].
    + destruct ps as [|p2 ps].
      * destruct p as [|c p]; cbn.
        { exists []. split; [reflexivity|left; reflexivity]. }
        { exists [c :: p]. split; [reflexivity|right; reflexivity]. }
      * destruct IH as (r & E & R). exists r. split; [|exact R].
        change (add_sep sep (p :: p2 :: ps)) with ((p ++ sep) :: add_sep sep (p2 :: ps)).
        change (removelast (p :: p2 :: ps)) with (p :: removelast (p2 :: ps)).
        cbn [map app]. rewrite <- E. cbn [filter].
        destruct (p ++ sep) eqn:Ep; [|reflexivity].
        apply app_eq_nil in Ep. destruct Ep as [_ Ep]. contradiction.
Qed.

Lemma split_empty_sep : forall m fuel s k acc, m <> TokenizeSeparator -> k <= length s ->
  split1_loop fuel m s [] k acc = OutOfFuel.
Proof.
  intros m. induction fuel as [|fuel IH]; intros s k acc Hm Hk; [reflexivity|].
  cbn [split1_loop]. unfold find. destruct (Nat.leb_spec k (length s)); [|lia].
  assert (E : find_aux [] (skipn k s) k = Some k) by (destruct (skipn k s); reflexivity).
  rewrite E. unfold substr. destruct (Nat.leb_spec k (length s)); [|lia].
  destruct m; [| |contradiction]; cbn [obind length]; rewrite !Nat.add_0_r; apply IH; assumption.
Qed.

Lemma split1_empty_sep : forall m fuel s, m <> TokenizeSeparator -> split1 fuel m s [] = OutOfFuel.
Proof. intros. apply split_empty_sep; [assumption|lia]. Qed.

(** ** tokenize, one separator *)
Lemma split1_tok_throw : forall sep q fuel, split1 (S fuel) TokenizeSeparator (sep ++ q) sep = Throw "out_of_range".
Proof.
  intros. unfold split1. cbn [split1_loop].
  rewrite (find0_leftmost _ _ _ _ (leftmost_nil_prefix sep q)). cbn [length]. cbv zeta.
  unfold substr. cbn [Nat.leb obind]. reflexivity.
Qed.

Lemma split1_tok_wrong : forall sep s p' c q fuel, sep <> [] -> leftmost sep s (p' ++ [c]) q ->
  forall ts, split1 fuel TokenizeSeparator s sep = Ok ts ->
  exists rest, ts = (p' ++ [c]) :: (c :: removelast sep) :: rest.
Proof.
  intros sep s p' c q fuel Hs L ts H. destruct fuel; [discriminate|].
  unfold split1 in H. cbn [split1_loop] in H. rewrite (find0_leftmost _ _ _ _ L) in H.
  cbv zeta in H. destruct L as [E _].
  assert (T1 : substr s 0 (length (p' ++ [c]) - 0 + 0) = Ok (p' ++ [c])).
  { rewrite E. apply (substr_at [] (p' ++ [c]) (sep ++ q)). lia. }
  rewrite T1 in H. cbn [obind] in H.
  assert (Lp : length (p' ++ [c]) = S (length p')) by (rewrite app_length; cbn; lia).
  rewrite Lp in H.
  assert (Er : sep = removelast sep ++ [last sep c]) by (apply app_removelast_last; assumption).
  assert (T2 : substr s (length p') (length sep) = Ok (c :: removelast sep)).
  { rewrite E. rewrite Er at 1. 
    replace ((p' ++ [c]) ++ (removelast sep ++ [last sep c]) ++ q)
      with (p' ++ (c :: removelast sep) ++ (last sep c :: q)) by (rewrite <- !app_assoc; reflexivity).
    apply substr_at. rewrite Er at 1. rewrite app_length. cbn. lia. }
  rewrite T2 in H. cbn [obind] in H.
  assert (P : push_nonempty (p' ++ [c]) [] = [p' ++ [c]]) by (rewrite push_nonempty_filter; destruct p'; reflexivity).
  rewrite P in H. cbn [app] in H.
  assert (K : forall fuel s sep k acc ts, split1_loop fuel TokenizeSeparator s sep k acc = Ok ts -> exists r, ts = acc ++ r).
  { clear. induction fuel as [|fuel IH]; intros s sep k acc ts H; [discriminate|].
    cbn [split1_loop] in H. destruct (find sep s k) as [pos|].
    - cbv zeta in H. destruct (substr s k _); cbn [obind] in H; try discriminate.
      destruct pos as [|pos]; cbn [obind] in H; try discriminate.
      destruct (substr s pos _); cbn [obind] in H; try discriminate.
      apply IH in H. destruct H as (r & ->). rewrite push_nonempty_filter, <- !app_assoc.
      eexists. reflexivity.
    - destruct (substr s k _); cbn [obind] in H; try discriminate. injection H as <-.
      rewrite push_nonempty_filter. eexists. reflexivity. }
  apply K in H. destruct H as (r & ->). exists r. reflexivity.
Qed.

(** ** several separators *)
Lemma find_aux_shift : forall x s i, find_aux x s i = match find_aux x s 0 with Some k => Some (i + k) | None => None end.
Proof.
  intros x s i. destruct (find_aux x s i) as [k|] eqn:E.
  - apply find_aux_some in E. destruct E as (p & q & L & ->).
    pose proof (find_leftmost x [] s p q L) as F. rewrite find_split in F. cbn in F. rewrite F. reflexivity.
  - apply find_aux_none in E. pose proof (find_none x [] s E) as F. rewrite find_split in F. cbn in F. rewrite F. reflexivity.
Qed.

Definition best_at (seps : list bytes) (s : bytes) (r : option (nat * nat)) : Prop :=
  match r with
  | None => forall x, In x seps -> ~ occurs x s
  | Some (k, n) => exists p sep q, earliest seps s p sep q /\ k = length p /\ n = length sep
  end.

Lemma same_len_prefix : forall A (p p' a b : list A), p ++ a = p' ++ b -> length p = length p' -> p = p' /\ a = b.
Proof.
  induction p as [|x p IH]; intros [|y p'] a b E L; cbn in *; try lia.
  - split; [reflexivity|exact E].
  - injection E as -> E. injection L as L. destruct (IH p' a b E L) as [-> ->]. split; reflexivity.
Qed.

Lemma findFirstOf_best : forall d s seps r before,
  best_at before s (match r with Some (k, n) => Some (k - length d, n) | None => None end) ->
  (forall k n, r = Some (k, n) -> length d <= k) ->
  match findFirstOf (d ++ s) (length d) seps r with
  | None => best_at (before ++ seps) s None
  | Some (k, n) => length d <= k /\ best_at (before ++ seps) s (Some (k - length d, n))
  end.
Proof.
  intros d s. induction seps as [|x seps IH]; intros r before B Hd.
  - cbn [findFirstOf]. rewrite app_nil_r. destruct r as [[k n]|]; [split; [eapply Hd; reflexivity|]|]; exact B.
  - cbn [findFirstOf]. replace (before ++ x :: seps) with ((before ++ [x]) ++ seps) by (rewrite <- app_assoc; reflexivity).
    destruct (occurs_dec x s) as [(px & qx & Lx)|Nx].
    + rewrite (find_leftmost _ _ _ _ _ Lx).
      destruct r as [[k n]|].
      * assert (Hk := Hd k n eq_refl).
        destruct B as (p & sep & q & (E & M & (bf & af & Es & Hb)) & Ek & En).
        destruct (Nat.ltb_spec (length d + length px) k) as [Hlt|Hge].
        { apply IH; [|intros k' n' Ek'; injection Ek' as <- <-; lia].
          exists px, x, qx. split; [|split; [lia|reflexivity]].
          split; [apply Lx|]. split.
          - intros y p' q' I E'. apply in_app_or in I. destruct I as [I|[<-|[]]].
            + pose proof (M y p' q' I E'). lia.
            + eapply (proj2 Lx). exact E'.
          - exists before, []. split; [reflexivity|]. intros y q' I E'.
            pose proof (M y px q' I E'). lia. }
        { apply IH; [|intros k' n' Ek'; injection Ek' as <- <-; lia].
          exists p, sep, q. split; [|split; [exact Ek|exact En]].
          split; [exact E|]. split.
          - intros y p' q' I E'. apply in_app_or in I. destruct I as [I|[<-|[]]].
            + eapply M; eassumption.
            + pose proof (proj2 Lx p' q' E'). lia.
          - exists bf, (af ++ [x]). split; [rewrite Es, <- app_assoc; reflexivity|exact Hb]. }
      * apply IH; [|intros k' n' Ek'; injection Ek' as <- <-; lia].
        exists px, x, qx. split; [|split; [lia|reflexivity]]. split; [apply Lx|]. split.
        { intros y p' q' I E'. apply in_app_or in I. destruct I as [I|[<-|[]]].
          - exfalso. apply (B y I). exists p', q'. exact E'.
          - eapply (proj2 Lx). exact E'. }
        { exists before, []. split; [reflexivity|]. intros y q' I E'. apply (B y I). exists px, q'. exact E'. }
    + rewrite (find_none _ _ _ Nx). 
      replace (match r with Some _ => r | None => r end) with r by (destruct r; reflexivity).
      apply IH; [|exact Hd].
      destruct r as [[k n]|].
      * destruct B as (p & sep & q & (E & M & (bf & af & Es & Hb)) & Ek & En).
        exists p, sep, q. split; [|split; assumption]. split; [exact E|]. split.
        { intros y p' q' I E'. apply in_app_or in I. destruct I as [I|[<-|[]]].
          - eapply M; eassumption.
          - exfalso. apply Nx. exists p', q'. exact E'. }
        { exists bf, (af ++ [x]). split; [rewrite Es, <- app_assoc; reflexivity|exact Hb]. }
      * intros y I. apply in_app_or in I. destruct I as [I|[<-|[]]]; [apply B; assumption|assumption].
Qed.

Lemma findFirstOf_cases : forall d s seps,
  (findFirstOf (d ++ s) (length d) seps None = None /\ forall x, In x seps -> ~ occurs x s) \/
  (exists p sep q, earliest seps s p sep q /\
     findFirstOf (d ++ s) (length d) seps None = Some (length d + length p, length sep)).
Proof.
  intros d s seps. 
  pose proof (findFirstOf_best d s seps None []) as H. cbn [app] in H.
  assert (B : best_at [] s None) by (intros x []).
  specialize (H B ltac:(intros; discriminate)).
  destruct (findFirstOf (d ++ s) (length d) seps None) as [[k n]|].
  - right. destruct H as [Hk (p & sep & q & E & Ek & En)]. exists p, sep, q. split; [exact E|].
    f_equal. f_equal; lia.
  - left. split; [reflexivity|exact H].
Qed.

Definition tokens (m : split_mode) (l : list (bytes * bytes)) (lst : bytes) : list bytes :=
  filter nonempty (flat_map (fun ps => match m with
    | Normal => [fst ps]
    | TrailingSeparator => [fst ps ++ snd ps]
    | TokenizeSeparator => [fst ps; snd ps]
    end) l ++ [lst]).

Lemma splitN_tokens : forall m seps, ~ In [] seps -> forall n s, length s <= n ->
  exists l lst, cuts seps s l lst /\
  forall fuel d acc, n < fuel ->
    splitN_loop fuel m (d ++ s) seps (length d) acc = Ok (acc ++ tokens m l lst).
Proof.
  intros m seps Hn. induction n as [|n IH]; intros s Hs.
  - exists [], s. assert (N : forall x, In x seps -> ~ occurs x s).
    { intros x I [p [q E]]. destruct s; [|cbn in Hs; lia].
      destruct p; [|discriminate]. destruct x; [contradiction|discriminate]. }
    split; [constructor; exact N|]. intros fuel d acc Hf. destruct fuel; [lia|].
    cbn [splitN_loop]. destruct (findFirstOf_cases d s seps) as [[-> _]|(p & sep & q & (E & _ & (bf & af & Es & _)) & _)].
    + rewrite substr_rest. cbn [obind]. rewrite push_nonempty_filter. reflexivity.
    + exfalso. apply (N sep); [rewrite Es; apply in_or_app; right; left; reflexivity|]. exists p, q. exact E.
  - destruct (findFirstOf_cases [] s seps) as [[_ N]|(p & sep & q & Ear & _)].
    + exists [], s. split; [constructor; exact N|]. intros fuel d acc Hf. destruct fuel; [lia|].
      cbn [splitN_loop]. destruct (findFirstOf_cases d s seps) as [[-> _]|(p & sep & q & (E & _ & (bf & af & Es & _)) & _)].
      * rewrite substr_rest. cbn [obind]. rewrite push_nonempty_filter. reflexivity.
      * exfalso. apply (N sep); [rewrite Es; apply in_or_app; right; left; reflexivity|]. exists p, q. exact E.
    + assert (Isep : In sep seps).
      { destruct Ear as (_ & _ & (bf & af & Es & _)). rewrite Es. apply in_or_app. right. left. reflexivity. }
      assert (Lq : length q <= n).
      { destruct Ear as [E _]. rewrite E, !app_length in Hs. destruct sep; [contradiction|]. cbn in Hs. lia. }
      destruct (IH q Lq) as (l & lst & C & F). exists ((p, sep) :: l), lst.
      split; [econstructor; eassumption|]. intros fuel d acc Hf. destruct fuel; [lia|].
      cbn [splitN_loop].
      assert (Fe : findFirstOf (d ++ s) (length d) seps None = Some (length d + length p, length sep)).
      { destruct (findFirstOf_cases d s seps) as [[_ N]|(p2 & sep2 & q2 & Ear2 & ->)].
        - exfalso. apply (N sep Isep). exists p, q. apply Ear.
        - destruct Ear as (E & M & (bf & af & Es & Hb)). destruct Ear2 as (E2 & M2 & (bf2 & af2 & Es2 & Hb2)).
          assert (I2 : In sep2 seps) by (rewrite Es2; apply in_or_app; right; left; reflexivity).
          pose proof (M sep2 p2 q2 I2 E2). pose proof (M2 sep p q Isep E).
          assert (Lp : length p = length p2) by lia.
          rewrite E in E2. destruct (same_len_prefix _ _ _ _ _ E2 Lp) as [<- E3].
          assert (Lb : length bf = length bf2).
          { destruct (Nat.lt_trichotomy (length bf) (length bf2)) as [Hl|[Hl|Hl]]; [|exact Hl|]; exfalso.
            - apply (Hb2 sep q); [|exact E].
              rewrite Es in Es2. 
              assert (Hle : length (bf ++ [sep]) <= length bf2) by (rewrite app_length; cbn; lia).
              replace (bf ++ sep :: af) with ((bf ++ [sep]) ++ af) in Es2 by (rewrite <- app_assoc; reflexivity).
              destruct (app_split _ _ _ _ _ Es2 Hle) as (e & -> & _).
              apply in_or_app. left. apply in_or_app. right. left. reflexivity.
            - apply (Hb sep2 q2); [|rewrite <- E2; exact E].
              rewrite Es in Es2. symmetry in Es2.
              assert (Hle : length (bf2 ++ [sep2]) <= length bf) by (rewrite app_length; cbn; lia).
              replace (bf2 ++ sep2 :: af2) with ((bf2 ++ [sep2]) ++ af2) in Es2 by (rewrite <- app_assoc; reflexivity).
              destruct (app_split _ _ _ _ _ Es2 Hle) as (e & -> & _).
              apply in_or_app. left. apply in_or_app. right. left. reflexivity. }
          rewrite Es in Es2. destruct (same_len_prefix _ _ _ _ _ Es2 Lb) as [_ E4]. injection E4 as -> _. reflexivity. }
      rewrite Fe. cbv zeta. destruct Ear as [E _].
      assert (R : d ++ s = ((d ++ p) ++ sep) ++ q) by (rewrite E, <- !app_assoc; reflexivity).
      assert (Ln : length d + length p + length sep = length ((d ++ p) ++ sep)) by (rewrite !app_length; lia).
      destruct m.
      * replace (substr (d ++ s) (length d) (length d + length p - length d + 0)) with (@Ok bytes p)
          by (rewrite E; symmetry; apply substr_at; lia).
        cbn [obind]. rewrite R, Ln, F by lia. rewrite push_nonempty_filter, <- app_assoc. do 2 f_equal.
        unfold tokens. cbn [flat_map app fst]. symmetry. apply filter_cons1.
      * replace (substr (d ++ s) (length d) (length d + length p - length d + length sep)) with (@Ok bytes (p ++ sep))
          by (rewrite E, (app_assoc p sep q); symmetry; apply substr_at; rewrite app_length; lia).
        cbn [obind]. rewrite R, Ln, F by lia. rewrite push_nonempty_filter, <- app_assoc. do 2 f_equal.
        unfold tokens. cbn [flat_map app fst snd]. symmetry. apply filter_cons1.
      * replace (substr (d ++ s) (length d) (length d + length p - length d + 0)) with (@Ok bytes p)
          by (rewrite E; symmetry; apply substr_at; lia).
        cbn [obind].
        replace (substr (d ++ s) (length d + length p) (length sep)) with (@Ok bytes sep)
          by (rewrite E, <- app_length, app_assoc; symmetry; apply substr_at; reflexivity).
        cbn [obind]. rewrite R, Ln, F by lia. rewrite push_nonempty_filter, <- !app_assoc. do 2 f_equal.
        unfold tokens. cbn [flat_map app fst snd]. rewrite (filter_cons1 _ nonempty p (sep :: _)), (filter_cons1 _ nonempty sep (_ ++ _)).
        f_equal. f_equal. destruct sep; [contradiction|reflexivity].
Qed.

Lemma cuts_concat : forall seps s l lst, cuts seps s l lst ->
  concat (map (fun ps => fst ps ++ snd ps) l) ++ lst = s.
Proof.
  induction 1 as [s N|s p sep q l lst E C IH]; [reflexivity|].
  cbn [map concat fst snd]. rewrite <- !app_assoc. rewrite IH. symmetry. apply E.
Qed.

Lemma cuts_clean : forall seps s l lst, ~ In [] seps -> cuts seps s l lst ->
  Forall (fun ps => (forall x, In x seps -> ~ occurs x (fst ps)) /\ In (snd ps) seps) l /\
  (forall x, In x seps -> ~ occurs x lst).
Proof.
  intros seps s l lst Hn. induction 1 as [s N|s p sep q l lst E C [IH1 IH2]].
  - split; [constructor|exact N].
  - split; [|exact IH2]. constructor; [|exact IH1]. cbn [fst snd].
    destruct E as (E & M & (bf & af & Es & _)). split.
    + intros x I [a [b Ep]]. specialize (M x a (b ++ sep ++ q) I).
      rewrite E, Ep, <- !app_assoc in M. specialize (M eq_refl). rewrite !app_length in M.
      destruct x; [contradiction|]. cbn in M. lia.
    + rewrite Es. apply in_or_app. right. left. reflexivity.
Qed.

Lemma splitN_spec : forall s seps, ~ In [] seps -> exists l lst,
  cuts seps s l lst /\
  concat (map (fun ps => fst ps ++ snd ps) l) ++ lst = s /\
  Forall (fun ps => (forall x, In x seps -> ~ occurs x (fst ps)) /\ In (snd ps) seps) l /\
  (forall x, In x seps -> ~ occurs x lst) /\
  forall fuel, length s < fuel ->
    splitN fuel Normal s seps = Ok (filter nonempty (map fst l ++ [lst])) /\
    splitN fuel TrailingSeparator s seps = Ok (filter nonempty (map (fun ps => fst ps ++ snd ps) l ++ [lst])) /\
    splitN fuel TokenizeSeparator s seps = Ok (filter nonempty (flat_map (fun ps => [fst ps; snd ps]) l ++ [lst])).
Proof.
  intros s seps Hn.
  destruct (splitN_tokens Normal seps Hn (length s) s (le_n _)) as (l & lst & C & F1).
  destruct (splitN_tokens TrailingSeparator seps Hn (length s) s (le_n _)) as (l2 & lst2 & C2 & F2).
  destruct (splitN_tokens TokenizeSeparator seps Hn (length s) s (le_n _)) as (l3 & lst3 & C3 & F3).
  assert (U : forall s l lst, cuts seps s l lst -> forall l' lst', cuts seps s l' lst' -> l = l' /\ lst = lst').
  { clear. induction 1 as [s N|s p sep q l lst E C IH]; intros l' lst' H'; inversion H' as [s' N'|s' p' sep' q' l'' lst'' E' C']; subst.
    - split; reflexivity.
    - exfalso. destruct E' as (E & _ & (bf & af & Es & _)).
      apply (N sep'); [rewrite Es; apply in_or_app; right; left; reflexivity|]. exists p', q'. exact E.
    - exfalso. destruct E as (E & _ & (bf & af & Es & _)).
      apply (N' sep); [rewrite Es; apply in_or_app; right; left; reflexivity|]. exists p, q. exact E.
    - pose proof (findFirstOf_best [] s seps None [] ltac:(intros x []) ltac:(intros; discriminate)) as _.
      assert (X : p = p' /\ sep = sep' /\ q = q').
      { destruct E as (E & M & (bf & af & Es & Hb)). destruct E' as (E2 & M2 & (bf2 & af2 & Es2 & Hb2)).
        assert (I : In sep seps) by (rewrite Es; apply in_or_app; right; left; reflexivity).
        assert (I2 : In sep' seps) by (rewrite Es2; apply in_or_app; right; left; reflexivity).
        pose proof (M sep' p' q' I2 E2). pose proof (M2 sep p q I E).
        assert (Lp : length p = length p') by lia.
        assert (E3 := E). rewrite E2 in E3. symmetry in E3.
        destruct (same_len_prefix _ _ _ _ _ E3 Lp) as [<- E4].
        assert (Lb : length bf = length bf2).
        { destruct (Nat.lt_trichotomy (length bf) (length bf2)) as [Hl|[Hl|Hl]]; [|exact Hl|]; exfalso.
          - apply (Hb2 sep q); [|exact E]. rewrite Es in Es2.
            assert (Hle : length (bf ++ [sep]) <= length bf2) by (rewrite app_length; cbn; lia).
            replace (bf ++ sep :: af) with ((bf ++ [sep]) ++ af) in Es2 by (rewrite <- app_assoc; reflexivity).
            destruct (app_split _ _ _ _ _ Es2 Hle) as (e & -> & _).
            apply in_or_app. left. apply in_or_app. right. left. reflexivity.
          - apply (Hb sep' q'); [|exact E2]. rewrite Es in Es2. symmetry in Es2.
            assert (Hle : length (bf2 ++ [sep']) <= length bf) by (rewrite app_length; cbn; lia).
            replace (bf2 ++ sep' :: af2) with ((bf2 ++ [sep']) ++ af2) in Es2 by (rewrite <- app_assoc; reflexivity).
            destruct (app_split _ _ _ _ _ Es2 Hle) as (e & -> & _).
            apply in_or_app. left. apply in_or_app. right. left. reflexivity. }
        rewrite Es in Es2. destruct (same_len_prefix _ _ _ _ _ Es2 Lb) as [_ E5]. injection E5 as -> _.
        apply app_inv_head in E4. repeat split; congruence. }
      destruct X as (-> & -> & ->). destruct (IH _ _ C') as [-> ->]. split; reflexivity. }
  destruct (U _ _ _ C _ _ C2) as [<- <-]. destruct (U _ _ _ C _ _ C3) as [<- <-].
  exists l, lst. split; [exact C|]. split; [eapply cuts_concat; exact C|].
  destruct (cuts_clean _ _ _ _ Hn C) as [K1 K2]. split; [exact K1|]. split; [exact K2|].
  assert (FM : forall (f : bytes * bytes -> bytes), flat_map (fun ps => [f ps]) l = map f l).
  { intros f. clear. induction l as [|x l IH]; [reflexivity|]. cbn. rewrite IH. reflexivity. }
  intros fuel Hf. split; [|split].
  - pose proof (F1 fuel [] [] Hf) as H. unfold tokens in H. rewrite FM in H. exact H.
  - pose proof (F2 fuel [] [] Hf) as H. unfold tokens in H. rewrite (FM (fun ps => fst ps ++ snd ps)) in H. exact H.
  - exact (F3 fuel [] [] Hf).
Qed.

(** ** beginsWith / endsWith *)
Lemma beginsWith_spec : forall s x, beginsWith s x = true <-> exists t, s = x ++ t.
Proof.
  intros s x. unfold beginsWith. rewrite andb_true_iff, Nat.leb_le, bytes_eqb_eq. split.
  - intros [L E]. exists (skipn (length x) s). rewrite <- E at 1. symmetry. apply firstn_skipn.
  - intros [t ->]. rewrite app_length, firstn_app_len. split; [lia|reflexivity].
Qed.

Lemma beginsWithChar_spec : forall s c, beginsWithChar s c = true <-> exists t, s = c :: t.
Proof.
  intros [|d s] c; cbn.
  - split; [discriminate|intros [t E]; discriminate].
  - rewrite Ascii.eqb_eq. split; [intros ->; exists s; reflexivity|intros [t E]; congruence].
Qed.

Lemma endsWith_spec : forall s x, exists b, endsWith s x = Ok b /\ (b = true <-> exists t, s = t ++ x).
Proof.
  intros s x. unfold endsWith. destruct (Nat.leb_spec (length x) (length s)) as [L|L].
  - unfold substr. destruct (Nat.leb_spec (length s - length x) (length s)); [|lia]. cbn [obind].
    eexists. split; [reflexivity|]. rewrite bytes_eqb_eq. rewrite firstn_all2 by (rewrite skipn_length; lia).
    split.
    + intros E. exists (firstn (length s - length x) s). rewrite <- E at 2. symmetry. apply firstn_skipn.
    + intros [t ->]. rewrite app_length. replace (length t + length x - length x) with (length t) by lia.
      apply skipn_app_len.
  - exists false. split; [reflexivity|]. split; [discriminate|]. intros [t ->]. rewrite app_length in L. lia.
Qed.

Lemma endsWithChar_spec : forall s c, exists b, endsWithChar s c = Ok b /\ (b = true <-> exists t, s = t ++ [c]).
Proof.
  intros s c. destruct s as [|x s] using rev_ind.
  - exists false. split; [reflexivity|]. split; [discriminate|]. intros [[|] E]; discriminate.
  - assert (E : endsWithChar (s ++ [x]) c = Ok (Ascii.eqb x c)).
    { unfold endsWithChar. rewrite app_length. cbn [length]. replace (length s + 1 - 1) with (length s) by lia.
      rewrite nth_error_app2 by lia. rewrite Nat.sub_diag. cbn. destruct (s ++ [x]) eqn:E; [|reflexivity].
      destruct s; discriminate. }
    rewrite E. eexists. split; [reflexivity|]. rewrite Ascii.eqb_eq. split.
    + intros ->. exists s. reflexivity.
    + intros [t E']. apply app_inj_tail in E'. apply E'.
Qed.

(** ** case and counting *)
Lemma lower_lower : forall c, char_lower (char_lower c) = char_lower c.
Proof. destruct c as [[] [] [] [] [] [] [] []]; vm_compute; reflexivity. Qed.
Lemma lower_upper : forall c, char_lower (char_upper c) = char_lower c.
Proof. destruct c as [[] [] [] [] [] [] [] []]; vm_compute; reflexivity. Qed.
Lemma upper_upper : forall c, char_upper (char_upper c) = char_upper c.
Proof. destruct c as [[] [] [] [] [] [] [] []]; vm_compute; reflexivity. Qed.
Lemma upper_lower : forall c, char_upper (char_lower c) = char_upper c.
Proof. destruct c as [[] [] [] [] [] [] [] []]; vm_compute; reflexivity. Qed.

Lemma case_laws : forall s,
  toLower (toLower s) = toLower s /\ toUpper (toUpper s) = toUpper s /\
  toLower (toUpper s) = toLower s /\ toUpper (toLower s) = toUpper s /\
  length (toLower s) = length s /\ length (toUpper s) = length s.
Proof.
  intros s. unfold toLower, toUpper. rewrite !map_map, !map_length.
  repeat split; apply map_ext; intros c; auto using lower_lower, lower_upper, upper_upper, upper_lower.
Qed.

Lemma count_gen : forall c s n, fold_left (fun n d => if Ascii.eqb d c then S n else n) s n
  = n + count_occ ascii_dec s c.
Proof.
  induction s as [|x s IH]; intros n; cbn; [lia|]. rewrite IH.
  destruct (Ascii.eqb_spec x c), (ascii_dec x c); try contradiction; lia.
Qed.
Lemma count_spec : forall s c, getCharCount s c = count_occ ascii_dec s c.
Proof. intros. unfold getCharCount. rewrite count_gen. reflexivity. Qed.

Lemma count_split : forall s c ps, pieces [c] s ps -> length ps = S (getCharCount s c).
Proof.
  intros s c ps H. rewrite count_spec. induction H as [s N|s p q ps L H IH].
  - cbn. f_equal. symmetry. apply count_occ_not_In. intros I. apply in_split in I.
    destruct I as (a & b & ->). apply N. exists a, b. reflexivity.
  - assert (Np : ~ In c p).
    { intros I. apply in_split in I. destruct I as (a & b & ->). destruct L as [E M].
      specialize (M a (b ++ [c] ++ q)). rewrite <- app_assoc in E. specialize (M E).
      rewrite app_length in M. cbn in M. lia. }
    destruct L as [-> _]. rewrite !count_occ_app. cbn [count_occ length].
    destruct (ascii_dec c c); [|contradiction]. apply (count_occ_not_In ascii_dec) in Np. lia.
Qed.
