(** Expansion of written templates, the second pass, and what remains. *)
From Coq Require Import String Ascii ZArith NArith Arith Bool Lia List.
From Verif Require Import Common StrModel TplModel TplSpec TplProofs.
Import ListNotations.

(** What one pass leaves behind, and whether it replaced anything. *)
Fixpoint pass (st : settings) (env : list dict) (sep : bool) (t : tpl) : list tpl :=
  match t with
  | Txt s => [Txt s]
  | Key k => match lookup_rep env k with Some v => [Txt v] | None => match st with MaintainUnexisting => [Key k] | _ => [] end end
  | Sep s => if sep then [Txt s] else []
  | Sect k body =>
    match lookup_sect env k with
    | Some (ds, env') =>
      (fix each (ds : list dict) : list tpl :=
        match ds with [] => [] | d :: rest => flat_map (pass st (d :: env') (match rest with [] => false | _ => true end)) body ++ each rest end) ds
    | None => match st with MaintainUnexisting => [Sect k body] | MaintainUnexistingOnlyCnt => body | EraseUnexisting => [] end
    end
  end.
Definition pass_all st env sep ts := flat_map (pass st env sep) ts.
Fixpoint pass_each (st : settings) (env' : list dict) (body : list tpl) (ds : list dict) : list tpl :=
  match ds with [] => [] | d :: rest => pass_all st (d :: env') (match rest with [] => false | _ => true end) body ++ pass_each st env' body rest end.
Lemma pass_sect : forall st env sep k body, pass st env sep (Sect k body) =
  match lookup_sect env k with
  | Some (ds, env') => pass_each st env' body ds
  | None => match st with MaintainUnexisting => [Sect k body] | MaintainUnexistingOnlyCnt => body | EraseUnexisting => [] end
  end.
Proof.
  intros. cbn [pass]. destruct (lookup_sect env k) as [(ds, env')|]; [|reflexivity]. induction ds as [|d ds IH]; [reflexivity|]. cbn [pass_each]. rewrite <- IH. reflexivity.
Qed.
Definition hit (env : list dict) (t : tpl) : bool :=
  match t with
  | Key k => match lookup_rep env k with Some _ => true | None => false end
  | Sect k _ => match lookup_sect env k with Some _ => true | None => false end
  | _ => false
  end.
Lemma write_all_app : forall a b, write_all (a ++ b) = write_all a ++ write_all b.
Proof. intros. unfold write_all. apply flat_map_app. Qed.

Definition each_dict (fuel : nat) (src : bytes) (st : settings) (env' : list dict) (cs ce : nat) :=
  fix each (ds : list dict) (buf : bytes) : outcome bytes :=
    match ds with
    | [] => Ok buf
    | d :: rest =>
      obind (expand fuel src st (d :: env') (match rest with [] => false | _ => true end) cs ce buf false) (fun '(buf, _) => each rest buf)
    end.
Lemma expand_S : forall fuel src st env separate i e buf found, expand (S fuel) src st env separate i e buf found =
    if negb (i <? e) then Ok (buf, found)
    else
      obind (at_ src i) (fun c =>
      obind (if negb (Ascii.eqb c lbrace) then Ok false
                       else if after_backslash src i then Ok false
                       else obind (at_ src (i + 1)) (fun c1 => Ok (Ascii.eqb c1 lbrace))) (fun special =>
      if negb special then expand fuel src st env separate (S i) e (buf ++ [c]) found
      else
        obind (at_ src (i + 2)) (fun c2 =>
        let (t, k0) := if Ascii.eqb c2 "#"%char then (TSection, i + 3)
                       else if Ascii.eqb c2 "*"%char then (TSeparator, i + 3) else (TNormal, i + 2) in
        obind (read_key (S (length src)) src k0 []) (fun '(key, j) =>
        obind (at_ src (j + 1)) (fun d =>
        if negb (Ascii.eqb d rbrace) then UB
        else
          match t with
          | TNormal =>
            match lookup_rep env key with
            | Some v => expand fuel src st env separate (j + 2) e (buf ++ v) true
            | None =>
              let buf := match st with MaintainUnexisting => buf ++ [lbrace; lbrace] ++ key ++ [rbrace; rbrace] | _ => buf end in
              expand fuel src st env separate (j + 2) e buf found
            end
          | TSeparator => expand fuel src st env separate (j + 2) e (if separate then buf ++ key else buf) found
          | TSection =>
            obind (at_ src (j + 2)) (fun d2 =>
            if Ascii.eqb d2 rbrace then UB
            else
              let cs := j + 2 in
              obind (find_end (S (length src)) src cs key) (fun '(ce, last) =>
              match lookup_sect env key with
              | Some (ds, env') =>
                obind (each_dict fuel src st env' cs ce ds buf) (fun buf =>
                expand fuel src st env separate (S last) e buf true)
              | None =>
                let buf := match st with
                           | MaintainUnexisting => buf ++ slice src i (S last)
                           | MaintainUnexistingOnlyCnt => buf ++ slice src cs ce
                           | EraseUnexisting => buf
                           end in
                expand fuel src st env separate (S last) e buf found
              end))
          end))))).
Proof. reflexivity. Qed.

Definition runs (st : settings) (w : bytes) (res : list dict -> bool -> bytes) (h : list dict -> bool) : Prop :=
  forall env sep pre post e buf found fuel, ends pre = false -> length (pre ++ w) <= e -> length w < fuel ->
  exists fuel', fuel - length w <= fuel' /\
    expand fuel (pre ++ w ++ post) st env sep (length pre) e buf found =
    expand fuel' (pre ++ w ++ post) st env sep (length pre + length w) e (buf ++ res env sep) (found || h env).
Lemma runs_nil : forall st, runs st [] (fun _ _ => []) (fun _ => false).
Proof. intros st env sep pre post e buf found fuel _ _ L. exists fuel. cbn [length]. rewrite Nat.sub_0_r, Nat.add_0_r, app_nil_r, orb_false_r. auto. Qed.
Lemma runs_app : forall st a b ra rb ha hb, runs st a ra ha -> runs st b rb hb -> ends a = false ->
  runs st (a ++ b) (fun env sep => ra env sep ++ rb env sep) (fun env => ha env || hb env).
Proof.
  intros st a b ra rb ha hb Ra Rb Ea env sep pre post e buf found fuel E Le L. rewrite !app_length in *.
  destruct (Ra env sep pre (b ++ post) e buf found fuel E) as (f1 & L1 & E1); [rewrite app_length; lia|lia|].
  destruct (Rb env sep (pre ++ a) post e (buf ++ ra env sep) (found || ha env) f1) as (f2 & L2 & E2); [now apply ends_app_false|rewrite !app_length; lia|lia|].
  exists f2. split; [lia|]. rewrite <- !app_assoc in *. rewrite E1. rewrite app_length in E2. rewrite E2, orb_assoc. f_equal. lia.
Qed.
Lemma runs_plain : forall st s, plain s -> runs st s (fun _ _ => s) (fun _ => false).
Proof.
  intros st s (P & Q & _) env sep pre post e buf found fuel _ Le L. rewrite orb_false_r.
  assert (G : forall b a buf fuel, s = a ++ b -> length b < fuel ->
    exists fuel', fuel - length b <= fuel' /\ expand fuel (pre ++ s ++ post) st env sep (length (pre ++ a)) e buf found = expand fuel' (pre ++ s ++ post) st env sep (length (pre ++ a) + length b) e (buf ++ b) found).
  { induction b as [|c b IH]; intros a bf f Es Lf.
    - exists f. cbn [length]. rewrite Nat.sub_0_r, Nat.add_0_r, app_nil_r. auto.
    - destruct f as [|f]; [cbn in Lf; lia|]. cbn [length] in Lf. destruct (IH (a ++ [c]) (bf ++ [c]) f) as (f' & L' & E'); [rewrite Es, <- app_assoc; reflexivity|lia|].
      exists f'. split; [cbn; lia|]. replace (length (pre ++ a) + length (c :: b)) with (length (pre ++ a ++ [c]) + length b) by (rewrite !app_length; cbn; lia).
      replace (bf ++ c :: b) with ((bf ++ [c]) ++ b) by (rewrite <- app_assoc; reflexivity).
      rewrite <- E'. replace (length (pre ++ a ++ [c])) with (S (length (pre ++ a))) by (rewrite !app_length; cbn; lia).
      assert (Lt : (length (pre ++ a) <? e) = true) by (apply Nat.ltb_lt; rewrite Es, !app_length in Le; cbn in Le; rewrite app_length; lia).
      assert (Esrc : pre ++ s ++ post = (pre ++ a) ++ c :: b ++ post) by (rewrite Es, <- !app_assoc; reflexivity). rewrite Esrc.
      rewrite expand_S, Lt. cbn [negb]. rewrite at_here. cbn [obind]. destruct (Ascii.eqb c lbrace) eqn:Ec; [|reflexivity]. cbn [negb]. apply Ascii.eqb_eq in Ec as ->.
      rewrite after_here. destruct (ends (pre ++ a)) eqn:Ee; [reflexivity|]. destruct b as [|c1 b]; [now destruct (Q a)|].
      rewrite (at_off (pre ++ a) _ 1). cbn [app]; rat. destruct (Ascii.eqb c1 lbrace) eqn:E1; [|reflexivity]. apply Ascii.eqb_eq in E1 as ->.
      destruct (P a b Es) as (a' & ->). rewrite app_assoc, ends_snoc in Ee. discriminate. }
  destruct (G s [] buf fuel eq_refl L) as (f' & L' & E'). rewrite app_nil_r in E'. eauto.
Qed.
(** A tag "{{x..." up to its type. *)
Lemma expand_open : forall fuel pre r st env sep e buf found, ends pre = false -> length pre < e ->
  expand (S fuel) (pre ++ opening ++ r) st env sep (length pre) e buf found =
  let src := pre ++ opening ++ r in
        obind (at_ r 0) (fun c2 =>
        let (t, k0) := if Ascii.eqb c2 "#"%char then (TSection, length pre + 3)
                       else if Ascii.eqb c2 "*"%char then (TSeparator, length pre + 3) else (TNormal, length pre + 2) in
        obind (read_key (S (length src)) src k0 []) (fun '(key, j) =>
        obind (at_ src (j + 1)) (fun d =>
        if negb (Ascii.eqb d rbrace) then UB
        else
          match t with
          | TNormal =>
            match lookup_rep env key with
            | Some v => expand fuel src st env sep (j + 2) e (buf ++ v) true
            | None =>
              let buf := match st with MaintainUnexisting => buf ++ [lbrace; lbrace] ++ key ++ [rbrace; rbrace] | _ => buf end in
              expand fuel src st env sep (j + 2) e buf found
            end
          | TSeparator => expand fuel src st env sep (j + 2) e (if sep then buf ++ key else buf) found
          | TSection =>
            obind (at_ src (j + 2)) (fun d2 =>
            if Ascii.eqb d2 rbrace then UB
            else
              let cs := j + 2 in
              obind (find_end (S (length src)) src cs key) (fun '(ce, last) =>
              match lookup_sect env key with
              | Some (ds, env') =>
                obind (each_dict fuel src st env' cs ce ds buf) (fun buf =>
                expand fuel src st env sep (S last) e buf true)
              | None =>
                let buf := match st with
                           | MaintainUnexisting => buf ++ slice src (length pre) (S last)
                           | MaintainUnexistingOnlyCnt => buf ++ slice src cs ce
                           | EraseUnexisting => buf
                           end in
                expand fuel src st env sep (S last) e buf found
              end))
          end))).
Proof.
  intros fuel pre r st env sep e buf found E Le. rewrite expand_S. apply Nat.ltb_lt in Le. rewrite Le. cbn [negb].
  change (opening ++ r) with (lbrace :: lbrace :: r). rewrite at_here. cbn [obind]. rewrite Ascii.eqb_refl. cbn [negb]. rewrite after_here, E.
  rewrite (at_off pre _ 1). rat. rewrite Ascii.eqb_refl. cbn [obind negb]. rewrite (at_off pre _ 2), !at_S. reflexivity.
Qed.
Lemma runs_key : forall st ks k, wf ks (Key k) -> runs st (write (Key k)) (fun env sep => write_all (pass st env sep (Key k))) (fun env => hit env (Key k)).
Proof.
  intros st ks k W env sep pre post e buf found fuel E Le L. inversion W as [|? (N1 & N2) Hd| |]; subst. cbn [write] in *. rewrite !app_length, length_opening, length_closing in *.
  destruct fuel as [|fuel]; [lia|]. exists fuel. split; [lia|]. rewrite <- !app_assoc. rewrite expand_open by (auto; lia). cbv zeta.
  assert (Hc : exists c2 rest, k ++ closing ++ post = c2 :: rest /\ c2 <> "#"%char /\ c2 <> "*"%char).
  { destruct k as [|c k]; [exists rbrace, (rbrace :: post); repeat split; discriminate|]. exists c, (k ++ closing ++ post). cbn [hd] in Hd. split; [reflexivity|]. split; intros ->; apply Hd; cbn; auto. }
  destruct Hc as (c2 & rest & Ec & H1 & H2). rewrite Ec at 1; rat. apply Ascii.eqb_neq in H1, H2. rewrite H1, H2.
  replace (pre ++ opening ++ k ++ closing ++ post) with ((pre ++ opening) ++ k ++ closing ++ post) by (rewrite <- app_assoc; reflexivity).
  replace (length pre + 2) with (length (pre ++ opening)) by (rewrite app_length; reflexivity).
  change (closing ++ post) with (rbrace :: rbrace :: post). rewrite read_key_ok; [|exact N2|rewrite !app_length; lia]. cbn [obind app].
  rewrite <- app_length. replace (at_ ((pre ++ opening) ++ k ++ rbrace :: rbrace :: post) (length ((pre ++ opening) ++ k) + 1)) with (@Ok ascii rbrace).
  2: { rewrite app_assoc, at_off. reflexivity. }
  cbn [obind]. rewrite Ascii.eqb_refl. cbn [negb pass hit].
  replace (length ((pre ++ opening) ++ k) + 2) with (length pre + (2 + (length k + 2))) by (rewrite !app_length, length_opening; lia).
  destruct (lookup_rep env k) as [v|].
  - cbn [write_all flat_map write]. rewrite app_nil_r, orb_true_r. reflexivity.
  - rewrite orb_false_r. destruct st; cbn [write_all flat_map write]; rewrite ?app_nil_r; reflexivity.
Qed.
Lemma runs_sep : forall st ks s, wf ks (Sep s) -> runs st (write (Sep s)) (fun env sep => write_all (pass st env sep (Sep s))) (fun env => hit env (Sep s)).
Proof.
  intros st ks k W env sep pre post e buf found fuel E Le L. inversion W as [| |? (N1 & N2) Hd|]; subst. cbn [write] in *. rewrite !app_length in *. cbn [length] in *. rewrite !app_length, length_opening, length_closing in *.
  destruct fuel as [|fuel]; [lia|]. exists fuel. split; [lia|].
  replace (pre ++ (opening ++ "*"%char :: k ++ closing) ++ post) with (pre ++ opening ++ "*"%char :: k ++ closing ++ post) by (norm_app; reflexivity).
  rewrite expand_open by (auto; lia). cbv zeta. rat.
  change (Ascii.eqb "*" "#") with false. change (Ascii.eqb "*" "*") with true. cbv iota.
  replace (pre ++ opening ++ "*"%char :: k ++ closing ++ post) with ((pre ++ opening ++ ["*"%char]) ++ k ++ closing ++ post) by (norm_app; reflexivity).
  replace (length pre + 3) with (length (pre ++ opening ++ ["*"%char])) by (rewrite app_length; reflexivity).
  change (closing ++ post) with (rbrace :: rbrace :: post). rewrite read_key_ok; [|exact N2|rewrite !app_length; lia]. cbn [obind app].
  rewrite <- app_length. match goal with |- context[at_ ?s ?j] => replace (at_ s j) with (@Ok ascii rbrace) end.
  2: { rewrite app_assoc, at_off. reflexivity. }
  cbn [obind]. rewrite Ascii.eqb_refl. cbn [negb pass hit]. rewrite orb_false_r.
  f_equal; [rewrite !app_length; cbn; lia|]. destruct sep; cbn; now rewrite ?app_nil_r.
Qed.
Lemma slice_mid : forall p m q, slice (p ++ m ++ q) (length p) (length p + length m) = m.
Proof.
  intros. unfold slice. rewrite skipn_app, skipn_all, Nat.sub_diag. cbn [app skipn]. replace (length p + length m - length p) with (length m + 0) by lia.
  rewrite firstn_app_2. cbn. apply app_nil_r.
Qed.
Lemma runs_all : forall st ks ts, (forall t, In t ts -> wf ks t /\ runs st (write t) (fun env sep => write_all (pass st env sep t)) (fun env => hit env t)) ->
  runs st (write_all ts) (fun env sep => write_all (pass_all st env sep ts)) (fun env => existsb (hit env) ts).
Proof.
  intros st ks. induction ts as [|t ts IH]; intros H; [apply runs_nil|].
  assert (R := runs_app st (write t) (write_all ts) _ _ _ _ (proj2 (H t (or_introl eq_refl))) (IH (fun u I => H u (or_intror I))) (write_ends ks t (proj1 (H t (or_introl eq_refl))))).
  intros env sep pre post e buf found fuel E Le L. destruct (R env sep pre post e buf found fuel E Le L) as (f & Lf & Ef). exists f. split; [exact Lf|]. cbn [write_all flat_map] in *. unfold write_all in *. rewrite Ef.
  cbn [pass_all flat_map existsb]. unfold pass_all. rewrite flat_map_app. reflexivity.
Qed.
Lemma each_ok : forall st env' ks body p q fuel, (forall t, In t body -> wf ks t) -> 
  runs st (write_all body) (fun env sep => write_all (pass_all st env sep body)) (fun env => existsb (hit env) body) ->
  ends p = false -> length (write_all body) < fuel ->
  forall ds buf, each_dict fuel (p ++ write_all body ++ q) st env' (length p) (length p + length (write_all body)) ds buf = Ok (buf ++ write_all (pass_each st env' body ds)).
Proof.
  intros st env' ks body p q fuel W R E L. induction ds as [|d ds IH]; intros buf; cbn [each_dict pass_each]; [now rewrite app_nil_r|].
  destruct (R (d :: env') (match ds with [] => false | _ => true end) p q (length p + length (write_all body)) buf false fuel E) as (f & Lf & Ef); [rewrite app_length; lia|exact L|].
  rewrite Ef. destruct f as [|f]; [lia|]. rewrite expand_S, Nat.ltb_irrefl. cbn [negb obind]. fold (each_dict fuel (p ++ write_all body ++ q) st env' (length p) (length p + length (write_all body))).
  rewrite IH, write_all_app, app_assoc. reflexivity.
Qed.
Lemma runs_sect : forall st ks k body, wf ks (Sect k body) ->
  runs st (write_all body) (fun env sep => write_all (pass_all st env sep body)) (fun env => existsb (hit env) body) ->
  runs st (write (Sect k body)) (fun env sep => write_all (pass st env sep (Sect k body))) (fun env => hit env (Sect k body)).
Proof.
  intros st ks k body W R env sep pre post e buf found fuel E Le L. inversion W as [| | |? ? (N1 & N2) Hp Hh Hb]; subst.
  assert (Lw : length (write (Sect k body)) = length (write_all body) + 2 * length k + 10).
  { cbn [write]. rewrite !app_length. cbn [length]. rewrite !app_length. cbn [length]. rewrite !app_length. change (length opening) with 2. change (length closing) with 2. fold (write_all body). lia. }
  rewrite app_length in Le. rewrite Lw in *. destruct fuel as [|fuel]; [lia|]. exists fuel. split; [lia|].
  set (pc := pre ++ opening ++ "#"%char :: k ++ closing). set (tl := opening ++ "/"%char :: k ++ closing ++ post).
  assert (Es : pre ++ write (Sect k body) ++ post = pc ++ write_all body ++ tl) by (subst pc tl; cbn [write]; norm_app; reflexivity).
  assert (Eo : pre ++ write (Sect k body) ++ post = pre ++ opening ++ "#"%char :: k ++ closing ++ write_all body ++ tl) by (subst pc tl; cbn [write]; norm_app; reflexivity).
  assert (Lpc : length pc = length pre + length k + 5).
  { subst pc. rewrite !app_length. cbn [length]. rewrite app_length. cbn. lia. }
  rewrite Eo at 1. rewrite expand_open by (auto; lia). cbv zeta. rat.
  change (Ascii.eqb "#" "#") with true. cbv iota. rewrite <- Eo.
  replace (pre ++ write (Sect k body) ++ post) with ((pre ++ opening ++ ["#"%char]) ++ k ++ rbrace :: rbrace :: write_all body ++ tl) at 2 by (rewrite Eo; norm_app; reflexivity).
  replace (length pre + 3) with (length (pre ++ opening ++ ["#"%char])) by (rewrite app_length; reflexivity).
  rewrite read_key_ok; [|exact N2|rewrite Es, !app_length, Lpc; lia]. cbn [obind app].
  replace (length (pre ++ opening ++ ["#"%char]) + length k) with (length pre + length k + 3) by (rewrite !app_length; cbn; lia).
  replace (at_ (pre ++ write (Sect k body) ++ post) (length pre + length k + 3 + 1)) with (@Ok ascii rbrace).
  2: { replace (pre ++ write (Sect k body) ++ post) with ((pre ++ opening ++ "#"%char :: k ++ [rbrace]) ++ rbrace :: write_all body ++ tl) by (rewrite Eo; norm_app; reflexivity).
       replace (length pre + length k + 3 + 1) with (length (pre ++ opening ++ "#"%char :: k ++ [rbrace])) by (rewrite !app_length; cbn [length]; rewrite app_length; cbn; lia). symmetry. apply at_here. }
  cbn [obind]. rewrite Ascii.eqb_refl. cbn [negb].
  replace (length pre + length k + 3 + 2) with (length pc) by lia. rewrite Es.
  assert (Hc : exists d2, at_ (pc ++ write_all body ++ tl) (length pc) = Ok d2 /\ d2 <> rbrace).
  { destruct (write_all body) as [|c w] eqn:Ew; [exists lbrace; split; [apply at_here|discriminate]|]. exists c. cbn [app]. split; [apply at_here|exact Hh]. }
  destruct Hc as (d2 & -> & Nd). cbn [obind]. apply Ascii.eqb_neq in Nd. rewrite Nd.
  assert (Epc : ends pc = false) by (subst pc; replace (pre ++ opening ++ "#"%char :: k ++ closing) with ((pre ++ opening ++ "#"%char :: k) ++ closing) by (norm_app; reflexivity); apply ends_tag).
  unfold tl at 2. rewrite (find_end_ok k ks body pc post); [|exact N2|exact Hb|exact Epc|rewrite !app_length; subst tl; rewrite !app_length; cbn; lia]. cbn [obind].
  rewrite pass_sect. cbn [hit]. replace (S (length pc + length (write_all body) + length k + 4)) with (length pre + (length (write_all body) + 2 * length k + 10)) by lia.
  destruct (lookup_sect env k) as [(ds, env')|].
  - rewrite (each_ok st env' (k :: ks)) by (auto; lia). cbn [obind]. rewrite orb_true_r. reflexivity.
  - rewrite orb_false_r. destruct st.
    + rewrite app_nil_r. reflexivity.
    + rewrite <- Es at 2. rewrite <- Lw, slice_mid. cbn [write_all flat_map]. rewrite app_nil_r. reflexivity.
    + rewrite slice_mid. reflexivity.
Qed.
Lemma runs_write : forall st t ks, wf ks t -> runs st (write t) (fun env sep => write_all (pass st env sep t)) (fun env => hit env t).
Proof.
  intros st. apply (tpl_nested (fun t => forall ks, wf ks t -> runs st (write t) (fun env sep => write_all (pass st env sep t)) (fun env => hit env t))).
  - intros s ks W. inversion W; subst. cbn [write pass hit write_all flat_map]. intros env sep pre post e buf found fuel E Le L. rewrite app_nil_r. now apply runs_plain.
  - intros k ks W. eapply runs_key; eauto.
  - intros k ks W. eapply runs_sep; eauto.
  - intros k body IH ks W. eapply runs_sect; eauto. inversion W as [| | |? ? ? Hp Hh Hb]; subst. eapply runs_all with (ks := k :: ks). intros t I. split; [auto|eapply IH; eauto].
Qed.
Lemma expand_all : forall st ts d sep buf, (forall t, In t ts -> wf [] t) ->
  expand (S (length (write_all ts))) (write_all ts) st [d] sep 0 (length (write_all ts)) buf false = Ok (buf ++ write_all (pass_all st [d] sep ts), existsb (hit [d]) ts).
Proof.
  intros st ts d sep buf W.
  assert (R : runs st (write_all ts) (fun env sep => write_all (pass_all st env sep ts)) (fun env => existsb (hit env) ts)).
  { apply runs_all with (ks := []). intros t I. split; [auto|]. eapply runs_write; eauto. }
  destruct (R [d] sep [] [] (length (write_all ts)) buf false (S (length (write_all ts))) eq_refl (le_n _) (le_n _)) as (f & Lf & Ef).
  cbn [app] in Ef. rewrite app_nil_r in Ef. cbn [length plus] in Ef. rewrite Ef. destruct f as [|f]; [lia|]. rewrite expand_S, Nat.ltb_irrefl. reflexivity.
Qed.

(** ** What one pass leaves is well-formed, and unchanged by the next *)
Lemma wf_mono : forall t ks ks', (forall k, In k ks' -> In k ks) -> wf ks t -> wf ks' t.
Proof.
  apply (tpl_nested (fun t => forall ks ks', (forall k, In k ks' -> In k ks) -> wf ks t -> wf ks' t)).
  - intros s ks ks' _ W. inversion W; subst. now constructor.
  - intros k ks ks' _ W. inversion W; subst. now constructor.
  - intros s ks ks' _ W. inversion W; subst. now constructor.
  - intros k body IH ks ks' S W. inversion W as [| | |? ? ? Hp Hh Hb]; subst. constructor; auto. intros t I. apply (IH t I (k :: ks)); [|auto]. intros k' [->|I']; [now left|right; auto].
Qed.
Lemma assoc_in : forall A k (l : list (bytes * A)) v, assoc k l = Some v -> In (k, v) l.
Proof.
  induction l as [|(k', x) l IH]; intros v H; [discriminate|]. cbn in H. destruct (bytes_eqb k k') eqn:E; [|right; auto]. apply bytes_eqb_eq in E as ->. injection H as ->. now left.
Qed.
Lemma lookup_rep_plain : forall env k v, (forall d, In d env -> tidy d) -> lookup_rep env k = Some v -> plain v.
Proof.
  induction env as [|d env IH]; intros k v T H; [discriminate|]. cbn in H. destruct (assoc k (reps d)) as [x|] eqn:E; [|apply (IH k); auto; intros e I; apply T; now right].
  injection H as ->. destruct (T d (or_introl eq_refl)) as [r s Hr _]. eapply Hr, assoc_in, E.
Qed.
Lemma lookup_sect_split : forall env k ds env', lookup_sect env k = Some (ds, env') -> exists e1 d e2, env = e1 ++ d :: e2 /\ env' = d :: e2 /\ assoc k (sects d) = Some ds /\ ds <> [] /\
    forall d', In d' e1 -> assoc k (sects d') = None \/ assoc k (sects d') = Some [].
Proof.
  induction env as [|d env IH]; intros k ds env' H; [discriminate|]. cbn in H. destruct (assoc k (sects d)) as [[|x l]|] eqn:E.
  - destruct (IH _ _ _ H) as (e1 & d0 & e2 & -> & -> & Ea & Nn & Hn). exists (d :: e1), d0, e2. repeat split; auto. intros d' [<-|I]; auto.
  - injection H as <- <-. exists [], d, env. repeat split; [exact E|discriminate|contradiction].
  - destruct (IH _ _ _ H) as (e1 & d0 & e2 & -> & -> & Ea & Nn & Hn). exists (d :: e1), d0, e2. repeat split; auto. intros d' [<-|I]; auto.
Qed.
Lemma lookup_sect_tidy : forall env k ds env', (forall d, In d env -> tidy d) -> lookup_sect env k = Some (ds, env') ->
  (forall d, In d env' -> tidy d) /\ (forall d, In d ds -> tidy d).
Proof.
  intros env k ds env' T H. destruct (lookup_sect_split _ _ _ _ H) as (e1 & d & e2 & -> & -> & Ea & _). split.
  - intros x I. apply T. apply in_or_app. now right.
  - intros x I. destruct (T d) as [r s _ Hs]; [apply in_or_app; right; now left|]. eapply Hs; [eapply assoc_in, Ea|exact I].
Qed.
Lemma sep_plain : forall s, no_braces s -> (forall a, s <> a ++ [backslash]) -> plain s.
Proof.
  intros s (N1 & N2) H. repeat split; auto.
  - intros a b ->. destruct N1. apply in_or_app. right. now left.
  - intros a ->. apply N1. apply in_or_app. right. now left.
Qed.
Lemma pass_wf : forall st t ks env sep, (forall d, In d env -> tidy d) -> wf ks t -> forall u, In u (pass st env sep t) -> wf [] u.
Proof.
  intros st. apply (tpl_nested (fun t => forall ks env sep, (forall d, In d env -> tidy d) -> wf ks t -> forall u, In u (pass st env sep t) -> wf [] u)).
  - intros s ks env sep T W u [<-|[]]. inversion W; subst. now constructor.
  - intros k ks env sep T W u I. cbn [pass] in I. destruct (lookup_rep env k) as [v|] eqn:E.
    + destruct I as [<-|[]]. constructor. eapply lookup_rep_plain; eauto.
    + destruct st; [destruct I| |destruct I]. destruct I as [<-|[]]. eapply wf_mono; [|exact W]. intros k0 [].
  - intros s ks env sep T W u I. cbn [pass] in I. destruct sep; [|destruct I]. destruct I as [<-|[]]. inversion W; subst. constructor. now apply sep_plain.
  - intros k body IH ks env sep T W u I. rewrite pass_sect in I. inversion W as [| | |? ? ? Hp Hh Hb]; subst. destruct (lookup_sect env k) as [(ds, env')|] eqn:E.
    + destruct (lookup_sect_tidy _ _ _ _ T E) as (T' & Td). clear E. revert I. induction ds as [|d ds IHd]; intros I; [destruct I|]. cbn [pass_each] in I. apply in_app_or in I as [I|I].
      * apply in_flat_map in I as (t & It & Iu). eapply IH; [exact It| |apply Hb; exact It|exact Iu]. intros x [<-|Ix]; [apply Td; now left|auto].
      * apply IHd; [|exact I]. intros x Ix. apply Td. now right.
    + destruct st.
      * destruct I.
      * destruct I as [<-|[]]. eapply wf_mono; [|exact W]. intros k0 [].
      * eapply wf_mono; [|apply Hb; exact I]. intros k0 [].
Qed.
Definition fixed st root u := pass st [root] false u = [u] /\ hit [root] u = false.
Lemma rep_root : forall e0 root k, lookup_rep (e0 ++ [root]) k = None -> lookup_rep [root] k = None.
Proof. induction e0 as [|d e0 IH]; intros root k H; [exact H|]. cbn in H. destruct (assoc k (reps d)); [discriminate|]. now apply IH. Qed.
Lemma sect_root : forall e0 root k, lookup_sect (e0 ++ [root]) k = None -> lookup_sect [root] k = None.
Proof. induction e0 as [|d e0 IH]; intros root k H; [exact H|]. cbn in H. destruct (assoc k (sects d)) as [[|? ?]|]; try discriminate; now apply IH. Qed.
Lemma pass_stable : forall st root, st <> MaintainUnexistingOnlyCnt -> forall t e0 sep u, In u (pass st (e0 ++ [root]) sep t) -> fixed st root u.
Proof.
  intros st root Nst. apply (tpl_nested (fun t => forall e0 sep u, In u (pass st (e0 ++ [root]) sep t) -> fixed st root u)).
  - intros s e0 sep u [<-|[]]. split; reflexivity.
  - intros k e0 sep u I. cbn [pass] in I. destruct (lookup_rep (e0 ++ [root]) k) as [v|] eqn:E.
    + destruct I as [<-|[]]. split; reflexivity.
    + destruct st; [destruct I| |destruct I]. destruct I as [<-|[]]. apply rep_root in E. unfold fixed. cbn [pass hit]. rewrite E. auto.
  - intros s e0 sep u I. cbn [pass] in I. destruct sep; [|destruct I]. destruct I as [<-|[]]. split; reflexivity.
  - intros k body IH e0 sep u I. rewrite pass_sect in I. destruct (lookup_sect (e0 ++ [root]) k) as [(ds, env')|] eqn:E.
    + destruct (lookup_sect_split _ _ _ _ E) as (e1 & d & e2 & Ee & -> & _).
      assert (Es : exists e3, d :: e2 = e3 ++ [root]).
      { destruct (@exists_last _ (d :: e2)) as (e3 & r & Er); [discriminate|]. rewrite Er in Ee. rewrite app_assoc in Ee. apply app_inj_tail in Ee as (_ & ->). rewrite Er. eauto. }
      destruct Es as (e3 & Es). rewrite Es in I. clear E Ee. revert I. induction ds as [|x ds IHd]; intros I; [destruct I|]. cbn [pass_each] in I. apply in_app_or in I as [I|I]; [|auto].
      apply in_flat_map in I as (t & It & Iu). eapply (IH t It (x :: e3)). exact Iu.
    + destruct st; [destruct I| |congruence]. destruct I as [<-|[]]. apply sect_root in E. unfold fixed. rewrite pass_sect. cbn [hit]. rewrite E. auto.
Qed.
Lemma fixed_all : forall st root us, (forall u, In u us -> fixed st root u) -> pass_all st [root] false us = us /\ existsb (hit [root]) us = false.
Proof.
  intros st root. induction us as [|u us IH]; intros H; [split; reflexivity|]. destruct (H u (or_introl eq_refl)) as (E1 & E2). destruct IH as (I1 & I2); [intros x Ix; apply H; now right|].
  unfold pass_all in *. cbn [flat_map existsb]. rewrite E1, E2, I1, I2. split; reflexivity.
Qed.

(** ** Removing the escapes *)
Lemma deescape_ok : forall n s pre buf fuel, length s <= n -> s <> [] -> (forall a, s <> a ++ [lbrace]) -> length s <= fuel ->
  deescape fuel (pre ++ s) (length pre) buf = Ok (buf ++ unescape s).
Proof.
  induction n as [|n IH]; intros s pre buf fuel Ln N E Lf; [destruct s; [congruence|cbn in Ln; lia]|].
  destruct s as [|a s]; [congruence|]. destruct fuel as [|fuel]; [cbn in Lf; lia|]. cbn [deescape]. rewrite app_length. destruct s as [|b s].
  - cbn [length]. replace (length pre <? length pre + 1 - 1) with false by (symmetry; apply Nat.ltb_ge; lia).
    replace (length pre + 1 - 1) with (length pre) by lia. rewrite at_here. reflexivity.
  - replace (length pre <? length pre + length (a :: b :: s) - 1) with true by (symmetry; apply Nat.ltb_lt; cbn; lia).
    rewrite at_here. cbn [obind]. rewrite (at_off pre _ 1). rat. cbn [length] in *.
    assert (E1 : forall a0, b :: s <> a0 ++ [lbrace]) by (intros a0 Ea; apply (E (a :: a0)); rewrite Ea; reflexivity).
    cbn [unescape]. destruct (Ascii.eqb a backslash && Ascii.eqb b lbrace) eqn:Eab.
    + apply andb_true_iff in Eab as (_ & Eb). apply Ascii.eqb_eq in Eb as ->. rewrite (at_off pre _ 1). rat. destruct s as [|c s]; [now destruct (E1 [])|].
      replace (pre ++ a :: lbrace :: c :: s) with ((pre ++ [a; lbrace]) ++ c :: s) by (rewrite <- app_assoc; reflexivity).
      replace (S (length pre + 1)) with (length (pre ++ [a; lbrace])) by (rewrite app_length; cbn; lia). rewrite IH.
      * rewrite <- app_assoc. cbn [unescape]. change (Ascii.eqb lbrace backslash) with false. cbn [andb app]. reflexivity.
      * cbn [length] in *. lia.
      * discriminate.
      * intros a0 Ea. apply (E1 (lbrace :: a0)). rewrite Ea. reflexivity.
      * cbn [length] in *. lia.
    + rewrite at_here. cbn [obind]. replace (pre ++ a :: b :: s) with ((pre ++ [a]) ++ b :: s) by (rewrite <- app_assoc; reflexivity).
      replace (S (length pre)) with (length (pre ++ [a])) by (rewrite app_length; cbn; lia). rewrite IH; [|cbn; lia|discriminate|exact E1|cbn; lia]. rewrite <- app_assoc. reflexivity.
Qed.
Lemma unescape_app : forall a b, ends a = false -> unescape (a ++ b) = unescape a ++ unescape b.
Proof.
  induction a as [|x a IH]; intros b E; [reflexivity|]. destruct a as [|y a].
  - unfold ends in E. cbn [rev app] in E |- *. destruct b as [|y b]; [reflexivity|]. cbn [unescape]. rewrite E. reflexivity.
  - change ((x :: y :: a) ++ b) with (x :: (y :: a) ++ b). assert (E' : ends (y :: a) = false) by (rewrite <- (ends_app [x]) by discriminate; exact E). specialize (IH b E').
    cbn [app] in *. change (unescape (x :: y :: a ++ b)) with (if Ascii.eqb x backslash && Ascii.eqb y lbrace then unescape (y :: a ++ b) else x :: unescape (y :: a ++ b)).
    rewrite IH. change (unescape (x :: y :: a)) with (if Ascii.eqb x backslash && Ascii.eqb y lbrace then unescape (y :: a) else x :: unescape (y :: a)). destruct (_ && _); reflexivity.
Qed.
Lemma unescape_id : forall s, (forall a b, s <> a ++ backslash :: lbrace :: b) -> unescape s = s.
Proof.
  induction s as [|x s IH]; intros H; [reflexivity|]. destruct s as [|y s]; [reflexivity|].
  change (unescape (x :: y :: s)) with (if Ascii.eqb x backslash && Ascii.eqb y lbrace then unescape (y :: s) else x :: unescape (y :: s)).
  rewrite IH by (intros a b E; apply (H (x :: a) b); rewrite E; reflexivity). destruct (Ascii.eqb x backslash && Ascii.eqb y lbrace) eqn:E; [|reflexivity].
  apply andb_true_iff in E as (E1 & E2). apply Ascii.eqb_eq in E1 as ->. apply Ascii.eqb_eq in E2 as ->. now destruct (H [] s).
Qed.
Lemma unescape_nobrace : forall s, ~ In lbrace s -> unescape s = s.
Proof. intros s H. apply unescape_id. intros a b ->. apply H. apply in_or_app. right. right. now left. Qed.
Lemma unescape_tag : forall x, ~ In lbrace x -> unescape (opening ++ x ++ closing) = opening ++ x ++ closing.
Proof.
  intros x H. rewrite unescape_app by reflexivity. rewrite (unescape_nobrace (x ++ closing)); [reflexivity|]. intros I. apply in_app_or in I as [I|I]; [auto|]. now apply not_in_closing in I.
Qed.
Lemma unescape_write : forall t ks, wf ks t -> unescape (write t) = show t.
Proof.
  apply (tpl_nested (fun t => forall ks, wf ks t -> unescape (write t) = show t)).
  - reflexivity.
  - intros k ks W. inversion W as [|? (N1 & N2)| |]; subst. now apply unescape_tag.
  - intros k ks W. inversion W as [| |? (N1 & N2)|]; subst. cbn [write show]. apply (unescape_tag ("*"%char :: k)). intros [X|X]; [discriminate|auto].
  - intros k body IH ks W. inversion W as [| | |? ? (N1 & N2) Hp Hh Hb]; subst. cbn [write show].
    replace (opening ++ "#"%char :: k ++ closing ++ flat_map write body ++ opening ++ "/"%char :: k ++ closing)
      with ((opening ++ ("#"%char :: k) ++ closing) ++ write_all body ++ (opening ++ ("/"%char :: k) ++ closing)) by (norm_app; reflexivity).
    rewrite (unescape_app (opening ++ ("#"%char :: k) ++ closing)) by (rewrite app_assoc; apply ends_tag). rewrite (unescape_app (write_all body)) by (eapply write_all_ends; exact Hb).
    rewrite !unescape_tag by (intros [X|X]; [discriminate|auto]).
    assert (Eb : unescape (write_all body) = flat_map show body).
    { clear Hh W. induction body as [|t body IHb]; [reflexivity|]. cbn [write_all flat_map]. rewrite unescape_app by (eapply write_ends; apply Hb; now left). f_equal.
      - eapply IH; [now left|apply Hb; now left].
      - apply IHb; [intros u Iu; apply IH; now right|intros u Iu; apply Hb; now right]. }
    rewrite Eb. norm_app. reflexivity.
Qed.

(** ** What the residue stands for *)
Lemma innermost_iff : forall env k v, innermost env k v <-> lookup_rep env k = Some v.
Proof.
  intros env k v. split.
  - intros (e1 & d & e2 & -> & E & H). induction e1 as [|x e1 IH]; [cbn; now rewrite E|]. cbn. rewrite (H x (or_introl eq_refl)). apply IH. intros d' I. apply H. now right.
  - revert v. induction env as [|x env IH]; intros v H; [discriminate|]. cbn in H. destruct (assoc k (reps x)) as [y|] eqn:E.
    + injection H as ->. exists [], x, env. repeat split; [exact E|contradiction].
    + destruct (IH v H) as (e1 & d & e2 & -> & Ea & Hn). exists (x :: e1), d, e2. repeat split; [exact Ea|]. intros d' [<-|I]; auto.
Qed.
Lemma innermost_section_iff : forall env k ds env', innermost_section env k ds env' <-> lookup_sect env k = Some (ds, env').
Proof.
  intros env k ds env'. split; [|apply lookup_sect_split].
  intros (e1 & d & e2 & -> & -> & E & N & H). induction e1 as [|x e1 IH]; [cbn; rewrite E; destruct ds; [congruence|reflexivity]|].
  cbn. destruct (H x (or_introl eq_refl)) as [->| ->]; apply IH; intros d' I; apply H; now right.
Qed.
Definition keep_of (st : settings) : bool := match st with MaintainUnexisting => true | _ => false end.
Definition meaning st env sep t := unescape (write_all (pass st env sep t)).
Lemma means_iff : forall st, st <> MaintainUnexistingOnlyCnt -> forall t ks env sep, (forall d, In d env -> tidy d) -> wf ks t ->
  forall out, means (keep_of st) env sep t out <-> out = meaning st env sep t.
Proof.
  intros st Nst. unfold meaning.
  apply (tpl_nested (fun t => forall ks env sep, (forall d, In d env -> tidy d) -> wf ks t -> forall out, means (keep_of st) env sep t out <-> out = unescape (write_all (pass st env sep t)))).
  - intros s ks env sep T W out. cbn [pass write_all flat_map write]. rewrite app_nil_r. split; [intros M; now inversion M|intros ->; constructor].
  - intros k ks env sep T W out. cbn [pass]. destruct (lookup_rep env k) as [v|] eqn:E.
    + cbn [write_all flat_map write]. rewrite app_nil_r. split.
      * intros M. inversion M as [|? ? ? ? H|? ? ? H| | |]; subst; [|destruct (H v); now apply innermost_iff]. apply innermost_iff in H. congruence.
      * intros ->. constructor. now apply innermost_iff.
    + assert (G : out = unescape (write_all match st with MaintainUnexisting => [Key k] | _ => [] end) <-> out = if keep_of st then show (Key k) else []).
      { destruct st; cbn [keep_of write_all flat_map]; try reflexivity. rewrite app_nil_r, (unescape_write _ ks W). reflexivity. }
      rewrite G. split.
      * intros M. inversion M as [|? ? ? ? H|? ? ? H| | |]; subst; [apply innermost_iff in H; congruence|reflexivity].
      * intros ->. constructor. intros v H. apply innermost_iff in H. congruence.
  - intros s ks env sep T W out. inversion W as [| |? (N1 & N2) Hn|]; subst. cbn [pass].
    assert (G : unescape (write_all (if sep then [Txt s] else [])) = if sep then s else []).
    { destruct sep; [|reflexivity]. cbn [write_all flat_map write]. rewrite app_nil_r. now apply unescape_nobrace. }
    rewrite G. split; [intros M; now inversion M|intros ->; constructor].
  - intros k body IH ks env sep T W out. inversion W as [| | |? ? (N1 & N2) Hp Hh Hb]; subst. rewrite pass_sect. destruct (lookup_sect env k) as [(ds, env')|] eqn:E.
    + assert (G : ds <> [] -> forall out, means_each (keep_of st) env' ds body out <-> out = unescape (write_all (pass_each st env' body ds))).
      { destruct (lookup_sect_tidy _ _ _ _ T E) as (T' & Td).
        assert (B : forall d sep out, tidy d -> means_all (keep_of st) (d :: env') sep body out <-> out = unescape (write_all (pass_all st (d :: env') sep body))).
        { intros d sp o Tx. assert (Te : forall x, In x (d :: env') -> tidy x) by (intros x [<-|Ix]; auto). clear Hh W. revert o. induction body as [|t body IHb]; intros o.
          - split; [intros M; now inversion M|intros ->; constructor].
          - unfold pass_all. cbn [flat_map]. rewrite write_all_app. rewrite unescape_app.
            2: { eapply write_all_ends. intros u Iu. eapply pass_wf; [exact Te|apply Hb; now left|exact Iu]. }
            split.
            + intros M. inversion M as [|? ? ? ? a b Ma Mb]; subst. f_equal.
              * eapply (IH t (or_introl eq_refl) (k :: ks)); [exact Te|apply Hb; now left|exact Ma].
              * apply IHb; [intros u Iu; apply IH; now right|intros u Iu; apply Hb; now right|exact Mb].
            + intros ->. constructor.
              * eapply (IH t (or_introl eq_refl) (k :: ks)); [exact Te|apply Hb; now left|reflexivity].
              * apply IHb; [intros u Iu; apply IH; now right|intros u Iu; apply Hb; now right|reflexivity]. }
        clear E. induction ds as [|d ds IHd]; intros N o; [congruence|]. destruct ds as [|d' ds].
        - cbn [pass_each]. rewrite app_nil_r. split.
          + intros M. inversion M; subst. apply B; [apply Td; now left|assumption].
          + intros Eo. constructor. apply B; [apply Td; now left|exact Eo].
        - remember (d' :: ds) as ds' eqn:Eds. cbn [pass_each]. replace (match ds' with [] => false | _ => true end) with true by (rewrite Eds; reflexivity). rewrite write_all_app, unescape_app.
          2: { eapply write_all_ends. intros u Iu. apply in_flat_map in Iu as (t & It & Iu). eapply pass_wf; [|apply Hb; exact It|exact Iu]. intros x [<-|Ix]; [apply Td; now left|auto]. }
          assert (Nd : ds' <> []) by (rewrite Eds; discriminate). assert (Td' : forall x, In x ds' -> tidy x) by (intros x Ix; apply Td; now right). specialize (IHd Td' Nd). split.
          + intros M. rewrite Eds in M. inversion M as [|? ? ? ? ? a b Ma Mb]; subst. f_equal; [apply B; [apply Td; now left|exact Ma]|apply IHd; exact Mb].
          + intros ->. rewrite Eds. apply me_more; [apply B; [apply Td; now left|reflexivity]|]. rewrite <- Eds. apply IHd. reflexivity. }
      assert (Nd : ds <> []) by (destruct (lookup_sect_split _ _ _ _ E) as (e1 & d & e2 & _ & _ & _ & Nd & _); exact Nd).
      rewrite <- (G Nd out). split.
      * intros M. inversion M as [| | | |? ? ? ? ds2 env2 ? Hi He|? ? ? ? Hi]; subst; [|destruct (Hi ds env'); now apply innermost_section_iff].
        apply innermost_section_iff in Hi. rewrite E in Hi. injection Hi as <- <-. exact He.
      * intros M. econstructor; [apply innermost_section_iff; exact E|exact M].
    + assert (G : out = unescape (write_all match st with MaintainUnexisting => [Sect k body] | MaintainUnexistingOnlyCnt => body | EraseUnexisting => [] end) <-> out = if keep_of st then show (Sect k body) else []).
      { destruct st; try congruence; unfold keep_of; [reflexivity|]. cbn [write_all flat_map]. rewrite app_nil_r, (unescape_write _ ks W). reflexivity. }
      rewrite G. split.
      * intros M. inversion M as [| | | |? ? ? ? ds2 env2 ? Hi He|? ? ? ? Hi]; subst; [apply innermost_section_iff in Hi; congruence|reflexivity].
      * intros ->. constructor. intros ds env' H. apply innermost_section_iff in H. congruence.
Qed.
Lemma means_all_iff : forall st ts d sep, st <> MaintainUnexistingOnlyCnt -> tidy d -> (forall t, In t ts -> wf [] t) ->
  forall out, means_all (keep_of st) [d] sep ts out <-> out = unescape (write_all (pass_all st [d] sep ts)).
Proof.
  intros st ts d sep Nst T W. assert (Te : forall x, In x [d] -> tidy x) by (intros x [<-|[]]; exact T). induction ts as [|t ts IHb]; intros o.
  - split; [intros M; now inversion M|intros ->; constructor].
  - unfold pass_all. cbn [flat_map]. rewrite write_all_app. rewrite unescape_app.
    2: { eapply write_all_ends. intros u Iu. eapply pass_wf; [exact Te|apply W; now left|exact Iu]. }
    assert (IH := IHb (fun u Iu => W u (or_intror Iu))). split.
    + intros M. inversion M as [|? ? ? ? a b Ma Mb]; subst. f_equal; [eapply means_iff; eauto; apply W; now left|now apply IH].
    + intros ->. constructor; [eapply means_iff; eauto; apply W; now left|now apply IH].
Qed.
Lemma write_all_no_open : forall ts, (forall t, In t ts -> wf [] t) -> forall a, write_all ts <> a ++ [lbrace].
Proof.
  assert (C : forall x a, x ++ closing <> a ++ [lbrace]).
  { intros x a E. change closing with ([rbrace] ++ [rbrace]) in E. rewrite app_assoc in E. apply app_inj_tail in E as (_ & E). discriminate. }
  assert (G : forall t, wf [] t -> write t <> [] -> forall a, write t <> a ++ [lbrace]).
  { intros t W Nn a. destruct W as [s (_ & Q & _)|k|s|k body]; cbn [write].
    - apply Q.
    - rewrite app_assoc. apply C.
    - change (opening ++ "*"%char :: s ++ closing) with ((opening ++ "*"%char :: s) ++ closing). apply C.
    - replace (opening ++ "#"%char :: k ++ closing ++ flat_map write body ++ opening ++ "/"%char :: k ++ closing)
      with ((opening ++ "#"%char :: k ++ closing ++ flat_map write body ++ opening ++ "/"%char :: k) ++ closing) by (norm_app; reflexivity). apply C. }
  induction ts as [|t ts IH]; intros W a E; [destruct a; discriminate|]. cbn [write_all flat_map] in E. fold (write_all ts) in E.
  destruct (write_all ts) as [|c w] eqn:Ew.
  - rewrite app_nil_r in E. apply (G t (W t (or_introl eq_refl))) in E; [exact E|]. intros E2. rewrite E2 in E. destruct a; discriminate.
  - destruct (@exists_last _ (c :: w)) as (p & x & Ep); [discriminate|]. rewrite Ep, app_assoc in E. apply app_inj_tail in E as (_ & ->). apply (IH (fun u Iu => W u (or_intror Iu)) p). rewrite <- Ep. reflexivity.
Qed.
Lemma deescape_all : forall ts, (forall t, In t ts -> wf [] t) ->
  match write_all ts with [] => Ok [] | _ => deescape (S (length (write_all ts))) (write_all ts) 0 [] end = Ok (unescape (write_all ts)).
Proof.
  intros ts W. pose proof (write_all_no_open ts W) as N. destruct (write_all ts) as [|c w] eqn:E; [reflexivity|].
  apply (deescape_ok (length (c :: w)) (c :: w) [] [] _ (le_n _)); [discriminate|exact N|cbn; lia].
Qed.
Lemma expanded : forall st ts d, st <> MaintainUnexistingOnlyCnt -> tidy d -> (forall t, In t ts -> wf [] t) ->
  forall n, getExpanded (S (S n)) d (write_all ts) st = Ok (unescape (write_all (pass_all st [d] false ts))).
Proof.
  intros st ts d Nst T W n. assert (Te : forall x, In x [d] -> tidy x) by (intros x [<-|[]]; exact T).
  set (us := pass_all st [d] false ts).
  assert (Wu : forall u, In u us -> wf [] u) by (intros u Iu; apply in_flat_map in Iu as (t & It & Iu); eapply pass_wf; [exact Te|apply W; exact It|exact Iu]).
  assert (Fu : forall u, In u us -> fixed st d u) by (intros u Iu; apply in_flat_map in Iu as (t & It & Iu); eapply (pass_stable st d Nst t []); exact Iu).
  cbn [getExpanded]. rewrite expand_all by exact W. cbn [obind app]. fold us. destruct (existsb (hit [d]) ts).
  - rewrite expand_all by exact Wu. cbn [obind app]. destruct (fixed_all st d us Fu) as (-> & ->). now apply deescape_all.
  - now apply deescape_all.
Qed.
Lemma expansion : forall st ts d, st <> MaintainUnexistingOnlyCnt -> tidy d -> (forall t, In t ts -> wf [] t) ->
  (exists out, means_all (keep_of st) [d] false ts out) /\
  forall out, means_all (keep_of st) [d] false ts out -> forall n, getExpanded (S (S n)) d (write_all ts) st = Ok out.
Proof.
  intros st ts d Nst T W. split.
  - eexists. apply means_all_iff; auto.
  - intros out M n. rewrite expanded by auto. apply means_all_iff in M; auto. now rewrite M.
Qed.

(** ** Filling dictionaries *)
Lemma assoc_eq : forall A k v (l : list (bytes * A)), assoc k ((k, v) :: l) = Some v.
Proof. intros. cbn [assoc]. replace (bytes_eqb k k) with true by (symmetry; apply bytes_eqb_eq; reflexivity). reflexivity. Qed.
Lemma assoc_ne : forall A j k v (l : list (bytes * A)), j <> k -> assoc j ((k, v) :: l) = assoc j l.
Proof. intros A j k v l H. cbn [assoc]. destruct (bytes_eqb j k) eqn:E; [|reflexivity]. apply bytes_eqb_eq in E. contradiction. Qed.
Lemma set_rep_spec : forall d k v,
  assoc k (reps (set_rep k v d)) = Some v /\ (forall j, j <> k -> assoc j (reps (set_rep k v d)) = assoc j (reps d)) /\
  sects (set_rep k v d) = sects d.
Proof.
  intros [r s] k v. cbn [set_rep reps sects]. split; [apply assoc_eq|]. split; [|reflexivity]. intros j H. apply assoc_ne, H.
Qed.
Lemma add_sects_spec : forall ds d k, let d' := fold_left (fun d x => add_sect k x d) ds d in
  (ds <> [] -> assoc k (sects d') = Some (match assoc k (sects d) with Some old => old ++ ds | None => ds end)) /\
  (forall j, j <> k -> assoc j (sects d') = assoc j (sects d)) /\ reps d' = reps d.
Proof.
  induction ds as [|x ds IH]; intros d k; cbn [fold_left]; cbv zeta.
  - split; [congruence|]. split; reflexivity.
  - destruct (IH (add_sect k x d) k) as (H1 & H2 & H3). destruct d as [r s]. cbn [add_sect sects reps] in *.
    rewrite assoc_eq in H1. split; [|split; [|exact H3]].
    + intros _. destruct ds as [|y ds]; [cbn [fold_left sects]; rewrite assoc_eq; destruct (assoc k s); reflexivity|].
      rewrite H1 by discriminate. destruct (assoc k s); [rewrite <- app_assoc|]; reflexivity.
    + intros j Hj. rewrite (H2 j Hj). apply assoc_ne, Hj.
Qed.
