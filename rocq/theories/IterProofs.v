(** Lemmas on loops over managers. *)
From Coq Require Import Arith Bool Lia List Permutation.
From Verif Require Import Common MemModel ReMgrModel ReMgrSpec ReMgrProofs IterModel IterSpec.
Import ListNotations.

(** *** Counting and room *)
Lemma news_app : forall a b, news (a ++ b) = news a + news b.
Proof. intros. unfold news. rewrite filter_app, app_length. reflexivity. Qed.
Lemma uses_app : forall a b, uses (a ++ b) = uses a + uses b.
Proof. intros. unfold uses. rewrite filter_app, app_length. reflexivity. Qed.
Fixpoint capf (c n k : nat) : nat := match k with O => c | S k => capf (if c <=? n then c * 3 else c) (n + 1) k end.
Lemma capf_app : forall k1 k2 c n, capf c n (k1 + k2) = capf (capf c n k1) (n + k1) k2.
Proof. induction k1 as [|k IH]; intros k2 c n; cbn [capf Nat.add]; [rewrite Nat.add_0_r; reflexivity|]. rewrite IH. f_equal. lia. Qed.
Lemma capf_room : forall k c n, n <= c -> 0 < c -> room c (n + k) (capf c n k) /\ n + k <= capf c n k.
Proof.
  induction k as [|k IH]; intros c n H1 H2; cbn [capf].
  - split; [|lia]. exists 0. cbn. split; [lia|]. split; [lia|]. intros; lia.
  - destruct (Nat.leb_spec c n) as [L|L].
    + destruct (IH (c * 3) (n + 1) ltac:(lia) ltac:(lia)) as ((j & J1 & J2 & J3) & J4). split; [|lia]. exists (S j). cbn [Nat.pow]. split; [rewrite J1; lia|]. split; [lia|].
      intros [|i] Hi; [cbn; lia|]. specialize (J3 i ltac:(lia)). cbn [Nat.pow]. lia.
    + destruct (IH c (n + 1) ltac:(lia) H2) as (J & J4). split; [|lia]. replace (n + S k) with (n + 1 + k) by lia. exact J.
Qed.
Lemma room_unique : forall c n m m', room c n m -> room c n m' -> m = m'.
Proof.
  intros c n m m' (k & -> & A2 & A3) (k' & -> & B2 & B3). destruct (Nat.lt_trichotomy k k') as [L|[->|L]]; [|reflexivity|].
  - specialize (B3 k L). lia.
  - specialize (A3 k' L). lia.
Qed.
Lemma capf_same : forall k c n, n <= c -> 0 < c -> (capf c n k = c <-> n + k <= c).
Proof.
  intros k c n H1 H2. destruct (capf_room k c n H1 H2) as (R & L). split; [intros E; rewrite E in L; exact L|]. intros H. apply (room_unique c (n + k)); [exact R|]. exists 0. cbn. split; [lia|]. split; [exact H|]. intros; lia.
Qed.

(** *** Creating and deleting *)
Definition dels (k : nat) (l : list vact) : bool := existsb (fun a => match a with VDel j => j =? k | _ => false end) l.
Record post (s : st) (l : list vact) (s' : st) : Prop := {
  p_wf : wf s'; p_listed : listed s' = listed s ++ seq (length (objs s)) (news l); p_len : length (objs s') = length (objs s) + news l;
  p_vis : vis s' = vis s; p_log : log s' = log s; p_next : next s' = next s + news l; p_cap : cap s' = capf (cap s) (next s) (news l);
  p_slots : forall i, i < next s -> nth_error (slots s') i = nth_error (slots s) i;
  p_old : forall k, k < length (objs s) -> nth_error (objs s') k = if dels k l then Some (There false) else nth_error (objs s) k;
  p_new : forall k, length (objs s) <= k -> k < length (objs s') -> living s' k }.
Lemma post_nil : forall s, wf s -> post s [] s.
Proof. intros s W. constructor; cbn; auto; try lia. rewrite app_nil_r. reflexivity. Qed.
Definition below (b : nat) (l : list vact) : Prop := forall k, In (VDel k) l -> k < b.
Lemma dels_below : forall b l k, below b l -> b <= k -> dels k l = false.
Proof.
  intros b l k H L. unfold dels. destruct (existsb _ l) eqn:E; [|reflexivity]. apply existsb_exists in E as ([|j| | |] & E1 & E2); try discriminate. apply Nat.eqb_eq in E2. subst j. apply H in E1. lia.
Qed.
Lemma post_trans : forall b s l1 s1 l2 s2, below b l2 -> b <= length (objs s) -> post s l1 s1 -> post s1 l2 s2 -> post s (l1 ++ l2) s2.
Proof.
  intros b s l1 s1 l2 s2 Hb Lb [A1 A2 A3 A4 A5 A6 A7 A8 A9 A10] [B1 B2 B3 B4 B5 B6 B7 B8 B9 B10]. constructor; try rewrite news_app; try congruence; try lia; auto.
  - rewrite B2, A2, A3, seq_app, app_assoc. reflexivity.
  - rewrite B7, A7, A6, capf_app. reflexivity.
  - intros i Hi. rewrite B8 by lia. apply A8. exact Hi.
  - intros k Hk. rewrite B9 by lia. rewrite A9 by exact Hk. unfold dels. rewrite existsb_app. destruct (existsb _ l1), (existsb _ l2); reflexivity.
  - intros k H1 H2. destruct (Nat.lt_ge_cases k (length (objs s1))) as [L|L]; [|apply B10; assumption]. unfold living. rewrite B9 by exact L. rewrite (dels_below b) by (assumption || lia). apply A10; assumption.
Qed.
Lemma new_post : forall s, wf s -> exists s', do_act false (ANew []) s = Ok s' /\ post s [VNew] s'.
Proof.
  intros s W. pose proof (act_effect false (ANew []) s (proj1 W)) as E. rewrite do_new in *. cbn [do_acts obind] in *. set (t := with_objs (objs s ++ [There true]) s) in *.
  assert (Q : exists s', place false (length (objs s)) t = Ok s' /\ objs s' = objs s ++ [There true] /\ vis s' = vis s /\ log s' = log s /\ next s' = next s + 1 /\ cap s' = if cap s <=? next s then cap s * 3 else cap s).
  { unfold place, t. cbn [with_objs cap next slots objs vis log]. destruct (cap s <=? next s); eexists; (split; [reflexivity|]); cbn; auto. }
  destruct Q as (s' & Q & Q1 & Q2 & Q3 & Q4 & Q5). rewrite Q in *. cbn in E. destruct E as (K & Sz & _). exists s'. split; [reflexivity|]. destruct (keeps_wf _ _ _ W K Sz) as (W' & _).
  destruct K as (_ & _ & _ & _ & _ & _ & N & K7 & K8 & K9 & K10). assert (LN : length N = 1) by lia. destruct N as [|x [|]]; try discriminate. rewrite Q1, app_length in K10. cbn in K10. apply Forall_cons_iff in K10 as [K10 _]. assert (x = length (objs s)) by lia. subst x.
  assert (W3 : firstn (next s) (slots s) = map Some (listed s)) by apply W. assert (Ln : length (firstn (next s) (slots s)) = next s) by (destruct (proj1 W) as (? & ? & _); rewrite firstn_length_le by lia; reflexivity).
  constructor; cbn [news filter length capf]; try assumption.
  - cbn. apply listed_is. rewrite K8, W3, map_app. reflexivity.
  - rewrite Q1, app_length. reflexivity.
  - intros i Hi. rewrite <- (nth_firstn (slots s') (next s')) by lia. rewrite K8, nth_error_app1 by lia. apply nth_firstn. exact Hi.
  - intros k Hk. rewrite Q1, nth_error_app1 by exact Hk. reflexivity.
  - rewrite Q1, app_length. cbn. intros k H1 H2. unfold living. rewrite Q1. assert (k = length (objs s)) by lia. subst k. rewrite nth_error_app2, Nat.sub_diag by lia. reflexivity.
Qed.
Lemma del_post : forall s k, wf s -> exists_in s k -> exists s', del k s = Ok s' /\ post s [VDel k] s'.
Proof.
  intros s k W [f F]. pose proof (del_keeps k s (proj1 W)) as E. unfold del in *. rewrite F in *. cbn in E. destruct E as (K & Sz & _). eexists. split; [reflexivity|]. destruct (keeps_wf _ _ _ W K Sz) as (W' & _).
  assert (Lk : k < length (objs s)) by apply (nth_lt _ _ _ F). constructor; cbn [news filter length capf with_objs slots objs vis next cap log]; auto; try lia.
  - cbn. rewrite app_nil_r. reflexivity.
  - rewrite upd_length. lia.
  - intros j Hj. rewrite upd_nth. unfold dels. cbn [existsb]. rewrite orb_false_r, (Nat.eqb_sym k j). apply Nat.ltb_lt in Lk. rewrite Lk, andb_true_r. reflexivity.
  - rewrite upd_length. intros; lia.
Qed.
Lemma use_post : forall s, wf s -> post s [VUse] s.
Proof. intros s W. constructor; cbn; auto; try lia. rewrite app_nil_r. reflexivity. Qed.

(** *** Bodies *)
Definition held (c : nat) (s : st) (l : list vact) : Prop := forall A B, l = A ++ VUse :: B -> capf (cap s) (next s) (news A) = c.
Lemma slot_there : forall s i id, wf s -> i < next s -> nth_error (slots s) i = Some (Some id) -> exists f, nth_error (objs s) id = Some (There f).
Proof.
  intros s i id (W1 & W2 & W3 & W4 & W5 & W6 & _) Hi Hs. rewrite <- (nth_firstn (slots s) (next s)) in Hs by exact Hi. rewrite W3 in Hs. rewrite nth_error_map in Hs. destruct (nth_error (listed s) i) as [x|] eqn:E; [|discriminate]. injection Hs as ->.
  rewrite Forall_forall in W6. exact (W6 id (nth_error_In _ _ E)).
Qed.
Lemma body_ok : forall s0 l s ev c i id, wf s -> length (objs s0) <= length (objs s) -> (forall k, exists_in s0 k -> exists_in s k) -> mild s0 l -> i < next s -> nth_error (slots s) i = Some (Some id) ->
  (held c s l /\ exists s', do_vacts c i l (s, ev) = Ok (s', ev ++ repeat id (uses l)) /\ post s l s') \/ (~ held c s l /\ do_vacts c i l (s, ev) = UB).
Proof.
  intros s0 l. induction l as [|a l IH]; intros s ev c i id W Lb Ex Mi Hi Sl.
  - left. split; [intros [|] B E; discriminate|]. exists s. cbn. rewrite app_nil_r. split; [reflexivity|apply post_nil; exact W].
  - assert (Mi' : mild s0 l) by (intros b Hb; apply Mi; right; exact Hb).
    assert (Bl : below (length (objs s0)) l). { intros k Hk. destruct (Mi' _ Hk) as [H|[H|(j & H & [f F])]]; try discriminate. injection H as ->. apply (nth_lt _ _ _ F). }
    assert (Go : forall s1, post s [a] s1 -> (forall ev', do_vact c i a (s, ev) = Ok (s1, ev') -> ev' = ev ++ repeat id (uses [a])) -> (exists ev', do_vact c i a (s, ev) = Ok (s1, ev')) -> (held c s (a :: l) <-> held c s1 l) ->
      (held c s (a :: l) /\ exists s', do_vacts c i (a :: l) (s, ev) = Ok (s', ev ++ repeat id (uses (a :: l))) /\ post s (a :: l) s') \/ (~ held c s (a :: l) /\ do_vacts c i (a :: l) (s, ev) = UB)).
    { intros s1 P1 Ev (ev' & E1) Hh. cbn [do_vacts]. rewrite E1. cbn [obind]. rewrite (Ev _ E1). pose proof (p_len _ _ _ P1) as Le. pose proof (p_next _ _ _ P1) as Nx.
      assert (Ex1 : forall k, exists_in s0 k -> exists_in s1 k).
      { intros k Hk. destruct (Ex k Hk) as [f F]. unfold exists_in. rewrite (p_old _ _ _ P1) by (apply (nth_lt _ _ _ F)). destruct (dels k [a]); eauto. }
      destruct (IH s1 (ev ++ repeat id (uses [a])) c i id (p_wf _ _ _ P1) ltac:(lia) Ex1 Mi' ltac:(lia) ltac:(rewrite (p_slots _ _ _ P1) by exact Hi; exact Sl)) as [(H1 & s' & H2 & H3)|(H1 & H2)].
      - left. split; [apply Hh; exact H1|]. exists s'. split; [|apply (post_trans (length (objs s0)) s [a] s1 l s' Bl Lb P1 H3)].
        rewrite H2, <- app_assoc, <- repeat_app. change (a :: l) with ([a] ++ l). rewrite uses_app. reflexivity.
      - right. split; [intros C; apply H1, Hh, C|exact H2]. }
    destruct (Mi a (or_introl eq_refl)) as [->|[->|(k & -> & Hk)]].
    + destruct (new_post s W) as (s1 & E1 & P1). apply (Go s1 P1).
      * cbn [do_vact]. rewrite E1. cbn [obind]. intros ev' E. injection E as <-. cbn. rewrite app_nil_r. reflexivity.
      * cbn [do_vact]. rewrite E1. cbn [obind]. eauto.
      * assert (Cc : forall n, capf (cap s) (next s) (S n) = capf (cap s1) (next s1) n) by (intros n; rewrite (p_cap _ _ _ P1), (p_next _ _ _ P1); reflexivity). split.
        -- intros H A B E. rewrite <- Cc. apply (H (VNew :: A) B). rewrite E. reflexivity.
        -- intros H [|x A] B E; [discriminate|]. injection E as <- E. change (news (VNew :: A)) with (S (news A)). rewrite Cc. apply (H A B E).
    + destruct (slot_there s i id W Hi Sl) as [f F]. destruct (Nat.eq_dec (cap s) c) as [Ec|Ec].
      * apply (Go s (use_post s W)).
        -- cbn. unfold read_slot. rewrite Ec, Nat.eqb_refl, Sl, F. cbn. intros ev' E. injection E as <-. reflexivity.
        -- cbn. unfold read_slot. rewrite Ec, Nat.eqb_refl, Sl, F. cbn. eauto.
        -- split.
           ++ intros H A B E. apply (H (VUse :: A) B). rewrite E. reflexivity.
           ++ intros H [|x A] B E; [exact Ec|]. injection E as <- E. apply (H A B E).
      * right. split; [intros C; apply Ec; exact (C [] l eq_refl)|]. cbn. unfold read_slot. apply Nat.eqb_neq in Ec. rewrite Ec. reflexivity.
    + destruct (del_post s k W (Ex k Hk)) as (s1 & E1 & P1). apply (Go s1 P1).
      * cbn [do_vact]. rewrite E1. cbn [obind]. intros ev' E. injection E as <-. cbn. rewrite app_nil_r. reflexivity.
      * cbn [do_vact]. rewrite E1. cbn [obind]. eauto.
      * assert (Cc : forall n, capf (cap s) (next s) n = capf (cap s1) (next s1) n) by (intros n; rewrite (p_cap _ _ _ P1), (p_next _ _ _ P1); cbn; rewrite Nat.add_0_r; reflexivity). split.
        -- intros H A B E. rewrite <- Cc. apply (H (VDel k :: A) B). rewrite E. reflexivity.
        -- intros H [|x A] B E; [discriminate|]. injection E as <- E. change (news (VDel k :: A)) with (news A). rewrite Cc. apply (H A B E).
Qed.

(** *** Loops *)
Section Loop.
Variable body : nat -> list vact.
Definition fitsn (c n : nat) (L : list nat) : Prop := forall L1 id L2, L = L1 ++ id :: L2 -> forall A B, body id = A ++ VUse :: B ->
  n + news (flat_map body L1) + news A <= capf c n (news (flat_map body L1)).
Lemma fitsn_is : forall s L, wf s -> (fits body s L <-> fitsn (cap s) (next s) L).
Proof.
  intros s L ((_ & S2 & S3) & _). unfold fits, fitsn. split.
  - intros H L1 id L2 E A B Eb. apply (H L1 id L2 E A B Eb). apply capf_room; assumption.
  - intros H L1 id L2 E A B Eb m Rm. rewrite (room_unique _ _ _ _ Rm (proj1 (capf_room (news (flat_map body L1)) (cap s) (next s) S2 S3))). exact (H L1 id L2 E A B Eb).
Qed.
Lemma fitsn_cons : forall c n id L, fitsn c n (id :: L) <-> (forall A B, body id = A ++ VUse :: B -> n + news A <= c) /\ fitsn (capf c n (news (body id))) (n + news (body id)) L.
Proof.
  intros c n id L. split.
  - intros H. split.
    + intros A B E. specialize (H [] id L eq_refl A B E). cbn in H. lia.
    + intros L1 x L2 E A B Eb. specialize (H (id :: L1) x L2 ltac:(rewrite E; reflexivity) A B Eb). cbn [flat_map] in H. rewrite news_app, capf_app in H. lia.
  - intros (H1 & H2) [|y L1] x L2 E A B Eb.
    + injection E as <- <-. cbn. specialize (H1 A B Eb). lia.
    + injection E as <- E. cbn [flat_map]. rewrite news_app, capf_app. specialize (H2 L1 x L2 E A B Eb). lia.
Qed.
Lemma visits_ok : forall s0 L s ev i, wf s -> length (objs s0) <= length (objs s) -> (forall k, exists_in s0 k -> exists_in s k) -> (forall id, In id L -> mild s0 (body id)) -> i + length L <= next s ->
  (forall j id, nth_error L j = Some id -> nth_error (slots s) (i + j) = Some (Some id)) ->
  (fitsn (cap s) (next s) L /\ exists s', visits body (length L) i (s, ev) = Ok (s', ev ++ flat_map (fun id => repeat id (1 + uses (body id))) L) /\ post s (flat_map body L) s') \/
  (~ fitsn (cap s) (next s) L /\ visits body (length L) i (s, ev) = UB).
Proof.
  intros s0 L. induction L as [|id L IH]; intros s ev i W Lb Ex Mi Hn Sl.
  - left. split; [intros [|] ? ? E; discriminate|]. exists s. cbn. rewrite app_nil_r. split; [reflexivity|apply post_nil; exact W].
  - cbn [length visits]. cbn [length] in Hn. assert (S0 : nth_error (slots s) i = Some (Some id)) by (rewrite <- (Nat.add_0_r i); apply Sl; reflexivity).
    destruct (slot_there s i id W ltac:(lia) S0) as [f F]. unfold visit at 1 2. unfold read_slot. rewrite Nat.eqb_refl, S0, F. cbn [obind].
    assert (Sz : next s <= cap s /\ 0 < cap s) by (destruct W as ((_ & ? & ?) & _); auto).
    assert (Hh : held (cap s) s (body id) <-> (forall A B, body id = A ++ VUse :: B -> next s + news A <= cap s)).
    { unfold held. destruct Sz as [Sz1 Sz2]. split; intros H A B E; specialize (H A B E); apply (capf_same (news A) (cap s) (next s) Sz1 Sz2); exact H. }
    destruct (body_ok s0 (body id) s (ev ++ [id]) (cap s) i id W Lb Ex (Mi id (or_introl eq_refl)) ltac:(lia) S0) as [(H1 & s1 & E1 & P1)|(H1 & E1)].
    + rewrite E1. cbn [obind]. pose proof (p_len _ _ _ P1) as Le. pose proof (p_next _ _ _ P1) as Nx.
      assert (Ex1 : forall k, exists_in s0 k -> exists_in s1 k).
      { intros k Hk. destruct (Ex k Hk) as [g G]. unfold exists_in. rewrite (p_old _ _ _ P1) by (apply (nth_lt _ _ _ G)). destruct (dels k (body id)); eauto. }
      assert (Bl : below (length (objs s0)) (flat_map body L)).
      { intros k Hk. apply in_flat_map in Hk as (x & X1 & X2). destruct (Mi x (or_intror X1) _ X2) as [H|[H|(j & H & [g G])]]; try discriminate. injection H as ->. apply (nth_lt _ _ _ G). }
      destruct (IH s1 ((ev ++ [id]) ++ repeat id (uses (body id))) (i + 1) (p_wf _ _ _ P1) ltac:(lia) Ex1 (fun x Hx => Mi x (or_intror Hx)) ltac:(lia)) as [(H2 & s2 & E2 & P2)|(H2 & E2)].
      { intros j x Hj. rewrite (p_slots _ _ _ P1) by (assert (j < length L) by (apply (nth_lt _ _ _ Hj)); lia). replace (i + 1 + j) with (i + S j) by lia. apply Sl. exact Hj. }
      * left. rewrite (p_cap _ _ _ P1), (p_next _ _ _ P1) in H2. split; [apply fitsn_cons; split; [apply Hh; exact H1|exact H2]|]. exists s2. split; [|cbn [flat_map]; apply (post_trans (length (objs s0)) s (body id) s1 _ s2 Bl Lb P1 P2)].
        rewrite E2. cbn [flat_map Nat.add repeat]. rewrite <- !app_assoc. reflexivity.
      * right. rewrite (p_cap _ _ _ P1), (p_next _ _ _ P1) in H2. split; [|exact E2]. intros C. apply fitsn_cons in C. apply H2, C.
    + right. rewrite E1. split; [|reflexivity]. intros C. apply fitsn_cons in C as [C _]. apply H1, Hh, C.
Qed.
End Loop.

Lemma shown_listed : forall s, wf s -> vis s = next s -> shown s = map Some (listed s).
Proof. intros s (_ & _ & W3 & _) V. unfold shown. rewrite V. exact W3. Qed.
Lemma shown_first : forall s, wf s -> shown s = map Some (firstn (vis s) (listed s)).
Proof. intros s (_ & W2 & W3 & _). unfold shown. rewrite <- firstn_map, <- W3, firstn_firstn, Nat.min_l by lia. reflexivity. Qed.
Lemma existsb_flat : forall (body : nat -> list vact) f L, existsb f (flat_map body L) = existsb (fun id => existsb f (body id)) L.
Proof. induction L as [|x L IH]; cbn; [reflexivity|]. rewrite existsb_app, IH. reflexivity. Qed.
Lemma post_shown : forall s l s', wf s -> post s l s' -> shown s' = shown s.
Proof.
  intros s l s' W P. rewrite (shown_first s W), (shown_first s' (p_wf _ _ _ P)), (p_vis _ _ _ P), (p_listed _ _ _ P). destruct W as (_ & W2 & _ & W4 & _). rewrite firstn_app. replace (vis s - length (listed s)) with 0 by lia. cbn. rewrite app_nil_r. reflexivity.
Qed.
Lemma iterate_wf : forall body s L, wf s -> shown s = map Some L -> (forall id, In id L -> mild s (body id)) ->
  (fits body s L /\ exists s', iterate body s = Ok (s', flat_map (fun id => repeat id (1 + uses (body id))) L) /\ after_loop body s L s' /\ wf s') \/ (~ fits body s L /\ iterate body s = UB).
Proof.
  intros body s L W Sh Mi. assert (LL : L = firstn (vis s) (listed s)). { rewrite (shown_first s W) in Sh. clear - Sh. revert L Sh. induction (firstn (vis s) (listed s)) as [|x l IH]; intros [|y L] E; try discriminate; [reflexivity|]. injection E as <- E. f_equal. apply IH. exact E. }
  assert (Ln : length L = vis s) by (destruct W as (_ & W2 & _ & W4 & _); rewrite LL, firstn_length_le by lia; reflexivity). unfold iterate. rewrite <- Ln.
  rewrite (fitsn_is body s L W). pose proof W as ((S1 & S2 & S3) & W2 & _).
  destruct (visits_ok body s L s [] 0 W (le_n _) (fun k H => H) Mi ltac:(lia)) as [(H & s' & E & P)|H]; [|left|right; exact H].
  - intros j id Hj. cbn. unfold shown in Sh. rewrite <- (nth_firstn (slots s) (vis s)) by (rewrite <- Ln; apply (nth_lt _ _ _ Hj)). rewrite Sh, nth_error_map, Hj. reflexivity.
  - split; [exact H|]. exists s'. split; [exact E|]. split; [|exact (p_wf _ _ _ P)]. unfold after_loop. refine (conj (p_listed _ _ _ P) (conj (p_len _ _ _ P) (conj (post_shown _ _ _ W P) (conj (p_log _ _ _ P) (conj _ (conj (p_new _ _ _ P) _)))))).
    + rewrite (p_cap _ _ _ P). apply capf_room; assumption.
    + intros k Hk. rewrite (p_old _ _ _ P) by exact Hk. unfold dels. rewrite existsb_flat. reflexivity.
Qed.
Lemma iterate_ok : forall script ops s body L, run script ops fresh = Ok s -> shown s = map Some L -> (forall id, In id L -> mild s (body id)) ->
  (fits body s L -> exists s', iterate body s = Ok (s', flat_map (fun id => repeat id (1 + uses (body id))) L) /\ after_loop body s L s') /\ (~ fits body s L -> iterate body s = UB).
Proof.
  intros script ops s body L R Sh Mi. destruct (iterate_wf body s L (reach _ _ _ R) Sh Mi) as [(H & s' & E & A & _)|(H & E)]; split; intros X; try contradiction; eauto.
Qed.
Lemma use_first : forall script ops s body L, run script ops fresh = Ok s -> shown s = map Some L -> (forall id, In id L -> mild s (body id)) ->
  (forall id A B, In id L -> body id = A ++ VUse :: B -> news A = 0) -> exists s', iterate body s = Ok (s', flat_map (fun id => repeat id (1 + uses (body id))) L) /\ after_loop body s L s'.
Proof.
  intros script ops s body L R Sh Mi H. apply (iterate_ok script ops s body L R Sh Mi). intros L1 id L2 E A B Eb m (k & _ & Hm & _). rewrite (H id A B) by (try exact Eb; rewrite E; apply in_app_iff; right; left; reflexivity). lia.
Qed.

(** *** Timelines *)
Section Timelines.
Variable upd : nat -> nat -> nat * bool.
Lemma news_news : forall n, news (repeat VNew n) = n.
Proof. induction n as [|n IH]; [reflexivity|]. change (S (news (repeat VNew n)) = S n). rewrite IH. reflexivity. Qed.
Lemma uses_news : forall n, uses (repeat VNew n) = 0.
Proof. induction n as [|n IH]; [reflexivity|exact IH]. Qed.
Lemma tl_news : forall t id, news (tl_body upd t id) = fst (upd id t).
Proof. intros t id. unfold tl_body. destruct (upd id t) as [n f]. rewrite news_app, news_news. destruct f; cbn; lia. Qed.
Lemma tl_uses : forall t id, uses (tl_body upd t id) = if snd (upd id t) then 2 else 1.
Proof. intros t id. unfold tl_body. destruct (upd id t) as [n f]. rewrite uses_app, uses_news. destruct f; reflexivity. Qed.
Lemma tl_sum : forall t L, news (flat_map (tl_body upd t) L) = spawned upd t L.
Proof. intros t L. unfold spawned. induction L as [|x L IH]; [reflexivity|]. cbn [flat_map map list_sum fold_right]. rewrite news_app, tl_news, IH. reflexivity. Qed.
Lemma tl_fits : forall t s L, wf s -> (fits (tl_body upd t) s L <-> next s + spawned upd t L <= cap s).
Proof.
  intros t s L W. rewrite (fitsn_is _ s L W). destruct W as ((_ & S2 & S3) & _). revert S2 S3. generalize (cap s) (next s). clear s.
  induction L as [|id L IH]; intros c n S2 S3.
  - unfold spawned. cbn. split; [lia|]. intros _ [|] ? ? E; discriminate.
  - rewrite fitsn_cons, tl_news. change (spawned upd t (id :: L)) with (fst (upd id t) + spawned upd t L). split.
    + intros (H1 & H2). assert (X : n + fst (upd id t) <= c).
      { rewrite <- (news_news (fst (upd id t))). apply (H1 _ (if snd (upd id t) then [VUse; VDel id] else [])). unfold tl_body. destruct (upd id t). reflexivity. }
      apply (capf_same _ c n S2 S3) in X as Y. rewrite Y in H2. apply IH in H2; [lia|exact X|exact S3].
    + intros H. split.
      * intros A B E. assert (X : news A <= news (tl_body upd t id)) by (rewrite E, news_app; lia). rewrite tl_news in X. lia.
      * assert (X : n + fst (upd id t) <= c) by lia. apply (capf_same _ c n S2 S3) in X as Y. rewrite Y. apply IH; [exact X|exact S3|lia].
Qed.
Lemma quiet_acts : forall id k, ~ deletes_one_of k (quiet id).
Proof. intros id k (a & [] & _). Qed.
Lemma quiet_refresh : forall debug s, wf s -> exists s1 D, refresh quiet debug s = Ok s1 /\ wf s1 /\ vis s1 = next s1 /\ log s1 = log s ++ D /\ Permutation (listed s) (listed s1 ++ D) /\ Forall (living s) (listed s1) /\ Forall (deleted s) D /\ cap s1 = cap s /\
  length (objs s) <= length (objs s1) /\ Forall (living s1) (listed s1).
Proof.
  intros debug s W. assert (NC : ~ culprit quiet s) by (intros (t & P & Q & D & id & _ & _ & _ & C); discriminate).
  assert (Lv : forall s1, (exists t D, inv quiet s t (listed s1) [] D /\ s1 = closed t (length (listed s1))) -> Forall (living s1) (listed s1)).
  { intros s1 (t & D & I & E). apply Forall_forall. intros id Hid. destruct (i_there _ _ _ _ _ _ I id (or_introl Hid)) as [[|] F]; [rewrite E; exact F|]. exfalso. pose proof (i_passed _ _ _ _ _ _ I id Hid) as X.
    destruct (i_dead _ _ _ _ _ _ I id (or_introl F) (nth_lt _ _ _ X)) as [Y|(j & _ & Y)]; [unfold living, deleted in *; congruence|destruct (quiet_acts _ _ Y)]. }
  assert (Fin : forall s1, (exists t D, inv quiet s t (listed s1) [] D /\ s1 = closed t (length (listed s1)) /\ wf s1) -> exists D, wf s1 /\ vis s1 = next s1 /\ log s1 = log s ++ D /\ Permutation (listed s) (listed s1 ++ D) /\ Forall (living s) (listed s1) /\ Forall (deleted s) D /\ cap s1 = cap s /\ length (objs s) <= length (objs s1) /\ Forall (living s1) (listed s1)).
  { intros s1 (t & D & I & E & W1). exists D. split; [exact W1|]. split; [rewrite E; reflexivity|]. split; [rewrite E; exact (i_log _ _ _ _ _ _ I)|]. split; [exact (i_perm _ _ _ _ _ _ I)|]. split; [apply Forall_forall; exact (i_passed _ _ _ _ _ _ I)|].
    split; [|split; [rewrite E; exact (i_cap _ _ _ _ _ _ I)|split; [rewrite E; exact (i_len _ _ _ _ _ _ I)|apply Lv; eauto]]]. apply Forall_forall. intros id Hid.
    assert (Ex : exists_in s id) by (destruct W as (_ & _ & _ & _ & _ & W6 & _); rewrite Forall_forall in W6; apply W6; apply (Permutation_in _ (Permutation_sym (i_perm _ _ _ _ _ _ I))); cbn; apply in_app_iff; auto). destruct Ex as [f F].
    destruct (i_dead _ _ _ _ _ _ I id (or_intror Hid) (nth_lt _ _ _ F)) as [Y|(j & _ & Y)]; [exact Y|destruct (quiet_acts _ _ Y)]. }
  pose proof (refresh_ok quiet debug s W) as H. destruct (refresh quiet debug s) as [s1| | |] eqn:E; try contradiction.
  - destruct H as (t & D & I & E1 & W1 & _). destruct (Fin s1) as (D' & F); [eauto 6|]. exists s1, D'. split; [reflexivity|exact F].
  - exfalso. destruct H as [H|(_ & s1 & D & E1 & _ & id & Hid & Hd)]; [exact (NC H)|]. pose proof (refresh_ok quiet false s W) as H. rewrite E1 in H. destruct H as (t & D' & I & E2 & W1 & _).
    assert (X : Forall (living s1) (listed s1)) by (apply Lv; eauto). rewrite Forall_forall in X. specialize (X id Hid). unfold living, deleted in *. congruence.
Qed.
Lemma tl_mild : forall t s id, exists_in s id -> mild s (tl_body upd t id).
Proof.
  intros t s id Ex a Ha. unfold tl_body in Ha. destruct (upd id t) as [n f]. apply in_app_iff in Ha as [Ha|Ha]; [apply repeat_spec in Ha; auto|]. destruct Ha as [<-|Ha]; [auto|]. destruct f; [|destruct Ha]. destruct Ha as [<-|[<-|[]]]; eauto 6.
Qed.
Lemma tl_dels : forall t L k, existsb (fun id => existsb (fun a => match a with VDel j => j =? k | _ => false end) (tl_body upd t id)) L = true <-> In k L /\ snd (upd k t) = true.
Proof.
  intros t L k. rewrite existsb_exists. split.
  - intros (id & H1 & H2). apply existsb_exists in H2 as ([|j| | |] & H2 & H3); try discriminate. apply Nat.eqb_eq in H3. subst j. unfold tl_body in H2. destruct (upd id t) as [n f] eqn:E. apply in_app_iff in H2 as [H2|H2]; [apply repeat_spec in H2; discriminate|].
    destruct H2 as [H2|H2]; [discriminate|]. destruct f; [|destruct H2]. destruct H2 as [H2|[H2|[]]]; [discriminate|]. injection H2 as ->. rewrite E. auto.
  - intros (H1 & H2). exists k. split; [exact H1|]. apply existsb_exists. exists (VDel k). split; [|apply Nat.eqb_refl]. unfold tl_body. destruct (upd k t) as [n f]. cbn in H2. subst f. apply in_app_iff. right. cbn. auto.
Qed.
Lemma update_wf : forall debug t s, wf s -> exists L D, Permutation (listed s) (L ++ D) /\ Forall (living s) L /\ Forall (deleted s) D /\
  ((length L + spawned upd t L <= cap s /\ exists s' N, tm_update upd debug t s = Ok (s', flat_map (fun id => repeat id (if snd (upd id t) then 3 else 2)) L) /\ listed s' = L ++ N /\ length N = spawned upd t L /\ NoDup N /\
     shown s' = map Some L /\ log s' = log s ++ D /\ cap s' = cap s /\ (forall id, In id L -> (deleted s' id <-> snd (upd id t) = true)) /\ (forall id, In id N -> living s' id /\ length (objs s) <= id) /\ wf s') \/
   (cap s < length L + spawned upd t L /\ tm_update upd debug t s = UB)).
Proof.
  intros debug t s W. destruct (quiet_refresh debug s W) as (s1 & D & E1 & W1 & V1 & L1 & P1 & F1 & F2 & C1 & O1 & F3). exists (listed s1), D. split; [exact P1|]. split; [exact F1|]. split; [exact F2|].
  unfold tm_update. rewrite E1. cbn [obind]. assert (Nx : next s1 = length (listed s1)) by (symmetry; apply W1).
  assert (Mi : forall id, In id (listed s1) -> mild s1 (tl_body upd t id)) by (intros id Hid; apply tl_mild; rewrite Forall_forall in F3; exists true; apply F3; exact Hid).
  destruct (iterate_wf (tl_body upd t) s1 (listed s1) W1 (shown_listed s1 W1 V1) Mi) as [(Ft & s' & E & A & W')|(Ft & E)]; rewrite (tl_fits t s1 _ W1), Nx, C1 in Ft.
  - left. split; [exact Ft|]. destruct A as (A1 & A2 & A3 & A4 & A5 & A6 & A7). rewrite tl_sum in *. exists s', (seq (length (objs s1)) (spawned upd t (listed s1))).
    split; [rewrite E; do 2 f_equal; apply flat_map_ext; intros id; rewrite tl_uses; destruct (snd (upd id t)); reflexivity|]. split; [exact A1|]. split; [apply seq_length|]. split; [apply seq_NoDup|]. split; [rewrite A3; apply shown_listed; assumption|]. split; [congruence|]. split.
    + rewrite C1 in A5. apply (room_unique (cap s) _ _ _ A5). exists 0. cbn. split; [lia|]. split; [lia|]. intros; lia.
    + split; [|split; [|exact W']].
      * intros id Hid. rewrite Forall_forall in F3. pose proof (F3 id Hid) as X. unfold deleted. rewrite A7 by (apply (nth_lt _ _ _ X)). pose proof (tl_dels t (listed s1) id) as Dl. destruct (existsb _ (listed s1)).
        -- split; [intros _; apply Dl; reflexivity|reflexivity].
        -- split; [intros H; unfold living in X; congruence|]. intros H. exfalso. assert (false = true) by (apply Dl; auto). discriminate.
      * intros id Hid. apply in_seq in Hid. split; [apply A6; lia|lia].
  - right. split; [lia|exact E].
Qed.
Lemma trun_wf : forall ops m m', wf (mg m) -> (exists k, cap (mg m) = 25 * 3 ^ k) -> trun upd ops m = Ok m' -> wf (mg m') /\ exists k, cap (mg m') = 25 * 3 ^ k.
Proof.
  induction ops as [|o ops IH]; intros m m' W C E; cbn [trun] in E; [injection E as <-; auto|]. destruct (tstep upd o m) as [m1| | |] eqn:S1; try discriminate. cbn [obind] in E. apply (IH m1 m'); [| |exact E]; clear E IH.
  - destruct o as [|debug|]; cbn [tstep] in S1.
    + destruct (new_post (mg m) W) as (s & E & P). rewrite E in S1. injection S1 as <-. exact (p_wf _ _ _ P).
    + destruct (update_wf debug (tick m) (mg m) W) as (L & D & _ & _ & _ & [(_ & s' & N & E & _ & _ & _ & _ & _ & _ & _ & _ & W')|(_ & E)]); rewrite E in S1; [injection S1 as <-; exact W'|discriminate].
    + pose proof (clear_total quiet (mg m) W) as T. destruct (clear quiet (mg m)) as [s| | |]; try discriminate. injection S1 as <-. destruct T as (? & _ & _ & T & _). exact T.
  - destruct o as [|debug|]; cbn [tstep] in S1.
    + destruct (new_post (mg m) W) as (s & E & P). rewrite E in S1. injection S1 as <-. cbn [mg]. rewrite (p_cap _ _ _ P). change (capf (cap (mg m)) (next (mg m)) (news [VNew])) with (if cap (mg m) <=? next (mg m) then cap (mg m) * 3 else cap (mg m)). destruct C as [k C]. destruct (cap (mg m) <=? next (mg m)); [|exists k; exact C]. exists (S k). rewrite C. cbn [Nat.pow]. lia.
    + destruct (update_wf debug (tick m) (mg m) W) as (L & D & _ & _ & _ & [(_ & s' & N & E & _ & _ & _ & _ & _ & Cp & _)|(_ & E)]); rewrite E in S1; [injection S1 as <-; cbn [mg]; rewrite Cp; exact C|discriminate].
    + assert (X : forall fuel i s s', clear_from quiet fuel i s = Ok s' -> cap s' = cap s).
      { induction fuel as [|f IH]; intros i s s'; cbn [clear_from]; (destruct (i <? next s); [|intros E; injection E as <-; reflexivity]); [discriminate|]. intros E.
        destruct (deinit_at quiet s i) as [s1| | |] eqn:De; try discriminate. cbn [obind] in E. rewrite (IH _ _ _ E). unfold deinit_at in De. destruct (nth_error (slots s) i) as [[x|]|]; try discriminate. destruct (nth_error (objs s) x) as [[f'|]|]; try discriminate. cbn in De. injection De as <-. reflexivity. }
      unfold clear in S1. destruct (clear_from quiet (S (cap (mg m))) 0 (mg m)) as [s| | |] eqn:Cl; try discriminate. injection S1 as <-. cbn [mg]. rewrite (X _ _ _ _ Cl). exact C.
Qed.
Lemma timelines_ok : forall debug ops m, trun upd ops tfresh = Ok m -> exists L D, Permutation (listed (mg m)) (L ++ D) /\ Forall (living (mg m)) L /\ Forall (deleted (mg m)) D /\
  (length L + spawned upd (tick m) L <= cap (mg m) -> exists s' N, tm_update upd debug (tick m) (mg m) = Ok (s', flat_map (fun id => repeat id (if snd (upd id (tick m)) then 3 else 2)) L) /\
     listed s' = L ++ N /\ length N = spawned upd (tick m) L /\ NoDup N /\ shown s' = map Some L /\ log s' = log (mg m) ++ D /\
     (forall id, In id L -> (deleted s' id <-> snd (upd id (tick m)) = true)) /\ (forall id, In id N -> living s' id /\ length (objs (mg m)) <= id)) /\
  (cap (mg m) < length L + spawned upd (tick m) L -> tm_update upd debug (tick m) (mg m) = UB).
Proof.
  intros debug ops m R. assert (W : wf (mg m)) by (apply (trun_wf ops tfresh m); [exact wf_fresh|exists 0; reflexivity|exact R]).
  destruct (update_wf debug (tick m) (mg m) W) as (L & D & P & F1 & F2 & H). exists L, D. split; [exact P|]. split; [exact F1|]. split; [exact F2|]. destruct H as [(Lt & s' & N & H1 & H2 & H3 & H4 & H5 & H6 & H7 & H8 & H9 & _)|(Lt & H)]; (split; intros X; [|]); try lia; [|exact H].
  exists s', N. auto 10.
Qed.
Lemma slots_count : forall ops m, trun upd ops tfresh = Ok m -> exists k, cap (mg m) = 25 * 3 ^ k.
Proof. intros ops m R. apply (trun_wf ops tfresh m); [exact wf_fresh|exists 0; reflexivity|exact R]. Qed.
End Timelines.
