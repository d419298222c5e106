From Coq Require Import String Ascii ZArith NArith Arith Bool Lia List.
From Verif Require Import Common IntToStrModel IntToStrSpec IntToStrProofs HelpModel HelpSpec.
Import ListNotations.
Local Open Scope nat_scope.

(** ** Numbers *)
Lemma size_text : forall buf n, length buf = 19 -> size_ok n ->
  (small n -> exists s, toStr t_ulong buf n = Ok s /\ decimal n s) /\ (~ small n -> toStr t_ulong buf n = UB).
Proof.
  intros buf n L R. assert (H := conv_ranges). rewrite Forall_forall in H.
  specialize (H (t_ulong, -1, 1000000000000000000)%Z).
  assert (I : In (t_ulong, -1, 1000000000000000000)%Z safe_ranges) by (unfold safe_ranges; simpl; tauto).
  specialize (H I buf n). cbv beta iota in H. destruct H as [A B]; [exact L|unfold size_ok in R; cbn [t_min t_max t_ulong]; lia|].
  unfold small in *. change (10 ^ 18)%Z with 1000000000000000000%Z. unfold size_ok in R. split; intros S; [apply A; lia|apply B; lia].
Qed.
Lemma decimal_digits : forall n s, (0 <= n)%Z -> decimal n s -> s <> [] /\ Forall is_digit s.
Proof. intros n s H [[_ [A [B _]]]|[C _]]; [split; assumption|lia]. Qed.
Lemma decimal_value : forall n s, (0 <= n)%Z -> decimal n s -> digits_value s = n.
Proof. intros n s H [[_ [_ [_ [_ A]]]]|[C _]]; [exact A|lia]. Qed.
Lemma digits_lack : forall s c, Forall is_digit s -> ~ is_digit c -> ~ In c s.
Proof. intros s c H N I. rewrite Forall_forall in H. exact (N (H c I)). Qed.

(** ** Separators *)
Lemma first_sep : forall (P : ascii -> Prop) (a : bytes) x b a' y b', Forall (fun c => ~ P c) a -> Forall (fun c => ~ P c) a' ->
  P x -> P y -> a ++ x :: b = a' ++ y :: b' -> a = a' /\ x = y /\ b = b'.
Proof.
  intros P a. induction a as [|c a IH]; intros x b a' y b' A A' X Y H; destruct a' as [|c' a']; cbn [app] in H.
  - injection H as -> ->. auto.
  - injection H as -> H. inversion A'; subst. contradiction.
  - injection H as -> H. inversion A; subst. contradiction.
  - injection H as -> H. inversion A; inversion A'; subst. destruct (IH x b a' y b') as [-> [-> ->]]; auto.
Qed.
Lemma not_in_forall : forall c (s : bytes), ~ In c s -> Forall (fun d => ~ d = c) s.
Proof. intros c s H. apply Forall_forall. intros d I E. subst. contradiction. Qed.
Lemma first_char : forall c (a b a' b' : bytes), ~ In c a -> ~ In c a' -> a ++ c :: b = a' ++ c :: b' -> a = a' /\ b = b'.
Proof.
  intros c a b a' b' A A' H. destruct (first_sep (fun d => d = c) a c b a' c b') as [E [_ F]]; auto using not_in_forall.
Qed.
Lemma last_char : forall c (a b a' b' : bytes), ~ In c b -> ~ In c b' -> a ++ c :: b = a' ++ c :: b' -> a = a' /\ b = b'.
Proof.
  intros c a b a' b' B B' H. assert (E := f_equal (@rev ascii) H). rewrite !rev_app_distr in E. cbn [rev] in E. rewrite <- !app_assoc in E.
  cbn [app] in E. destruct (first_char c (rev b) (rev a) (rev b') (rev a')) as [F G]; try exact E.
  - rewrite <- in_rev. exact B.
  - rewrite <- in_rev. exact B'.
  - split; [rewrite <- (rev_involutive a), G, rev_involutive; reflexivity|rewrite <- (rev_involutive b), F, rev_involutive; reflexivity].
Qed.

(** ** Usage *)
Lemma usage_text : forall buf e, length buf = 19 -> bounds size_ok e ->
  (bounds small e -> exists t, usage buf e = Ok t /\ shows e t) /\ (~ bounds small e -> usage buf e = UB).
Proof.
  intros buf [n b d sh] L R. unfold bounds, usage in *. cbn [eshape ename] in *.
  destruct sh as [| |x y|s l|s l|s l]; try (split; [intros _; eexists; split; [reflexivity|constructor]|intros H; exfalso; exact (H I)]).
  - destruct R as [Rx Ry]. destruct (size_text buf x L Rx) as [Ax Bx]. destruct (size_text buf y L Ry) as [Ay By]. split.
    + intros [Sx Sy]. destruct (Ax Sx) as [s [-> Ds]]. cbn [obind].
      destruct ((x =? 0) && (y =? 0))%Z eqn:E.
      * apply andb_true_iff in E. destruct E as [Ex Ey]. apply Z.eqb_eq in Ex, Ey. subst x y. cbn [obind].
        eexists. split; [reflexivity|].
        assert (s = lit "0").
        { destruct (decimal_digits 0 s) as [N F]; [lia|exact Ds|]. eapply decimal_unique; [exact Ds|]. left. split; [lia|].
          split; [discriminate|]. split; [repeat constructor; discriminate|]. split; [reflexivity|reflexivity]. }
        subst s. apply sh_any.
      * destruct (Ay Sy) as [t [-> Dt]]. cbn [obind]. eexists. split; [reflexivity|].
        apply sh_pack; [exact Ds|exact Dt|]. apply andb_false_iff in E. rewrite !Z.eqb_neq in E. exact E.
    + intros H. destruct (Z_lt_dec x (10 ^ 18)) as [Sx|Sx].
      * assert (Sx' : small x) by (unfold small, size_ok in *; lia). destruct (Ax Sx') as [s [-> Ds]]. cbn [obind].
        assert (Sy : ~ small y) by (intros Sy; apply H; split; assumption).
        assert (y <> 0)%Z by (intros ->; apply Sy; unfold small; lia).
        destruct (Z.eqb_spec y 0); [contradiction|]. rewrite andb_false_r. rewrite (By Sy). reflexivity.
      * rewrite Bx by (unfold small; lia). reflexivity.
Qed.

Lemma words_forall : forall s, word s -> Forall (fun c => ~ (c = " "%char \/ c = "="%char)) s.
Proof.
  intros s [A B]. apply Forall_forall. intros c I [-> | ->]; contradiction.
Qed.
Lemma pack_tail : forall s t, Forall is_digit s -> Forall is_digit t -> ~ In " "%char (lit "[" ++ s ++ lit "/" ++ t ++ lit "])").
Proof.
  intros s t S T I. apply in_app_or in I. destruct I as [I|I]; [destruct I as [I|[]]; discriminate|].
  apply in_app_or in I. destruct I as [I|I]; [exact (digits_lack s " "%char S ltac:(intros [H _]; vm_compute in H; apply H; reflexivity) I)|].
  apply in_app_or in I. destruct I as [I|I]; [destruct I as [I|[]]; discriminate|].
  apply in_app_or in I. destruct I as [I|I]; [exact (digits_lack t " "%char T ltac:(intros [H _]; vm_compute in H; apply H; reflexivity) I)|].
  destruct I as [I|[I|[]]]; discriminate.
Qed.
Lemma slash_no_digit : forall s, Forall is_digit s -> ~ In "/"%char s.
Proof. intros s S. apply digits_lack; [exact S|]. intros [H _]. vm_compute in H. apply H. reflexivity. Qed.

Lemma pack_nums : forall s t s0 t0, Forall is_digit s -> Forall is_digit s0 ->
  "["%char :: s0 ++ "/"%char :: t0 ++ ["]"%char; ")"%char] = "["%char :: s ++ "/"%char :: t ++ ["]"%char; ")"%char] ->
  s = s0 /\ t = t0.
Proof.
  intros s t s0 t0 S S0 H. injection H as H. apply first_char in H; try apply slash_no_digit; try assumption.
  destruct H as [A B]. apply app_inv_tail in B. auto.
Qed.
Lemma any_tail : ~ In " "%char ["["; "0"; "/"; "."; "."; "."; "]"; ")"]%char.
Proof. cbn. intuition discriminate. Qed.

Lemma shows_unique : forall e e' t, shows e t -> shows e' t -> tidy e -> tidy e' -> bounds size_ok e -> bounds size_ok e' ->
  eshape e = eshape e' /\ match eshape e with SArg | SArgOpt | SPack _ _ => ename e = ename e' | _ => True end.
Proof.
  intros e e' t H H' T T' B B'. destruct H; unfold tidy, bounds in T, B; cbn [eshape ename] in *;
  inversion H'; subst; unfold tidy, bounds in T', B'; cbn [eshape ename] in *;
  try (match goal with E : lit _ ++ _ = lit _ ++ _ |- _ => cbn in E; discriminate E end).
  - split; [reflexivity|]. apply app_inv_tail in H1. auto.
  - split; [reflexivity|]. apply app_inv_tail in H1. auto.
  - destruct B as [[B1 _] [B2 _]], B' as [[B3 _] [B4 _]].
    destruct (decimal_digits _ _ B1 H) as [_ D1]. destruct (decimal_digits _ _ B2 H0) as [_ D2].
    destruct (decimal_digits _ _ B3 H3) as [_ D3]. destruct (decimal_digits _ _ B4 H4) as [_ D4].
    apply last_char in H2; [|apply (pack_tail s0 t0); assumption|apply (pack_tail s t); assumption].
    destruct H2 as [-> P]. apply pack_nums in P; try assumption. destruct P as [-> ->]. split; [|reflexivity].
    rewrite <- (decimal_value _ _ B1 H), <- (decimal_value _ _ B2 H0), <- (decimal_value _ _ B3 H3), <- (decimal_value _ _ B4 H4). reflexivity.
  - exfalso. destruct B as [[B1 _] [B2 _]]. destruct (decimal_digits _ _ B1 H) as [_ D1]. destruct (decimal_digits _ _ B2 H0) as [_ D2].
    apply last_char in H4; [|apply any_tail|apply (pack_tail s t); assumption]. destruct H4 as [_ P].
    change ["["; "0"; "/"; "."; "."; "."; "]"; ")"]%char with ("["%char :: ["0"%char] ++ "/"%char :: ["."; "."; "."]%char ++ ["]"; ")"]%char) in P.
    apply pack_nums in P; [|assumption|repeat constructor; vm_compute; discriminate]. destruct P as [_ ->].
    inversion D2 as [|? ? [X _] _]. vm_compute in X. apply X. reflexivity.
  - exfalso. destruct B' as [[B1 _] [B2 _]]. destruct (decimal_digits _ _ B1 H0) as [_ D1]. destruct (decimal_digits _ _ B2 H1) as [_ D2].
    symmetry in H. apply last_char in H; [|apply any_tail|apply (pack_tail s t); assumption]. destruct H as [_ P].
    change ["["; "0"; "/"; "."; "."; "."; "]"; ")"]%char with ("["%char :: ["0"%char] ++ "/"%char :: ["."; "."; "."]%char ++ ["]"; ")"]%char) in P.
    apply pack_nums in P; [|assumption|repeat constructor; vm_compute; discriminate]. destruct P as [_ ->].
    inversion D2 as [|? ? [X _] _]. vm_compute in X. apply X. reflexivity.
  - split; [reflexivity|]. apply app_inv_tail in H1. auto.
  - destruct T as [T _], T' as [T' _]. apply words_forall in T, T'. apply first_sep with (P := fun c => c = " "%char \/ c = "="%char) in H1; auto.
    destruct H1 as [-> [_ E]]. repeat (injection E as E). apply app_inv_tail in E. subst. auto.
  - exfalso. destruct T as [T _], T' as [T' _]. apply words_forall in T, T'. apply first_sep with (P := fun c => c = " "%char \/ c = "="%char) in H1; auto.
    destruct H1 as [_ [E _]]. discriminate.
  - exfalso. destruct T as [T _], T' as [T' _]. apply words_forall in T, T'. apply first_sep with (P := fun c => c = " "%char \/ c = "="%char) in H1; auto.
    destruct H1 as [_ [E _]]. discriminate.
  - destruct T as [T _], T' as [T' _]. apply words_forall in T, T'. apply first_sep with (P := fun c => c = " "%char \/ c = "="%char) in H1; auto.
    destruct H1 as [-> [_ E]]. repeat (injection E as E). apply app_inv_tail in E. subst. auto.
  - destruct T as [T _], T' as [T' _]. apply words_forall in T, T'. apply first_sep with (P := fun c => c = " "%char \/ c = "="%char) in H1; auto.
    destruct H1 as [-> [_ E]]. repeat (injection E as E). apply app_inv_tail in E. subst. auto.
Qed.
