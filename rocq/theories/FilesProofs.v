From Coq Require Import String Ascii ZArith NArith Arith Bool Lia List.
From Verif Require Import Common StrModel PathModel PathSpec JsonNumModel JsonModel JsonSpec MD5Model MD5Spec FilesModel FilesSpec.
From Verif Require Import PathProofs ScanProofs JsonWriteProofs JsonProofs JsonObjProofs MD5Proofs.
Import ListNotations.
Local Open Scope nat_scope.

Lemma normalText_ext : forall st st' s, (forall x, existsFolder st x = existsFolder st' x) -> normalText st s = normalText st' s.
Proof.
  intros st st' s H. unfold normalText.
  destruct (squeeze _ _ 0); cbn [obind]; try reflexivity.
  destruct (endsWith _ _); cbn [obind]; try reflexivity. rewrite H. reflexivity.
Qed.
Lemma getStr_ext : forall st st' p, (forall x, existsFolder st x = existsFolder st' x) -> getStr st p = getStr st' p.
Proof.
  intros st st' p H. unfold getStr, normalize. destruct (mustNormalize p); [|reflexivity].
  rewrite (normalText_ext _ _ _ H). reflexivity.
Qed.
Lemma existsFolder_ext : forall st st', (forall x, st x = st' x) -> forall x, existsFolder st x = existsFolder st' x.
Proof. intros st st' H x. unfold existsFolder. rewrite H. reflexivity. Qed.

Lemma cstr_spec : forall t, ~ In (ch 0) (cstr t) /\ (t = cstr t \/ exists r, t = cstr t ++ ch 0 :: r).
Proof.
  induction t as [|c t IH]; cbn [cstr]; [split; [intros []|left; reflexivity]|].
  destruct (Ascii.eqb c (ch 0)) eqn:E.
  - apply Ascii.eqb_eq in E. subst c. split; [intros []|right; exists t; reflexivity].
  - apply Ascii.eqb_neq in E. destruct IH as [A B]. split.
    + intros [I|I]; [congruence|exact (A I)].
    + destruct B as [B|[r B]]; [left; congruence|right; exists r; cbn [app]; congruence].
Qed.
Lemma cstr_unique : forall t n, ~ In (ch 0) n -> (t = n \/ exists r, t = n ++ ch 0 :: r) -> cstr t = n.
Proof.
  intros t n. revert t. induction n as [|c n IH]; intros t H [E|[r E]]; subst t.
  - reflexivity.
  - reflexivity.
  - cbn [cstr]. destruct (Ascii.eqb c (ch 0)) eqn:E; [apply Ascii.eqb_eq in E; subst; exfalso; apply H; left; reflexivity|].
    f_equal. apply IH; [intros I; apply H; right; exact I|left; reflexivity].
  - cbn [cstr app]. destruct (Ascii.eqb c (ch 0)) eqn:E; [apply Ascii.eqb_eq in E; subst; exfalso; apply H; left; reflexivity|].
    f_equal. apply IH; [intros I; apply H; right; exact I|right; exists r; reflexivity].
Qed.

Lemma means_target : forall sys d p k, means sys d p k <-> exists q, target sys d p = Ok (k, q).
Proof.
  intros sys d p k. unfold means, target.
  set (f := fun s : bytes => match d (key sys s) with Some (File _) => Some KFile | Some Folder => Some KFolder | Some Other => Some KOther | None => None end).
  assert (E : getStr f p = getStr (stat_of sys d) p).
  { apply getStr_ext, existsFolder_ext. intros x. unfold f, stat_of. destruct (d (key sys x)) as [[]|]; reflexivity. }
  rewrite E. split.
  - intros [t [q [G [n [K [H1 H2]]]]]]. exists q. rewrite G. cbn [obind]. rewrite (cstr_unique t n H1 H2), K. reflexivity.
  - intros [q H]. destruct (getStr (stat_of sys d) p) as [[t q']| | |] eqn:G; cbn [obind] in H; try discriminate.
    injection H as H1 H2. subst q'. exists t, q. split; [reflexivity|]. exists (cstr t). destruct (cstr_spec t) as [A B]. auto.
Qed.

Lemma upd_becomes : forall d k e, becomes d k e (upd d k e).
Proof.
  intros d k e. split; unfold upd; [rewrite Nat.eqb_refl; reflexivity|].
  intros j H. apply Nat.eqb_neq in H. rewrite H. reflexivity.
Qed.
Lemma target_upd : forall sys d k c p, d k <> Some Folder -> target sys (upd d k (Some (File c))) p = target sys d p.
Proof.
  intros sys d k c p H. unfold target. rewrite (getStr_ext (stat_of sys (upd d k (Some (File c)))) (stat_of sys d)); [reflexivity|].
  intros x. unfold existsFolder, stat_of, upd. destruct (Nat.eqb_spec (key sys (cstr x)) k) as [E|E]; [|reflexivity].
  rewrite E. destruct (d k) as [[]|]; cbn; try reflexivity. congruence.
Qed.

Lemma write_ok : forall sys d p t k, means sys d p k -> can_write sys d k ->
  exists q, write_text sys d p t = Ok (upd d k (Some (File t)), q) /\ target sys d p = Ok (k, q).
Proof.
  intros sys d p t k M W. apply means_target in M. destruct M as [q M]. exists q. split; [|exact M].
  unfold write_text. rewrite M. cbn [obind].
  destruct W as [[[c E] W]|[E W]]; rewrite E, W; reflexivity.
Qed.
Lemma can_not_folder : forall sys d k, can_write sys d k -> d k <> Some Folder.
Proof. intros sys d k [[[c E] _]|[E _]]; rewrite E; discriminate. Qed.
Lemma write_not : forall sys d p t k, means sys d p k -> ~ can_write sys d k ->
  exists q, write_text sys d p t = Ok (d, q).
Proof.
  intros sys d p t k M W. apply means_target in M. destruct M as [q M]. exists q.
  unfold write_text. rewrite M. cbn [obind]. unfold can_write in W.
  destruct (d k) as [[c| |]|] eqn:E; try reflexivity.
  - destruct (may_write sys k) eqn:P; [|reflexivity]. exfalso. apply W. left. split; [exists c; reflexivity|reflexivity].
  - destruct (may_make sys k) eqn:P; [|reflexivity]. exfalso. apply W. right. split; reflexivity.
Qed.

Lemma skipn_resize : forall (c b : bytes), skipn (length c) (resize b (length c)) = [].
Proof.
  intros c b. apply skipn_all2. unfold resize. rewrite app_length, firstn_length, repeat_length. lia.
Qed.
Lemma contents_ok : forall sys d p buf k c, means sys d p k -> d k = Some (File c) -> may_read sys k = true ->
  exists q, getContents sys d p buf = Ok (c, q).
Proof.
  intros sys d p buf k c M E R. apply means_target in M. destruct M as [q M]. exists q.
  unfold getContents. rewrite M. cbn [obind]. rewrite E, R, skipn_resize, app_nil_r. reflexivity.
Qed.
Lemma contents_spec : forall sys d p buf k, means sys d p k ->
  (forall c, d k = Some (File c) -> may_read sys k = true -> exists q, getContents sys d p buf = Ok (c, q)) /\
  (~ is_file d k \/ may_read sys k = false -> getContents sys d p buf = UB).
Proof.
  intros sys d p buf k M. split; [intros c; exact (contents_ok sys d p buf k c M)|].
  intros H. apply means_target in M. destruct M as [q M]. unfold getContents. rewrite M. cbn [obind].
  destruct (d k) as [[c| |]|] eqn:E; try reflexivity.
  destruct H as [H|H]; [exfalso; apply H; exists c; exact E|]. rewrite H. reflexivity.
Qed.

Lemma json_any : forall sys d p k c, means sys d p k -> d k = Some (File c) -> may_read sys k = true -> exists q, forall old,
  (readFromFile sys d p old = UB /\ readFromStr old c = UB) \/
  (exists v, readFromFile sys d p old = Ok (true, v, q) /\ readFromStr old c = Ok (true, v)) \/
  (readFromFile sys d p old = Ok (false, old, q) /\ readFromStr old c = Ok (false, old)).
Proof.
  intros sys d p k c M F R. destruct (contents_ok sys d p [] k c M F R) as [q E]. exists q. intros old.
  unfold readFromFile. rewrite E. cbn [obind].
  destruct (read_result old c) as [H|[[v [H _]]|H]]; rewrite H; cbn [obind]; [left; auto|right; left; exists v; auto|right; right; auto].
Qed.

Lemma log_saved : forall sys d p log k, means sys d p k -> can_write sys d k -> exists d' q,
  saveLogToFile sys d p log = Ok (d', q) /\ becomes d k (Some (File log)) d' /\
  (may_read sys k = true -> forall r buf, means sys d r k -> exists q', getContents sys d' r buf = Ok (log, q')).
Proof.
  intros sys d p log k M W. destruct (write_ok sys d p log k M W) as [q [H _]].
  exists (upd d k (Some (File log))), q. split; [exact H|]. split; [apply upd_becomes|].
  intros R r buf Mr. apply (contents_ok sys _ r buf k log); [|apply upd_becomes|exact R].
  apply means_target in Mr. apply means_target. destruct Mr as [q' Mr]. exists q'.
  rewrite target_upd; [exact Mr|eapply can_not_folder; eassumption].
Qed.

Lemma json_saved : forall sys pretty d p v k, writable v -> means sys d p k -> can_write sys d k -> exists t d' q,
  getWriteToStr pretty v = Ok t /\ writeToFile sys pretty d p v = Ok (d', q) /\ becomes d k (Some (File t)) d' /\
  (may_read sys k = true -> (N.of_nat (length t) < 2 ^ 31)%N -> exists v', same v v' /\ val_eq v v' = Ok true /\
     forall r, means sys d r k -> exists q', fromFile sys d' r = Ok (v', q') /\
       forall old, readFromFile sys d' r old = Ok (true, v', q')).
Proof.
  intros sys pretty d p v k Wv M W. destruct (round_trip pretty v Wv) as [t [G B]].
  destruct (log_saved sys d p t k M W) as [d' [q [S [C R]]]].
  exists t, d', q. split; [exact G|]. split; [unfold writeToFile; rewrite G; exact S|]. split; [exact C|].
  intros MR L. destruct (B L) as [v' [P [Sm [E _]]]]. exists v'. split; [exact Sm|]. split; [exact E|].
  intros r Mr. destruct (R MR r [] Mr) as [q' Q]. exists q'.
  assert (X : forall old, readFromFile sys d' r old = Ok (true, v', q')).
  { intros old. unfold readFromFile. rewrite Q. cbn [obind]. unfold readFromStr. rewrite P. reflexivity. }
  split; [|exact X]. unfold fromFile. rewrite X. reflexivity.
Qed.

Lemma not_written : forall sys d p k, means sys d p k -> ~ can_write sys d k -> exists q,
  (forall log, saveLogToFile sys d p log = Ok (d, q)) /\
  (forall pretty v, writable v -> writeToFile sys pretty d p v = Ok (d, q)).
Proof.
  intros sys d p k M W.
  assert (X : exists q, forall t, write_text sys d p t = Ok (d, q)).
  { assert (M' := M). apply means_target in M'. destruct M' as [q M']. exists q. intros t.
    destruct (write_not sys d p t k M W) as [q' H]. rewrite H. unfold write_text in H. rewrite M' in H. cbn [obind] in H.
    injection H as _ ->. reflexivity. }
  destruct X as [q X]. exists q. split; [exact X|].
  intros pretty v Wv. destruct (round_trip pretty v Wv) as [t [G _]]. unfold writeToFile. rewrite G. apply X.
Qed.

Lemma spelling : forall sys d a b, ~ In (ch 0) a -> ~ In (ch 0) b -> components a = components b ->
  starts_sep a = starts_sep b -> ends_sep a = ends_sep b ->
  exists k, means sys d (mkPath a) k /\ means sys d (mkPath b) k /\
  forall p j, p = mkPath a \/ p = mkPath b -> means sys d p j -> j = k.
Proof.
  intros sys d a b A B C S E.
  destruct (getStr_full (stat_of sys d) a A) as [a0 [at_ [Ga [Ca [C1 [C2 [C3 [_ Ta]]]]]]]].
  destruct (getStr_full (stat_of sys d) b B) as [b0 [bt [Gb [Cb [D1 [D2 [D3 [_ Tb]]]]]]]].
  assert (X : a0 = b0) by (apply clean_determined; congruence). subst b0.
  assert (Y : at_ = bt).
  { destruct Ta as [[T1 [T2 T3]]|[T1 T3]], Tb as [[U1 [U2 U3]]|[U1 U3]]; subst; try reflexivity.
    - destruct U1 as [U1|U1]; congruence.
    - destruct T1 as [T1|T1]; congruence. }
  subst bt. exists (key sys (cstr at_)).
  assert (Ma : target sys d (mkPath a) = Ok (key sys (cstr at_), Path at_ false)) by (unfold target; rewrite Ga; reflexivity).
  assert (Mb : target sys d (mkPath b) = Ok (key sys (cstr at_), Path at_ false)) by (unfold target; rewrite Gb; reflexivity).
  split; [apply means_target; eexists; exact Ma|]. split; [apply means_target; eexists; exact Mb|].
  intros p j [->| ->] H; apply means_target in H; destruct H as [q H]; [rewrite Ma in H|rewrite Mb in H]; congruence.
Qed.

Lemma folder_made : forall sys d p k, means sys d p k -> exists d' q, createFolder sys d p = Ok (d', q) /\
  (d k = None /\ may_make sys k = true -> becomes d k (Some Folder) d') /\
  (d k <> None \/ may_make sys k = false -> d' = d).
Proof.
  intros sys d p k M. apply means_target in M. destruct M as [q M]. unfold createFolder. rewrite M. cbn [obind].
  eexists. exists q. split; [reflexivity|]. split.
  - intros [E W]. rewrite E, W. apply upd_becomes.
  - intros H. destruct (d k); [reflexivity|]. destruct (may_make sys k); [|reflexivity].
    destruct H as [H|H]; congruence.
Qed.
Lemma folder_text : forall sys d d' s, ~ In (ch 0) s -> ends_sep s = true ->
  getStr (stat_of sys d') (mkPath s) = getStr (stat_of sys d) (mkPath s).
Proof.
  intros sys d d' s H E.
  destruct (getStr_full (stat_of sys d) s H) as [a0 [at_ [Ga [Ca [C1 [C2 [C3 [_ Ta]]]]]]]].
  destruct (getStr_full (stat_of sys d') s H) as [b0 [bt [Gb [Cb [D1 [D2 [D3 [_ Tb]]]]]]]].
  assert (X : a0 = b0) by (apply clean_determined; congruence). subst b0.
  destruct Ta as [[_ [T _]]|[_ T]]; [congruence|]. destruct Tb as [[_ [U _]]|[_ U]]; [congruence|]. congruence.
Qed.

Lemma removed : forall sys d p k, means sys d p k -> exists d' b q, removeFile sys d p = Ok (d', b, q) /\
  (d k <> None /\ may_remove sys d k = true -> becomes d k None d' /\ b = false) /\
  (d k = None \/ may_remove sys d k = false -> d' = d /\ b = true).
Proof.
  intros sys d p k M. apply means_target in M. destruct M as [q M]. unfold removeFile. rewrite M. cbn [obind].
  destruct (d k) as [e|] eqn:E.
  - destruct (may_remove sys d k) eqn:R.
    + exists (upd d k None), false, q. split; [reflexivity|]. split; [intros _; split; [apply upd_becomes|reflexivity]|].
      intros [H|H]; discriminate.
    + exists d, true, q. split; [reflexivity|]. split; [intros [_ H]; discriminate|]. intros _. split; reflexivity.
  - exists d, true, q. split; [reflexivity|]. split; [intros [H _]; congruence|]. intros _. split; reflexivity.
Qed.

Lemma file_digest : forall g hash good c, length g = 64 ->
  let n := Z.of_nat (length c) in let r := (n mod 2 ^ 32)%Z in
  (good = false -> CalculateFile g hash good c = Ok ([], hash)) /\
  (good = true -> (r < 2 ^ 31)%Z ->
     let h := hex (md5 (values (firstn (Z.to_nat r) c))) in CalculateFile g hash good c = Ok (h, h)) /\
  (good = true -> (2 ^ 31 <= r)%Z -> exists m, CalculateFile g hash good c = Throw m).
Proof.
  intros g hash good c G n r. split; [intros ->; reflexivity|].
  assert (B : (0 <= r < 2 ^ 32)%Z) by (apply Z.mod_pos_bound; reflexivity).
  split; intros ->.
  - intros L h. unfold CalculateFile. cbn [negb]. fold n.
    assert (E : to_i32 n = r).
    { unfold to_i32. change UINT_MOD with (2 ^ 32)%Z. change INT_MAX with (2 ^ 31 - 1)%Z. fold r. cbv zeta. destruct (Z.leb_spec r (2 ^ 31 - 1)); lia. }
    rewrite E. destruct (Z.ltb_spec r 0); [lia|].
    rewrite calculate_md5; [reflexivity|exact G|]. rewrite firstn_length. lia.
  - intros L. unfold CalculateFile. cbn [negb]. fold n.
    assert (E : to_i32 n = (r - 2 ^ 32)%Z).
    { unfold to_i32. change UINT_MOD with (2 ^ 32)%Z. change INT_MAX with (2 ^ 31 - 1)%Z. fold r. cbv zeta. destruct (Z.leb_spec r (2 ^ 31 - 1)); lia. }
    rewrite E. destruct (Z.ltb_spec (r - 2 ^ 32) 0); [|lia]. eexists. reflexivity.
Qed.

Lemma file_digest_small : forall g hash c, length g = 64 -> (N.of_nat (length c) < 2 ^ 31)%N ->
  let h := hex (md5 (values c)) in CalculateFile g hash true c = Ok (h, h).
Proof.
  intros g hash c G L h. destruct (file_digest g hash true c G) as [_ [H _]].
  assert (E : (Z.of_nat (length c) mod 2 ^ 32 = Z.of_nat (length c))%Z) by (apply Z.mod_small; lia).
  cbv zeta in H. rewrite E in H. unfold h. rewrite H; [|reflexivity|lia].
  rewrite Nat2Z.id, firstn_all. reflexivity.
Qed.
Lemma file_digest_long : exists c, N.of_nat (length c) = (2 ^ 32)%N /\ forall g hash, length g = 64 ->
  CalculateFile g hash true c = CalculateFile g hash true [].
Proof.
  exists (repeat "a"%char (N.to_nat (2 ^ 32))). split; [rewrite repeat_length, N2Nat.id; reflexivity|].
  intros g hash G. rewrite (file_digest_small g hash [] G) by (cbn [length]; lia).
  destruct (file_digest g hash true (repeat "a"%char (N.to_nat (2 ^ 32))) G) as [_ [H _]].
  cbv zeta in H. rewrite repeat_length, N_nat_Z in H.
  change (Z.of_N (2 ^ 32) mod 2 ^ 32)%Z with 0%Z in H. rewrite H; [reflexivity|reflexivity|lia].
Qed.
