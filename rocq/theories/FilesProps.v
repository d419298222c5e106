(** Property C104 (files written, read, made, removed and digested). *)
From Coq Require Import String Ascii ZArith NArith Arith Bool Lia List.
From Verif Require Import Common StrModel PathModel PathSpec JsonNumModel JsonModel JsonSpec MD5Model MD5Spec FilesModel FilesSpec FilesProofs.
Import ListNotations.
Local Open Scope nat_scope.

(** A small system: "dir", "dir/" are entry 0; "a.txt", "./a.txt" entry 1; "ro.txt" entry 2; "lost/x" entry 3;
    "new", "new/" entry 4; anything else entry 5. *)
Definition sample_key (s : bytes) : nat :=
  if bytes_eqb s (lit "dir") || bytes_eqb s (lit "dir/") then 0
  else if bytes_eqb s (lit "a.txt") || bytes_eqb s (lit "./a.txt") then 1
  else if bytes_eqb s (lit "ro.txt") then 2 else if bytes_eqb s (lit "lost/x") then 3
  else if bytes_eqb s (lit "new") || bytes_eqb s (lit "new/") then 4 else 5.
Definition sample_sys : system :=
  {| key := sample_key; may_read := fun _ => true; may_write := fun k => Nat.eqb k 1;
     may_make := fun k => Nat.eqb k 4 || Nat.eqb k 1; may_remove := fun _ k => Nat.eqb k 1 |}.
Definition sample_disk : disk := fun k =>
  match k with 0 => Some Folder | 1 => Some (File (lit "old contents")) | 2 => Some (File (lit "fixed")) | _ => None end.
Ltac shows_means := unfold means; eexists; eexists; split; [vm_compute; reflexivity|]; eexists; split; [|split; [|left; reflexivity]];
  [vm_compute; reflexivity|cbn; intuition discriminate].

(** C104: the log is saved as the whole contents of the file; nothing else changes; every path of that file then reads
    back exactly the log, whatever the caller's buffer held. *)
Theorem C104_log : forall sys d p log k, means sys d p k -> can_write sys d k -> exists d' q,
  saveLogToFile sys d p log = Ok (d', q) /\ becomes d k (Some (File log)) d' /\
  (may_read sys k = true -> forall r buf, means sys d r k -> exists q', getContents sys d' r buf = Ok (log, q')).
Proof. exact log_saved. Qed.
Print Assumptions C104_log.
Example C104_log_example : means sample_sys sample_disk (mkPath (lit "a.txt")) 1 /\
  means sample_sys sample_disk (mkPath (lit ".//a.txt")) 1 /\ can_write sample_sys sample_disk 1 /\ may_read sample_sys 1 = true.
Proof.
  split; [shows_means|]. split; [shows_means|]. split; [|reflexivity].
  left. split; [exists (lit "old contents"); reflexivity|reflexivity].
Qed.

(** C104: a JSON value written to a file is read back from it as an equal value. *)
Theorem C104_json : forall sys pretty d p v k, writable v -> means sys d p k -> can_write sys d k -> exists t d' q,
  getWriteToStr pretty v = Ok t /\ writeToFile sys pretty d p v = Ok (d', q) /\ becomes d k (Some (File t)) d' /\
  (may_read sys k = true -> (N.of_nat (length t) < 2 ^ 31)%N -> exists v', same v v' /\ val_eq v v' = Ok true /\
     forall r, means sys d r k -> exists q', fromFile sys d' r = Ok (v', q') /\
       forall old, readFromFile sys d' r old = Ok (true, v', q')).
Proof. exact json_saved. Qed.
Print Assumptions C104_json.
Example C104_json_example : writable (JArr [JBln true; JNum (NS 7)]) /\
  match writeToFile sample_sys false sample_disk (mkPath (lit "a.txt")) (JArr [JBln true; JNum (NS 7)]) with
  | Ok (d', _) => d' 1 = Some (File (lit "[true,7]")) /\ d' 2 = sample_disk 2 /\
      exists q, fromFile sample_sys d' (mkPath (lit "./a.txt")) = Ok (JArr [JBln true; JNum (NS 7)], q)
  | _ => False
  end.
Proof.
  split; [repeat constructor; cbn; lia|]. vm_compute. split; [reflexivity|]. split; [reflexivity|]. eexists; reflexivity.
Qed.

(** C104: reading a value from any readable file does what reading the file's text does; the value is kept if that fails. *)
Theorem C104_json_any : forall sys d p k c, means sys d p k -> d k = Some (File c) -> may_read sys k = true -> exists q, forall old,
  (readFromFile sys d p old = UB /\ readFromStr old c = UB) \/
  (exists v, readFromFile sys d p old = Ok (true, v, q) /\ readFromStr old c = Ok (true, v)) \/
  (readFromFile sys d p old = Ok (false, old, q) /\ readFromStr old c = Ok (false, old)).
Proof. exact json_any. Qed.
Print Assumptions C104_json_any.
Example C104_json_any_example : readFromFile sample_sys sample_disk (mkPath (lit "ro.txt")) (JArr [JBln true]) =
  Ok (false, JArr [JBln true], Path (lit "ro.txt") false).
Proof. vm_compute. reflexivity. Qed.

(** C104: when the file can be neither written nor made, nothing is written and the calls return as usual. *)
Theorem C104_not_written : forall sys d p k, means sys d p k -> ~ can_write sys d k -> exists q,
  (forall log, saveLogToFile sys d p log = Ok (d, q)) /\
  (forall pretty v, writable v -> writeToFile sys pretty d p v = Ok (d, q)).
Proof. exact not_written. Qed.
Print Assumptions C104_not_written.
(** C104, refuted: a call that returns has not always saved anything. *)
Theorem C104_saved_refuted : exists sys d p k log d' q, means sys d p k /\ saveLogToFile sys d p log = Ok (d', q) /\
  d' k <> Some (File log) /\ d' k = d k.
Proof.
  exists sample_sys, sample_disk, (mkPath (lit "ro.txt")), 2, (lit "x"), sample_disk, (Path (lit "ro.txt") false).
  split; [shows_means|]. split; [vm_compute; reflexivity|]. split; [discriminate|reflexivity].
Qed.
Print Assumptions C104_saved_refuted.
Example C104_not_written_example : means sample_sys sample_disk (mkPath (lit "lost/x")) 3 /\ ~ can_write sample_sys sample_disk 3.
Proof. split; [shows_means|]. intros [[[c H] _]|[_ H]]; discriminate. Qed.

(** C104: the contents of a readable file, exactly; anything else must not be asked for. *)
Theorem C104_contents : forall sys d p buf k, means sys d p k ->
  (forall c, d k = Some (File c) -> may_read sys k = true -> exists q, getContents sys d p buf = Ok (c, q)) /\
  (~ is_file d k \/ may_read sys k = false -> getContents sys d p buf = UB).
Proof. exact contents_spec. Qed.
Print Assumptions C104_contents.
Example C104_contents_example :
  getContents sample_sys sample_disk (mkPath (lit "ro.txt")) (lit "a longer buffer") = Ok (lit "fixed", Path (lit "ro.txt") false) /\
  getContents sample_sys sample_disk (mkPath (lit "dir")) [] = UB /\ getContents sample_sys sample_disk (mkPath (lit "none")) [] = UB.
Proof. repeat split; vm_compute; reflexivity. Qed.

(** C104: every text without NUL is a path of exactly one entry, and texts that differ only in repeated separators and
    in the kind of separator are paths of the same one. *)
Theorem C104_spelling : forall sys d a b, ~ In (ch 0) a -> ~ In (ch 0) b -> components a = components b ->
  starts_sep a = starts_sep b -> ends_sep a = ends_sep b ->
  exists k, means sys d (mkPath a) k /\ means sys d (mkPath b) k /\
  forall p j, p = mkPath a \/ p = mkPath b -> means sys d p j -> j = k.
Proof. exact spelling. Qed.
Print Assumptions C104_spelling.
Example C104_spelling_example : let a := lit "x//y.txt" in let b := lit "x" ++ [ch 92] ++ lit "y.txt" in
  components a = components b /\ starts_sep a = starts_sep b /\ ends_sep a = ends_sep b /\ a <> b.
Proof. repeat split; try reflexivity. discriminate. Qed.

(** C104: a folder is made where there is nothing and it may be made; otherwise nothing happens and nothing is said. *)
Theorem C104_folder : forall sys d p k, means sys d p k -> exists d' q, createFolder sys d p = Ok (d', q) /\
  (d k = None /\ may_make sys k = true -> becomes d k (Some Folder) d') /\
  (d k <> None \/ may_make sys k = false -> d' = d).
Proof. exact folder_made. Qed.
Print Assumptions C104_folder.
(** C104: a path whose text ends in a separator has the same text before and after the folder is made ... *)
Theorem C104_folder_text : forall sys d d' s, ~ In (ch 0) s -> ends_sep s = true ->
  getStr (stat_of sys d') (mkPath s) = getStr (stat_of sys d) (mkPath s).
Proof. exact folder_text. Qed.
Print Assumptions C104_folder_text.
(** ... and without it, refuted: the path that made the folder keeps its text and a new one has another, so that adding
    the same name to both gives different paths. *)
Theorem C104_folder_stale_refuted : exists sys d p d' q t1 t2 q1 q2, createFolder sys d p = Ok (d', q) /\
  getStr (stat_of sys d') (append q (lit "x")) = Ok (t1, q1) /\
  (exists t q0, getStr (stat_of sys d') p = Ok (t, q0) /\ getStr (stat_of sys d') (append q0 (lit "x")) = Ok (t2, q2)) /\
  t1 <> t2.
Proof.
  exists sample_sys, sample_disk, (mkPath (lit "new")), (upd sample_disk 4 (Some Folder)), (Path (lit "new") false).
  exists (lit "newx"), (lit "new/x"), (Path (lit "newx") false), (Path (lit "new/x") false).
  split; [vm_compute; reflexivity|]. split; [vm_compute; reflexivity|].
  split; [exists (lit "new/"), (Path (lit "new/") false); split; vm_compute; reflexivity|discriminate].
Qed.
Print Assumptions C104_folder_stale_refuted.
Example C104_folder_example : means sample_sys sample_disk (mkPath (lit "new/")) 4 /\ sample_disk 4 = None /\ may_make sample_sys 4 = true.
Proof. split; [shows_means|]. split; reflexivity. Qed.

(** C104: what removing does and answers: false when the entry is gone, true when it could not be removed. *)
Theorem C104_remove : forall sys d p k, means sys d p k -> exists d' b q, removeFile sys d p = Ok (d', b, q) /\
  (d k <> None /\ may_remove sys d k = true -> becomes d k None d' /\ b = false) /\
  (d k = None \/ may_remove sys d k = false -> d' = d /\ b = true).
Proof. exact removed. Qed.
Print Assumptions C104_remove.
(** C104, refuted: the answer does not say that the file was removed. *)
Theorem C104_remove_answer_refuted : exists sys d p q d' r q', removeFile sys d p = Ok (d', false, q) /\
  (exists k, means sys d p k /\ is_file d k /\ d' k = None) /\
  removeFile sys d' r = Ok (d', true, q') /\ exists k, means sys d' r k /\ d' k = None.
Proof.
  exists sample_sys, sample_disk, (mkPath (lit "a.txt")), (Path (lit "a.txt") false), (upd sample_disk 1 None),
    (mkPath (lit "a.txt")), (Path (lit "a.txt") false).
  split; [vm_compute; reflexivity|]. split; [exists 1; split; [shows_means|split; [eexists; reflexivity|reflexivity]]|].
  split; [vm_compute; reflexivity|]. exists 1. split; [shows_means|reflexivity].
Qed.
Print Assumptions C104_remove_answer_refuted.

(** C104: the digest of a file of less than 2^31 bytes is the MD5 digest of its contents. *)
Theorem C104_md5 : forall g hash c, length g = 64 -> (N.of_nat (length c) < 2 ^ 31)%N ->
  let h := hex (md5 (values c)) in CalculateFile g hash true c = Ok (h, h).
Proof. exact file_digest_small. Qed.
Print Assumptions C104_md5.
(** C104: all lengths, and a stream that has failed. *)
Theorem C104_md5_any : forall g hash good c, length g = 64 ->
  let n := Z.of_nat (length c) in let r := (n mod 2 ^ 32)%Z in
  (good = false -> CalculateFile g hash good c = Ok ([], hash)) /\
  (good = true -> (r < 2 ^ 31)%Z ->
     let h := hex (md5 (values (firstn (Z.to_nat r) c))) in CalculateFile g hash good c = Ok (h, h)) /\
  (good = true -> (2 ^ 31 <= r)%Z -> exists m, CalculateFile g hash good c = Throw m).
Proof. exact file_digest. Qed.
Print Assumptions C104_md5_any.
(** C104, refuted: a file of 2^32 bytes has the digest of an empty one. *)
Theorem C104_md5_long_refuted : exists c, N.of_nat (length c) = (2 ^ 32)%N /\ forall g hash, length g = 64 ->
  CalculateFile g hash true c = CalculateFile g hash true [].
Proof. exact file_digest_long. Qed.
Print Assumptions C104_md5_long_refuted.
Example C104_md5_example : exists h, CalculateFile (repeat 7%N 64) (lit "kept") true (lit "abc") = Ok (h, h) /\
  h = lit "900150983cd24fb0d6963f7d28e17f72" /\
  CalculateFile (repeat 7%N 64) (lit "kept") false (lit "abc") = Ok ([], lit "kept").
Proof. eexists. split; [vm_compute; reflexivity|]. split; reflexivity. Qed.
