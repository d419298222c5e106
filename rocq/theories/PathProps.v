(** Paths and folder scans: the property theorems (C63-C67, C87). The file system is the function [stat]
    (and the folder listings [ls]); the theorems hold for every such function. *)
From Coq Require Import String Ascii ZArith NArith Arith Bool Lia List Sorted Permutation.
Import ListNotations.
From Verif Require Import Common StrModel PathModel PathSpec PathProofs ScanProofs.
Local Open Scope char_scope.
Local Open Scope nat_scope.

(** C63. The text of a path: slashes only, never two in a row; the same steps, beginning and end as the
    text it was made from ([t0]), followed by a slash exactly when that is an existing folder and the text
    did not already end in a separator. *)
Theorem C63_normalise : forall stat s, ~ In (ch 0) s -> exists t0 t, getStr stat (mkPath s) = Ok (t, Path t false) /\
  clean t0 /\ components t0 = components s /\ starts_sep t0 = starts_sep s /\ ends_sep t0 = ends_sep s /\
  clean t /\ (stat t0 = Some KFolder /\ ends_sep s = false /\ t = t0 ++ ["/"] \/
              (stat t0 <> Some KFolder \/ ends_sep s = true) /\ t = t0).
Proof. exact getStr_full. Qed.
Print Assumptions C63_normalise.
Example C63_example : 
  getStr (fun _ => None) (mkPath (lit "/////\//\usr///\//test//test4.png")) =
    Ok (lit "/usr/test/test4.png", Path (lit "/usr/test/test4.png") false) /\
  components (lit "/////\//\usr///\//test//test4.png") = [lit "usr"; lit "test"; lit "test4.png"] /\
  getStr (fun p => if bytes_eqb p (lit "/usr") then Some KFolder else None) (mkPath (lit "//usr")) =
    Ok (lit "/usr/", Path (lit "/usr/") false).
Proof. vm_compute. auto. Qed.

(** C63. Steps, beginning and end determine a clean text, so the text above is the only possible one. *)
Theorem C63_determined : forall a b, clean a -> clean b -> components a = components b ->
  starts_sep a = starts_sep b -> ends_sep a = ends_sep b -> a = b.
Proof. exact clean_determined. Qed.
Print Assumptions C63_determined.
Example C63_determined_example : clean (lit "/usr/lib/x.so") /\ ~ clean (lit "/usr//x").
Proof.
  split.
  - split; [|apply nodd_spec; vm_compute; reflexivity]. vm_compute. intuition discriminate.
  - intros [_ H]. now apply (H (lit "/usr") (lit "x")).
Qed.

(** C63. Asking again, or making a path from the text obtained, changes nothing. *)
Theorem C63_idempotent : forall stat p t q, getStr stat p = Ok (t, q) -> getStr stat q = Ok (t, q) /\
  (mustNormalize p = true -> getStr stat (mkPath t) = Ok (t, q)).
Proof. exact getStr_again. Qed.
Print Assumptions C63_idempotent.

(** C63. Appending text or a path, and adding paths, give the path of the joined texts, normalised anew; for a path
    that was looked at ([q]) the text joined is the one obtained. *)
Theorem C63_append : forall stat a b,
  getStr stat (append (mkPath a) b) = getStr stat (mkPath (a ++ b)) /\
  getStr stat (appendPath (mkPath a) (mkPath b)) = getStr stat (mkPath (a ++ b)) /\
  getStr stat (plus (mkPath a) (mkPath b)) = getStr stat (mkPath (a ++ b)).
Proof. exact append_spec. Qed.
Print Assumptions C63_append.
Theorem C63_append_seen : forall stat p t q s, getStr stat p = Ok (t, q) ->
  getStr stat (append q s) = getStr stat (mkPath (t ++ s)) /\
  getStr stat (appendPath q (mkPath s)) = getStr stat (mkPath (t ++ s)) /\
  getStr stat (plus q (mkPath s)) = getStr stat (mkPath (t ++ s)) /\
  getStr stat (plus (mkPath s) q) = getStr stat (mkPath (s ++ t)) /\
  getStr stat (assign q s) = getStr stat (mkPath s) /\
  getStr stat (clear q) = getStr stat (mkPath []) /\
  (isNull q = true <-> t = []).
Proof. exact append_seen. Qed.
Print Assumptions C63_append_seen.
(** C63. The existence tests ask the system about exactly that text. *)
Theorem C63_exists : forall stat t, ~ In (ch 0) t ->
  (existsAny stat t = true <-> exists k, stat t = Some k) /\ (existsFile stat t = true <-> stat t = Some KFile) /\
  (existsFolder stat t = true <-> stat t = Some KFolder).
Proof. exact exists_spec. Qed.
Print Assumptions C63_exists.
Example C63_append_example :
  let stat := fun p => if bytes_eqb p (lit "a/b") then Some KFolder else None in
  obind (getStr stat (mkPath (lit "a/"))) (fun r => getStr stat (append (snd r) (lit "\b"))) = Ok (lit "a/b/", Path (lit "a/b/") false).
Proof. vm_compute. reflexivity. Qed.

(** C63. But looking at a path changes it: appending to an existing folder before or after a call to a
    const getter gives different paths. *)
Theorem C63_observation_refuted : exists stat p s t q t1 t2 q1 q2,
  getStr stat p = Ok (t, q) /\ getStr stat (append p s) = Ok (t1, q1) /\ getStr stat (append q s) = Ok (t2, q2) /\
  t1 <> t2.
Proof.
  exists (fun p => if bytes_eqb p (lit "dir") then Some KFolder else None), (mkPath (lit "dir")), (lit "x").
  exists (lit "dir/"), (Path (lit "dir/") false), (lit "dirx"), (lit "dir/x"), (Path (lit "dirx") false), (Path (lit "dir/x") false).
  repeat split. discriminate.
Qed.
Print Assumptions C63_observation_refuted.

(** C64. Every text splits into a folder part (empty or ending in a slash) and a name without slashes. *)
Theorem C64_split : forall t, exists d n, t = d ++ n /\ is_dir d /\ no_slash n.
Proof. exact dir_name. Qed.
Print Assumptions C64_split.
(** C64. The file name is that name. *)
Theorem C64_file_name : forall d n, is_dir d -> no_slash n -> getFileName (d ++ n) = Ok n.
Proof. exact getFileName_spec. Qed.
Print Assumptions C64_file_name.
(** C64. The parent is the folder part when that is longer than one character, and empty otherwise. *)
Theorem C64_parent : forall d n, is_dir d -> no_slash n -> 2 <= length d -> getParent (d ++ n) = Ok d.
Proof. exact getParent_spec. Qed.
Print Assumptions C64_parent.
Theorem C64_parent_none : forall d n, is_dir d -> no_slash n -> length d <= 1 -> d ++ n <> [] -> getParent (d ++ n) = Ok [].
Proof. exact getParent_none. Qed.
Print Assumptions C64_parent_none.
(** C64. The extension is the part from the last dot of the name, unless that dot begins the name. *)
Theorem C64_extension : forall d st e, is_dir d -> no_slash (st ++ "." :: e) -> no_dot e ->
  getExtension (d ++ st ++ "." :: e) = Ok (match st with [] => [] | _ => "." :: e end).
Proof. exact ext_dot. Qed.
Print Assumptions C64_extension.
Theorem C64_extension_none : forall d n, is_dir d -> no_slash n -> no_dot n -> getExtension (d ++ n) = Ok [].
Proof. exact ext_nodot. Qed.
Print Assumptions C64_extension_none.
(** C64. All extensions are the part from the first dot that does not begin the name. *)
Theorem C64_all_extensions : forall d c st e, is_dir d -> no_slash (c :: st ++ "." :: e) -> no_dot st ->
  getAllExtensions (d ++ c :: st ++ "." :: e) = Ok ("." :: e).
Proof. exact allext_dot. Qed.
Print Assumptions C64_all_extensions.
Theorem C64_all_extensions_none : forall d n, is_dir d -> no_slash n ->
  no_dot n \/ (exists e, n = "." :: e /\ no_dot e) -> getAllExtensions (d ++ n) = Ok [].
Proof. exact allext_nodot. Qed.
Print Assumptions C64_all_extensions_none.
(** C64. The name without extension loses the part from its last dot, unless that dot begins it; dots in
    the folder part do not matter. *)
Theorem C64_stem : forall d st e, is_dir d -> no_slash (st ++ "." :: e) -> no_dot e ->
  getFileNameNoExtensions (d ++ st ++ "." :: e) = Ok (match st with [] => "." :: e | _ => st end).
Proof. exact noext_dot. Qed.
Print Assumptions C64_stem.
Theorem C64_stem_nodot : forall d n, is_dir d -> no_slash n -> no_dot n -> getFileNameNoExtensions (d ++ n) = Ok n.
Proof. exact noext_nodot. Qed.
Print Assumptions C64_stem_nodot.
(** C64. The name of a folder that has another folder or the root before it. *)
Theorem C64_folder_name : forall d n, is_dir d -> d <> [] -> no_slash n -> n <> [] ->
  getFolderName (d ++ n ++ ["/"]) = Ok n.
Proof. exact getFolderName_spec. Qed.
Print Assumptions C64_folder_name.
Theorem C64_folder_name_file : forall t, ends_sep t = false -> ~ In backslash t -> getFolderName t = Ok [].
Proof. exact getFolderName_file. Qed.
Print Assumptions C64_folder_name_file.
(** C64. The extension test compares the end of the text, ignoring case. *)
Theorem C64_has_extension : forall t ext, exists b, hasExtension t ext = Ok b /\
  (b = true <-> exists x y, t = x ++ y /\ toLower y = toLower ext).
Proof. exact hasExtension_spec. Qed.
Print Assumptions C64_has_extension.
Example C64_example :
  getFileName (lit "/usr.txt/banana/.log") = Ok (lit ".log") /\ getExtension (lit "/usr.txt/banana/.log") = Ok [] /\
  getAllExtensions (lit "/usr/test4.png.bak") = Ok (lit ".png.bak") /\ getExtension (lit "/usr/test4.png.bak") = Ok (lit ".bak") /\
  getParent (lit "/usr.txt/banana/.log") = Ok (lit "/usr.txt/banana/") /\ getFolderName (lit "/usr.txt/banana/") = Ok (lit "banana") /\
  getFileNameNoExtensions (lit "a.b/test4") = Ok (lit "test4") /\ hasExtension (lit "a/B.PnG") (lit ".png") = Ok true.
Proof. vm_compute. repeat split. Qed.

(** C65. A folder given by a single relative name loses its first character. *)
Theorem C65_relative_folder_refuted : forall n, no_slash n -> n <> [] -> getFolderName (n ++ ["/"]) = Ok (tl n).
Proof. exact getFolderName_relative. Qed.
Print Assumptions C65_relative_folder_refuted.
Example C65_example : getFolderName (lit "usr/") = Ok (lit "sr").
Proof. vm_compute. reflexivity. Qed.
(** C65. The root has no folder name and the empty path no parent: both calls read out of bounds. *)
Theorem C65_out_of_bounds_refuted : getFolderName (lit "/") = UB /\ getParent [] = UB.
Proof. split; reflexivity. Qed.
Print Assumptions C65_out_of_bounds_refuted.
(** C65. The parent of an entry of the root is empty, not the root; the parent of a folder is itself. *)
Theorem C65_parent_refuted :
  (forall n, no_slash n -> getParent ("/" :: n) = Ok []) /\
  (forall d, 2 <= length d -> getParent (d ++ ["/"]) = Ok (d ++ ["/"])).
Proof.
  split.
  - intros n N. apply (getParent_none ["/"] n); [right; now exists []|exact N|cbn; lia|discriminate].
  - intros d L. rewrite <- (app_nil_r (d ++ ["/"])) at 1. apply getParent_spec; [right; now exists d|intros []|].
    rewrite app_length. lia.
Qed.
Print Assumptions C65_parent_refuted.
(** C65. "Without extensions" removes only the last one. *)
Theorem C65_stem_refuted : getFileNameNoExtensions (lit "/usr/test/test2/test4.png.bak") = Ok (lit "test4.png") /\
  getAllExtensions (lit "/usr/test/test2/test4.png.bak") = Ok (lit ".png.bak").
Proof. vm_compute. auto. Qed.
Print Assumptions C65_stem_refuted.
(** C65. Comparing paths for equality never returns. *)
Theorem C65_equality_refuted : forall fuel p q, pathEq fuel p q = OutOfFuel.
Proof. induction fuel as [|fuel IH]; intros p q; [reflexivity|exact (IH p q)]. Qed.
Print Assumptions C65_equality_refuted.

(** C66. A non-recursive scan of a folder adds to its target, for each entry of the folder in the order
    the system lists them, what [found] says: folders (never filtered by name) with their slash unless the
    name ends in a dot, other entries when their name passes the filter. With sorting, the whole target,
    what it held before included, is put in order. *)
Theorem C66_scan : forall stat ls ty pk so desired target s buf fuel dir,
  (forall p, stat p = Some KFolder -> stat (p ++ ["/"]) = Some KFolder) ->
  ~ In (ch 0) s -> normalText stat s = Ok dir -> stat dir = Some KFolder -> Forall plain_name (ls dir) ->
  exists r lists buf', scan (S fuel) stat ls Single ty pk so desired target (Some s) buf = Ok (r, buf') /\
    Forall2 (found (fun p => stat p = Some KFolder) (match ty with TFile => false | _ => true end)
               (match ty with TFolder => false | _ => true end)
               (match pk with
                | PAny => fun _ => True
                | PByExt => fun name => exists x, name = x ++ desired
                | PByName => fun name => name = desired
                end) dir) (ls dir) lists /\
    match so with
    | SNone => r = target ++ concat lists
    | SAlphabetic => Permutation r (target ++ concat lists) /\ Sorted text_le r
    end.
Proof. intros. destruct pk; apply scan_single; assumption. Qed.
Print Assumptions C66_scan.
(** C66. A folder that does not exist is an error. *)
Theorem C66_missing : forall stat ls m ty pk so desired target s buf fuel dir,
  ~ In (ch 0) s -> normalText stat s = Ok dir -> stat dir <> Some KFolder ->
  scan (S fuel) stat ls m ty pk so desired target (Some s) buf = Throw "Directory not found"%string.
Proof. exact scan_missing. Qed.
Print Assumptions C66_missing.
Definition ex_stat : fsys := fun p =>
  if existsb (bytes_eqb p) [lit "."; lit "./"; lit ".."; lit "../"; lit "d"; lit "d/"; lit "d/."; lit "d/./"; lit "d/.."; lit "d/../"; lit "d/sub"; lit "d/sub/"; lit "d/v1."; lit "d/v1./"] then Some KFolder
  else if existsb (bytes_eqb p) [lit "d/b.txt"; lit "d/a.png"; lit "d/sub/c.txt"] then Some KFile else None.
Definition ex_ls (p : bytes) : list bytes :=
  if bytes_eqb p (lit "d/") then map lit ["."; "sub"; "b.txt"; ".."; "a.png"; "v1."]%string
  else if bytes_eqb p (lit "d/sub/") then map lit ["."; ".."; "c.txt"]%string else [].
Example C66_example :
  scan 5 ex_stat ex_ls Single TAll PByExt SAlphabetic (lit ".txt") [lit "z"] (Some (lit "d")) [] =
    Ok (map lit ["d/b.txt"; "d/sub/"; "z"]%string, lit "d/v1./") /\
  Forall plain_name (ex_ls (lit "d/")).
Proof.
  split; [vm_compute; reflexivity|]. repeat constructor; try discriminate; vm_compute; intuition discriminate.
Qed.

(** C67. A recursive scan with one level of subfolders: what it adds for the entries of a subfolder is
    what a scan of the working folder would say about those names, with the empty text in place of the
    folders they are in. (Assumed of the subfolders' entries: none of those names is a folder of the
    working folder, "." and the like excepted; then the scan would go on there.) *)
Theorem C67_prefix_refuted : forall stat ls ty pk desired target s buf fuel dir,
  (forall p, stat p = Some KFolder -> stat (p ++ ["/"]) = Some KFolder) ->
  ~ In (ch 0) s -> normalText stat s = Ok dir -> stat dir = Some KFolder -> Forall plain_name (ls dir) ->
  (forall name, In name (ls dir) -> enters (fun p => stat p = Some KFolder) dir name ->
     Forall plain_name (ls (dir ++ name ++ ["/"])) /\ Forall (fun n => ~ enters (fun p => stat p = Some KFolder) [] n) (ls (dir ++ name ++ ["/"]))) ->
  exists lists buf', scan (S (S fuel)) stat ls Recurse ty pk SNone desired target (Some s) buf = Ok (target ++ concat lists, buf') /\
    Forall2 (found2 (fun p => stat p = Some KFolder) (match ty with TFile => false | _ => true end)
               (match ty with TFolder => false | _ => true end)
               (match pk with
                | PAny => fun _ => True
                | PByExt => fun name => exists x, name = x ++ desired
                | PByName => fun name => name = desired
                end) ls dir) (ls dir) lists.
Proof. intros. destruct pk; apply scan_recurse_two; assumption. Qed.
Print Assumptions C67_prefix_refuted.
Example C67_example : exists buf',
  scan 5 ex_stat ex_ls Recurse TFile PAny SNone [] [] (Some (lit "d")) [] =
    Ok (map lit ["c.txt"; "d/b.txt"; "d/a.png"]%string, buf').
Proof. eexists. vm_compute. reflexivity. Qed.

(** C67. A recursive scan of e never returns when the working folder holds e/e/e. *)
Theorem C67_endless_refuted : forall stat ls ty pk so desired e, plain_name e -> (forall x, e <> x ++ ["."]) ->
  stat e = Some KFolder -> stat (e ++ ["/"]) = Some KFolder -> In e (ls (e ++ ["/"])) ->
  stat (e ++ ["/"] ++ e) = Some KFolder -> stat (e ++ ["/"] ++ e ++ ["/"]) = Some KFolder ->
  In e (ls (e ++ ["/"] ++ e ++ ["/"])) ->
  forall fuel target buf r, scan fuel stat ls Recurse ty pk so desired target (Some e) buf <> Ok r.
Proof. exact scan_recurse_never. Qed.
Print Assumptions C67_endless_refuted.
Example C67_endless_example :
  plain_name (lit "a") /\ aaa_stat (lit "a/a/") = Some KFolder /\ In (lit "a") (aaa_ls (lit "a/a/")) /\
  scan 40 aaa_stat aaa_ls Recurse TFolder PAny SNone [] [] (Some (lit "a")) [] = OutOfFuel.
Proof.
  split; [repeat split; try discriminate; vm_compute; intuition discriminate|].
  split; [vm_compute; reflexivity|]. split; [vm_compute; tauto|]. vm_compute. reflexivity.
Qed.

(** C87. Expanding the user folder replaces every "~" of the path, not only a leading one. *)
Theorem C87_expand : forall stat home p t q fuel, getStr stat p = Ok (t, q) -> ~ In "~" home -> length t < fuel ->
  expandUserPath stat (Some home) fuel p = Ok (mkPath (flat_map (fun c => if Ascii.eqb c "~" then home else [c]) t)).
Proof. exact expand_spec. Qed.
Print Assumptions C87_expand.
Example C87_example : expandUserPath (fun _ => None) (Some (lit "/home/me")) 20 (mkPath (lit "~//backup~1")) =
  Ok (mkPath (lit "/home/me/backup/home/me1")).
Proof. vm_compute. reflexivity. Qed.
(** C87. It never returns when the user folder itself contains a "~". *)
Theorem C87_expand_diverges_refuted : forall stat home p t q, getStr stat p = Ok (t, q) -> In "~" home -> In "~" t ->
  forall fuel, expandUserPath stat (Some home) fuel p = OutOfFuel.
Proof. exact expand_diverges. Qed.
Print Assumptions C87_expand_diverges_refuted.
