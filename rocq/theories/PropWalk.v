(* Property C92: the files the scanner scans. *)
From Verif Require Import Base Process Sarif Walk WalkSpec WalkProofs PropProcess.

(* the files of a directory that cannot be listed are left out, and nothing is said about it *)
Theorem C92_refuted : ~ (forall path l u rp, proper (Dir l u) -> scan_path env0 path (Itself (Dir l u)) = Ret (Some rp) ->
  forall q c, file_at (Dir l u) q c -> teal_file q -> In (file_uri (path ++ q)) (rp_artifacts rp)).
Proof.
  intros H. specialize (H [bs "w"] [(bs "sub", Dir [] [(bs "a.teal", File (Some (bs "err")))])] [] (Report declared_rules [] [])).
  apply (H) with (q := [bs "sub"; bs "a.teal"]) (c := Some (bs "err")).
  - assert (N : NoDup [bs "sub"]) by (constructor; [intros []|constructor]).
    assert (M : NoDup [bs "a.teal"]) by (constructor; [intros []|constructor]).
    apply PDir; [exact N|]. intros name n [I|[]]. injection I as <- <-. split; [discriminate|]. split; [cbn; intuition discriminate|].
    apply PDir; [exact M|]. intros name n [I|[]]. injection I as <- <-. split; [discriminate|]. split; [cbn; intuition discriminate|].
    constructor.
  - vm_compute. reflexivity.
  - eapply FListed; [left; reflexivity|]. eapply FUnlisted; [left; reflexivity|]. constructor.
  - exists [bs "sub"], (bs "a"). reflexivity.
Qed.
Print Assumptions C92_refuted.

(* and so are all files when the argument is a symbolic link to the directory *)
Theorem C92_link_refuted path l u : ~ teal_file path -> scanned path (LinkTo (Dir l u)) = Some [].
Proof.
  intros N. cbn [scanned walk]. destruct (seqb _ _) eqn:E; [|reflexivity]. destruct N. apply last_teal, ext_teal. exact E.
Qed.
Print Assumptions C92_link_refuted.
Example C92_link_ex : scan_path env0 [bs "link"] (LinkTo (Dir [(bs "a.teal", File (Some (bs "err")))] [])) =
  Ret (Some (Report declared_rules [] [])).
Proof. vm_compute. reflexivity. Qed.

(* Of a directory exactly the files that could be found and whose names end with .teal are scanned, in the
   order of their paths. *)
Theorem C92 path l u : proper (Dir l u) -> exists fs, scanned path (Itself (Dir l u)) = Some fs /\
  in_order path_before (map fst fs) /\
  forall p c, In (p, c) fs <-> exists q, p = path ++ q /\ listed_at (Dir l u) q c /\ teal_file p.
Proof.
  intros W. exists (walk path (Dir l u)). split; [reflexivity|]. split; [exact (walk_order _ W path)|].
  intros p c. apply walk_spec.
Qed.
Print Assumptions C92.

(* all of them when all directories can be listed *)
Theorem C92_partial path l u : proper (Dir l u) -> listable (Dir l u) -> exists fs, scanned path (Itself (Dir l u)) = Some fs /\
  forall p c, In (p, c) fs <-> exists q, p = path ++ q /\ file_at (Dir l u) q c /\ teal_file p.
Proof.
  intros W A. exists (walk path (Dir l u)). split; [reflexivity|]. intros p c. rewrite walk_spec.
  split; intros (q & E & L & T); exists q; (split; [exact E|]; split; [|exact T]).
  - exact (listed_file _ _ _ L).
  - exact (listable_at _ _ _ A L).
Qed.
Print Assumptions C92_partial.

(* A file that is named is scanned whatever its name. *)
Theorem C92_file path c t : t = Itself (File c) \/ t = LinkTo (File c) -> scanned path t = Some [(path, c)].
Proof. intros [->| ->]; reflexivity. Qed.
Print Assumptions C92_file.

(* A report has been made of all of them: each has one artifact, under a uri that is well formed and its own;
   if one cannot be read there is no report. *)
Theorem C92_report en path l u rp : proper (Dir l u) -> (forall e, In e path -> ~ In "/"%char e) ->
  scan_path en path (Itself (Dir l u)) = Ret (Some rp) ->
  NoDup (rp_artifacts rp) /\ Forall uri_text (rp_artifacts rp) /\
  forall a, In a (rp_artifacts rp) <-> exists q src, a = file_uri (path ++ q) /\ listed_at (Dir l u) q (Some src) /\ teal_file (path ++ q).
Proof. exact (report_uris en path l u rp). Qed.
Print Assumptions C92_report.
Theorem C92_unreadable en path t fs p rp : scanned path t = Some fs -> In (p, None) fs -> scan_path en path t <> Ret (Some rp).
Proof.
  intros S I E. apply scan_path_artifacts in E as (fs' & S' & _ & N). rewrite S in S'. injection S' as <-.
  apply N. apply in_map_iff. exists (p, None). split; [reflexivity|exact I].
Qed.
Print Assumptions C92_unreadable.
(* the uri is the path, and no other path has it *)
Theorem C92_uri p : uri_text (file_uri p) /\ means (file_uri p) (bs "file://" ++ flat_map (fun e => "/"%char :: e) p) /\
  forall q, (forall e, In e p -> ~ In "/"%char e) -> (forall e, In e q -> ~ In "/"%char e) -> file_uri p = file_uri q -> p = q.
Proof. destruct (uri_ok p) as [U M]. split; [exact U|]. split; [exact M|]. intros q P Q. exact (uri_inj p q P Q). Qed.
Print Assumptions C92_uri.
(* a path of ordinary characters is its own uri, and a question mark, say, is not one of them *)
Theorem C92_ordinary p :
  (forall e c, In e p -> In c e -> In c (bs "abcdefghijklmnopqrstuvwxyzABCDEFGHIJKLMNOPQRSTUVWXYZ0123456789-._~$&+,:;=@")) ->
  file_uri p = bs "file://" ++ flat_map (fun e => "/"%char :: e) p.
Proof. exact (ordinary_uri p). Qed.
Print Assumptions C92_ordinary.
Example C92_ordinary_ex : file_uri [bs "a+b,c"; bs "x@1.teal"] = bs "file:///a+b,c/x@1.teal" /\ file_uri [bs "a?"] = bs "file:///a%3F".
Proof. split; reflexivity. Qed.

Definition work : node :=
  Dir [(bs "z.teal", File (Some (bs "int 1"))); (bs "b.teal", Dir [(bs "x y.teal", File (Some [])); (bs ".teal", File (Some []))] []);
       (bs "a.TEAL", File (Some [])); (bs "b", Dir [(bs "q.teal", File (Some (bs "bogus"))); (bs "q.teal.bak", File None)] [])] [].
Example C92_ex : listable work /\ proper work /\
  option_map (map fst) (scanned [bs "w"] (Itself work)) =
    Some [[bs "w"; bs "b"; bs "q.teal"]; [bs "w"; bs "b.teal"; bs ".teal"]; [bs "w"; bs "b.teal"; bs "x y.teal"]; [bs "w"; bs "z.teal"]] /\
  exists rp, scan_path env0 [bs "w"] (Itself work) = Ret (Some rp) /\
    rp_artifacts rp = [bs "file:///w/b/q.teal"; bs "file:///w/b.teal/.teal"; bs "file:///w/b.teal/x%20y.teal"; bs "file:///w/z.teal"].
Proof.
  split; [|split; [|split]].
  - apply ADir. intros name n I.
    repeat (destruct I as [I|I]; [injection I as <- <-; first [apply AFile | apply ADir; intros name n I;
      repeat (destruct I as [I|I]; [injection I as <- <-; apply AFile|]); destruct I]|]). destruct I.
  - assert (U : forall x (l : list str), existsb (seqb x) l = false -> ~ In x l).
    { intros x l E I. assert (X : existsb (seqb x) l = true) by (apply existsb_exists; exists x; split; [exact I|apply seqb_eq; reflexivity]). congruence. }
    apply PDir.
    + repeat (constructor; [apply U; reflexivity|]). constructor.
    + intros name n I.
      repeat (destruct I as [I|I]; [injection I as <- <-; split; [discriminate|]; split; [cbn; intuition discriminate|];
        first [apply PFile | apply PDir; [repeat (constructor; [apply U; reflexivity|]); constructor|];
          intros name n I; repeat (destruct I as [I|I]; [injection I as <- <-; split; [discriminate|]; split; [cbn; intuition discriminate|]; apply PFile|]);
          destruct I]|]). destruct I.
  - vm_compute. reflexivity.
  - destruct (scan_path env0 [bs "w"] (Itself work)) as [[rp|]| |] eqn:E; vm_compute in E; try discriminate.
    injection E as <-. eexists. split; reflexivity.
Qed.
