(** C130, C131, C132: the search for the native library. *)
From Coq Require Import String.
From Verif Require Import Base M_Loader S_Loader L_Loader.
Open Scope string_scope.

(** C130: on a machine where files can be made, read and written, using the library from Java links the one at the first place
    that has anything, and no other; if that one is not accepted, the class cannot be used. *)
Theorem C130_first E s l p l' e : rooted s -> untouched s -> works E -> free_names E s ->
  order = (l ++ p :: l')%list -> (forall q, In q l -> at_place E s q = None) -> at_place E s p = Some e ->
  exists s', s_err s' = s_err s /\
    if accepted E p e then load_class E s = (Val tt, s') /\ exists b, e = File b /\ s_loaded s' = (s_loaded s ++ [b])%list
    else load_class E s = (Raise LinkError, s') /\ s_loaded s' = s_loaded s.
Proof. exact (first E s l p l' e). Qed.
Print Assumptions C130_first.

(** C130: with nothing at any place there is a message and no exception. *)
Theorem C130_nowhere E s : rooted s -> untouched s -> works E -> free_names E s ->
  (forall q, In q order -> at_place E s q = None) ->
  exists s', load_class E s = (Val tt, s') /\ s_loaded s' = s_loaded s /\
    s_err s' = (s_err s ++ ["Failed to load native library"])%list.
Proof. exact (nowhere E s). Qed.
Print Assumptions C130_nowhere.

(** C130: on every machine, also where directories cannot be made or reads and writes fail at any time: either one library is
    linked, from one of the places, or none is and there is a message or an UnsatisfiedLinkError. *)
Theorem C130_once E s : rooted s -> untouched s ->
  exists r s', load_class E s = (r, s') /\
    (r = Val tt /\ s_loaded s' = s_loaded s /\ s_err s' = (s_err s ++ ["Failed to load native library"])%list \/
     (exists p b, In p order /\ at_place E s p = Some (File b) /\ accepted E p (File b) = true /\
        r = Val tt /\ s_loaded s' = (s_loaded s ++ [b])%list /\ s_err s' = s_err s) \/
     (exists p e, In p order /\ at_place E s p = Some e /\ accepted E p e = false /\
        r = Raise LinkError /\ s_loaded s' = s_loaded s /\ s_err s' = s_err s)).
Proof. exact (once E s). Qed.
Print Assumptions C130_once.

(** A machine for the examples: the jar has what [jar] says, libraries start with the byte 127, reads deliver up to two bytes. *)
Definition exE (jar : string -> option (list Z)) : env :=
  mkEnv None jar (fun b => match b with 127 :: _ => true | _ => false end) false "/tmp" (fun _ => "42")
    (fun _ => true) (fun _ => true) (fun _ => Some 2) (fun _ => true).
(** A process at its start. *)
Definition exS (files : list (string * entry)) : st := mkSt (("", Dir) :: ("/tmp", Dir) :: files) [] None None [] [] [] 0.
(** A jar with libraries for two processors. *)
Definition exJar (p : string) : option (list Z) :=
  if String.eqb p "/arm64-v8a/libJNIBoofCPP.so" then Some [64; 1; 2]
  else if String.eqb p "/armeabi-v7a/libJNIBoofCPP.so" then Some [127; 1; 2; 3; 4] else None.
(** A jar with the library for the second only. *)
Definition exJar7 (p : string) : option (list Z) :=
  if String.eqb p "/armeabi-v7a/libJNIBoofCPP.so" then Some [127; 1; 2; 3; 4] else None.

Lemma exS_rooted : rooted (exS []).
Proof.
  intros d q H. cbn [exS s_files look] in *.
  destruct (String.eqb_spec d ""); [discriminate|]. destruct (String.eqb_spec d "/tmp"); [discriminate|].
  destruct (String.eqb_spec (below d q) "") as [E|_]; [destruct d; discriminate|].
  destruct (String.eqb_spec (below d q) "/tmp") as [E|_]; [|reflexivity].
  exfalso. unfold below in E. do 5 (destruct d as [|? d]; [cbn in E; congruence|]; cbn in E; try discriminate; injection E as -> E).
Qed.
Lemma exS_untouched : untouched (exS []).
Proof. now repeat split. Qed.
Lemma exE_works jar : works (exE jar).
Proof. intros n. repeat split; discriminate. Qed.
Lemma exE_free jar : free_names (exE jar) (exS []).
Proof. intros n. reflexivity. Qed.

Example C130_ex :
  rooted (exS []) /\ untouched (exS []) /\ works (exE exJar7) /\ free_names (exE exJar7) (exS []) /\
  order = (firstn 13 order ++ InJar "/armeabi-v7a/libJNIBoofCPP.so" :: skipn 14 order)%list /\
  (forall q, In q (firstn 13 order) -> at_place (exE exJar7) (exS []) q = None) /\
  at_place (exE exJar7) (exS []) (InJar "/armeabi-v7a/libJNIBoofCPP.so") = Some (File [127; 1; 2; 3; 4]) /\
  s_loaded (snd (load_class (exE exJar7) (exS []))) = [[127; 1; 2; 3; 4]].
Proof.
  split; [exact exS_rooted|]. split; [exact exS_untouched|]. split; [exact (exE_works exJar7)|].
  split; [exact (exE_free exJar7)|]. split; [reflexivity|]. split; [|split; reflexivity].
  cbn [order firstn]. intros q Q. cbn [In] in Q.
  repeat destruct Q as [<-|Q]; try reflexivity. destruct Q.
Qed.

(** C130: a library that the machine would accept is not reached behind one that it does not: on a 32-bit ARM machine a jar
    with the libraries for both ARM processors cannot be used. *)
Theorem C130_fallback_refuted : exists E s p b, rooted s /\ untouched s /\ works E /\ free_names E s /\
  In p order /\ at_place E s p = Some (File b) /\ accepted E p (File b) = true /\
  fst (load_class E s) = Raise LinkError /\ s_loaded (snd (load_class E s)) = [].
Proof.
  exists (exE exJar), (exS []), (InJar "/armeabi-v7a/libJNIBoofCPP.so"), [127; 1; 2; 3; 4].
  split; [exact exS_rooted|]. split; [exact exS_untouched|]. split; [exact (exE_works exJar)|]. split; [exact (exE_free exJar)|].
  split; [cbn; auto 20|]. repeat split; reflexivity.
Qed.
Print Assumptions C130_fallback_refuted.

(** C131: whatever is called in whatever order on whatever machine, when the process has ended the file system is as it was. *)
Theorem C131_clean E s l p : rooted s -> untouched s -> look (s_files (leave (run_calls E l s))) p = look (s_files s) p.
Proof. exact (clean E s l p). Qed.
Print Assumptions C131_clean.

(** C131: until then only one directory in the directory for temporary files is touched. *)
Theorem C131_meanwhile E s l : rooted s -> untouched s ->
  exists n, forall p, let d := below (e_tmp E) ("boofcpplibs" ++ e_nano E n) in
    p <> d -> (forall f, p <> below d f) -> look (s_files (run_calls E l s)) p = look (s_files s) p.
Proof. exact (meanwhile E s l). Qed.
Print Assumptions C131_meanwhile.

(** C131: on a POSIX file system the copy of the library is gone as soon as it is linked. *)
Theorem C131_posix E s l : e_posix E = true -> rooted s -> untouched s ->
  exists n, forall p, p <> below (e_tmp E) ("boofcpplibs" ++ e_nano E n) ->
    look (s_files (run_calls E l s)) p = look (s_files s) p.
Proof. exact (meanwhile_posix E s l). Qed.
Print Assumptions C131_posix.

(** C131: no stream stays open. *)
Theorem C131_streams E s l : rooted s -> untouched s -> s_open (run_calls E l s) = [].
Proof. exact (closed_all E s l). Qed.
Print Assumptions C131_streams.

(** C131: every call ends. *)
Theorem C131_ends E s l c : rooted s -> untouched s -> fst (run_call E c (run_calls E l s)) <> Raise Stuck.
Proof. exact (ends E s l c). Qed.
Print Assumptions C131_ends.

Example C131_ex :
  rooted (exS []) /\ untouched (exS []) /\
  let s := run_calls (exE exJar7) [LoadClass; SetName "x"; FromJar "/arm64-v8a"] (exS []) in
  look (s_files s) "/tmp/boofcpplibs42/libJNIBoofCPP.so" = Some (File [127; 1; 2; 3; 4]) /\
  s_exit s = ["/tmp/boofcpplibs42"; "/tmp/boofcpplibs42/libJNIBoofCPP.so"] /\
  look (s_files (leave s)) "/tmp/boofcpplibs42" = None /\
  let P := mkEnv None exJar7 (fun b => match b with 127 :: _ => true | _ => false end) true "/tmp" (fun _ => "42")
    (fun _ => true) (fun _ => true) (fun _ => Some 2) (fun _ => true) in
  e_posix P = true /\ s_loaded (run_calls P [LoadClass] (exS [])) = [[127; 1; 2; 3; 4]] /\
  look (s_files (run_calls P [LoadClass] (exS []))) "/tmp/boofcpplibs42" = Some Dir.
Proof.
  split; [exact exS_rooted|]. split; [exact exS_untouched|]. do 5 (split; [reflexivity|]). reflexivity.
Qed.

(** C132: a copy is complete for all sizes of the pieces in which a stream is read; where a read or write fails there is an
    IOException; both streams are closed and no other file changes. *)
Theorem C132_copy E k b p s : look (s_files s) p <> Some Dir -> s_open s = [k] -> (k < s_clock s)%nat ->
  exists r s', copy E (Some (k, b)) p s = (r, s') /\ s_open s' = [] /\
    (forall q, q <> p -> look (s_files s') q = look (s_files s) q) /\
    (r = Val tt /\ look (s_files s') p = Some (File b) \/ r = Raise IOException /\ ~ works E).
Proof. exact (copy_all E k b p s). Qed.
Print Assumptions C132_copy.

(** C132: what is linked from a jar has the bytes of the resource with the name of the library in the directory asked for. *)
Theorem C132_bytes E s l path : rooted s -> untouched s ->
  let s1 := run_calls E l s in
  exists r s2, load_library_from_jar E path s1 = (r, s2) /\
    (s_loaded s2 = s_loaded s1 /\ r <> Val true \/
     exists name suffix d b, s_name s1 = name /\ In suffix [".so"; ".dll"; ".dylib"] /\ (d = path \/ d = path ++ "/") /\
       e_jar E (d ++ "lib" ++ (match name with Some n => n | None => "null" end) ++ suffix) = Some b /\
       e_links E b = true /\ r = Val true /\ s_loaded s2 = (s_loaded s1 ++ [b])%list).
Proof. exact (exact_bytes E s l path). Qed.
Print Assumptions C132_bytes.

Example C132_ex :
  rooted (exS []) /\ untouched (exS []) /\
  let s1 := run_calls (exE exJar7) [SetName "JNIBoofCPP"] (exS []) in
  let s2 := snd (load_library_from_jar (exE exJar7) "/armeabi-v7a" s1) in
  fst (load_library_from_jar (exE exJar7) "/armeabi-v7a" s1) = Val true /\ s_loaded s2 = [[127; 1; 2; 3; 4]] /\
  let s3 := mkSt [] [] None None [] [0%nat] [] 1 in
  look (s_files (snd (copy (exE exJar7) (Some (0%nat, [5; 6; 7])) "f" s3))) "f" = Some (File [5; 6; 7]).
Proof.
  split; [exact exS_rooted|]. split; [exact exS_untouched|]. split; [|split]; reflexivity.
Qed.
