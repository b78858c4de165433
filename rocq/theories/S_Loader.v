(** What the search for the native library is about: where a library may be, which place is meant, and what the process
    leaves behind. *)
From Coq Require Import String.
From Verif Require Import Base M_Loader.
Open Scope string_scope.

(** The places, the first that has a library counts. *)
Inductive place := Installed | OnDisk (p : string) | InJar (p : string).
Definition order : list place :=
  [ Installed;
    OnDisk "build/boofcpp-jni/libJNIBoofCPP.so"; OnDisk "build/boofcpp-jni/libJNIBoofCPP.dll";
    OnDisk "build/boofcpp-jni/libJNIBoofCPP.dylib";
    OnDisk "../build/boofcpp-jni/libJNIBoofCPP.so"; OnDisk "../build/boofcpp-jni/libJNIBoofCPP.dll";
    OnDisk "../build/boofcpp-jni/libJNIBoofCPP.dylib";
    InJar "/libJNIBoofCPP.so"; InJar "/libJNIBoofCPP.dll"; InJar "/libJNIBoofCPP.dylib";
    InJar "/arm64-v8a/libJNIBoofCPP.so"; InJar "/arm64-v8a/libJNIBoofCPP.dll"; InJar "/arm64-v8a/libJNIBoofCPP.dylib";
    InJar "/armeabi-v7a/libJNIBoofCPP.so"; InJar "/armeabi-v7a/libJNIBoofCPP.dll"; InJar "/armeabi-v7a/libJNIBoofCPP.dylib" ].

(** What is at a place: nothing, a directory or a file with these bytes. *)
Definition at_place (E : env) (s : st) (p : place) : option entry :=
  match p with
  | Installed => match e_library E with Some b => Some (File b) | None => None end
  | OnDisk p => look (s_files s) p
  | InJar p => match e_jar E p with Some b => Some (File b) | None => None end
  end.
(** The machine accepts it as a library.  What [System.loadLibrary] finds it has accepted. *)
Definition accepted (E : env) (p : place) (e : entry) : bool :=
  match p, e with
  | Installed, _ => true
  | _, File b => e_links E b
  | _, Dir => false
  end.

(** Nothing exists below a path where nothing exists. *)
Definition rooted (s : st) : Prop := forall d q, look (s_files s) d = None -> look (s_files s) (below d q) = None.
(** The process has not been here before. *)
Definition untouched (s : st) : Prop := s_dir s = None /\ s_exit s = [] /\ s_open s = [].
(** Directories and files can be made, read and written. *)
Definition works (E : env) : Prop :=
  forall n, e_mkdir E n = true /\ e_create E n = true /\ e_read E n <> None /\ e_write E n = true.
(** The names for directories that come from the clock are not in use. *)
Definition free_names (E : env) (s : st) : Prop :=
  forall n, look (s_files s) (below (e_tmp E) ("boofcpplibs" ++ e_nano E n)) = None.
