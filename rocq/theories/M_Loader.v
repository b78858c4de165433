(** Model of the search for the native library: NativeUtils.java and the static initializer of BoofCPP.java (paths below are
    relative to boofcpp-jni/src/main/java).  Java's exceptions carry the state in which they are raised.  No proofs.

    Simplified: other threads and processes change nothing; [close] does not fail; no SecurityException; [System.loadLibrary]
    either links the library or raises the UnsatisfiedLinkError that is ignored at once. *)
From Coq Require Import String Ascii.
From Verif Require Import Base.
Open Scope string_scope.

(** The text of a path in front of the text [q] (cz/adamh/utils/NativeUtils.java:72, 146 [new File(path,n)], for paths that do not
    end in '/'). *)
Definition below (d q : string) : string := d ++ "/" ++ q.

(** What a path of the file system leads to (NativeUtils.java:73 [f.exists()]). *)
Inductive entry := File (b : list Z) | Dir.

(** The machine.  Everything that may go either way is decided by the number of such decisions so far:
    [e_library] the library that [System.loadLibrary] finds (org/boofcpp/BoofCPP.java:23), [e_jar] the resources
    (NativeUtils.java:148), [e_links] whether [System.load] accepts a file with these bytes (NativeUtils.java:74, 159),
    [e_posix] NativeUtils.java:189-202, [e_tmp] the property java.io.tmpdir (NativeUtils.java:206), [e_nano] the digits of
    [System.nanoTime] (NativeUtils.java:207), [e_mkdir] whether [mkdir] succeeds (NativeUtils.java:209), [e_create] whether
    [new FileOutputStream] does (NativeUtils.java:173), [e_read] how many bytes a read would like to deliver or that it raises
    an IOException (NativeUtils.java:178), [e_write] whether a write succeeds (NativeUtils.java:179). *)
Record env := mkEnv {
  e_library : option (list Z); e_jar : string -> option (list Z); e_links : list Z -> bool; e_posix : bool; e_tmp : string;
  e_nano : nat -> string; e_mkdir : nat -> bool; e_create : nat -> bool; e_read : nat -> option Z; e_write : nat -> bool }.

(** The process: the file system, the paths registered with [deleteOnExit] in their order, the static fields [temporaryDir] and
    [LIBRARY_NAME] (NativeUtils.java:44, 54), the libraries linked so far, the open streams, the lines on the error output and
    the number of decisions of the machine so far. *)
Record st := mkSt {
  s_files : list (string * entry); s_exit : list string; s_dir : option string; s_name : option string;
  s_loaded : list (list Z); s_open : list nat; s_err : list string; s_clock : nat }.

(** The file system changes (NativeUtils.java:151, 173, 179, 209). *)
Definition with_files f s := mkSt f (s_exit s) (s_dir s) (s_name s) (s_loaded s) (s_open s) (s_err s) (s_clock s).
(** The registered paths change (NativeUtils.java:143, 166). *)
Definition with_exit x s := mkSt (s_files s) x (s_dir s) (s_name s) (s_loaded s) (s_open s) (s_err s) (s_clock s).
(** [temporaryDir = ...] (NativeUtils.java:142). *)
Definition with_dir d s := mkSt (s_files s) (s_exit s) d (s_name s) (s_loaded s) (s_open s) (s_err s) (s_clock s).
(** [LIBRARY_NAME = ...] (NativeUtils.java:63). *)
Definition with_name n s := mkSt (s_files s) (s_exit s) (s_dir s) n (s_loaded s) (s_open s) (s_err s) (s_clock s).
(** A library is linked (NativeUtils.java:74, 159). *)
Definition with_loaded l s := mkSt (s_files s) (s_exit s) (s_dir s) (s_name s) l (s_open s) (s_err s) (s_clock s).
(** A stream is opened or closed (NativeUtils.java:148, 173, 182, 185). *)
Definition with_open o s := mkSt (s_files s) (s_exit s) (s_dir s) (s_name s) (s_loaded s) o (s_err s) (s_clock s).
(** A line on the error output (org/boofcpp/BoofCPP.java:37, 39). *)
Definition with_err e s := mkSt (s_files s) (s_exit s) (s_dir s) (s_name s) (s_loaded s) (s_open s) e (s_clock s).
(** A decision of the machine (NativeUtils.java:173-179, 207-209). *)
Definition with_clock c s := mkSt (s_files s) (s_exit s) (s_dir s) (s_name s) (s_loaded s) (s_open s) (s_err s) c.

(** The exceptions and errors of NativeUtils.java:125-169.  [Stuck] is fuel that ran out. *)
Inductive ex := IOException | NullPointer | IllegalArgument | IndexOutOfBounds | LinkError | Stuck.
(** What a statement ends with (NativeUtils.java:125-169). *)
Inductive res (A : Type) := Val (a : A) | Raise (e : ex).
Arguments Val {A} a.
Arguments Raise {A} e.
(** A statement of Java (NativeUtils.java:125-169). *)
Definition J (A : Type) : Type := st -> res A * st.
(** [return] (NativeUtils.java:92). *)
Definition jret {A} (a : A) : J A := fun s => (Val a, s).
(** [throw] (NativeUtils.java:128, 152). *)
Definition jraise {A} (e : ex) : J A := fun s => (Raise e, s).
(** Statement after statement (NativeUtils.java:91-92). *)
Definition jbind {A B} (m : J A) (k : A -> J B) : J B :=
  fun s => match m s with (Val a, s) => k a s | (Raise e, s) => (Raise e, s) end.
Notation "'jlet' x ':=' m 'in' k" := (jbind m (fun x => k)) (at level 200, x name, m at level 100, k at level 200).
(** [try { m } catch] (NativeUtils.java:148-156). *)
Definition jtry {A} (m : J A) (h : ex -> J A) : J A :=
  fun s => match m s with (Val a, s) => (Val a, s) | (Raise e, s) => h e s end.
(** [try { m } finally { f }], where an exception of [f] hides one of [m] (NativeUtils.java:158-168, 172-186). *)
Definition jfinally {A} (m : J A) (f : J unit) : J A :=
  fun s => match m s with (r, s) => match f s with (Val _, s) => (r, s) | (Raise e, s) => (Raise e, s) end end.
(** A change of the process (NativeUtils.java:63). *)
Definition jdo (f : st -> st) : J unit := fun s => (Val tt, f s).
(** A look at the process (NativeUtils.java:67, 73). *)
Definition jget {A} (f : st -> A) : J A := fun s => (Val (f s), s).
(** The number of the next decision of the machine (NativeUtils.java:173-179, 204-213). *)
Definition tick : J nat := fun s => (Val (s_clock s), with_clock (S (s_clock s)) s).

(** What is at a path (NativeUtils.java:73 [exists]). *)
Fixpoint look (f : list (string * entry)) (p : string) : option entry :=
  match f with
  | [] => None
  | (q, e) :: f => if String.eqb p q then Some e else look f p
  end.
(** Everything but one path (NativeUtils.java:151). *)
Definition drop (f : list (string * entry)) (p : string) : list (string * entry) :=
  filter (fun qe => negb (String.eqb p (fst qe))) f.
(** One path changed (NativeUtils.java:173, 179, 209). *)
Definition put (f : list (string * entry)) (p : string) (e : entry) : list (string * entry) := (p, e) :: drop f p.
(** Nothing is below a directory (NativeUtils.java:143). *)
Definition hollow (f : list (string * entry)) (d : string) : bool :=
  forallb (fun qe => negb (String.prefix (below d "") (fst qe))) f.
(** [File.delete] (NativeUtils.java:151, 154, 163); a directory is deleted only if nothing is below it. *)
Definition delete (p : string) (s : st) : st :=
  match look (s_files s) p with
  | Some Dir => if hollow (s_files s) p then with_files (drop (s_files s) p) s else s
  | Some (File _) => with_files (drop (s_files s) p) s
  | None => s
  end.
(** [File.deleteOnExit] keeps a path once, at its first position (NativeUtils.java:143, 166). *)
Definition delete_on_exit (p : string) (s : st) : st :=
  if existsb (String.eqb p) (s_exit s) then s else with_exit (s_exit s ++ [p])%list s.
(** The end of the process: what is registered is deleted, the last one first (NativeUtils.java:143, 166). *)
Definition leave (s : st) : st := with_exit [] (fold_right delete s (s_exit s)).

(** [System.load] (NativeUtils.java:74, 159). *)
Definition system_load (E : env) (p : string) : J unit := fun s =>
  match look (s_files s) p with
  | Some (File b) => if e_links E b then (Val tt, with_loaded (s_loaded s ++ [b])%list s) else (Raise LinkError, s)
  | _ => (Raise LinkError, s)
  end.
(** [System.loadLibrary] with the catch around it (org/boofcpp/BoofCPP.java:22-25). *)
Definition system_library (E : env) : J bool := fun s =>
  match e_library E with
  | Some b => (Val true, with_loaded (s_loaded s ++ [b])%list s)
  | None => (Val false, s)
  end.

(** NativeUtils.java:62-64 [setLibraryName]. *)
Definition set_library_name (n : string) : J unit := jdo (with_name (Some n)).

(** NativeUtils.java:66-68 [getFullNames]; a field that was never set prints as null. *)
Definition get_full_names : J (list string) :=
  jget (fun s => let n := match s_name s with Some n => n | None => "null" end in
                 ["lib" ++ n ++ ".so"; "lib" ++ n ++ ".dll"; "lib" ++ n ++ ".dylib"]).

(** NativeUtils.java:71-78, the loop of [loadLocalPath]. *)
Fixpoint local_names (E : env) (path : string) (l : list string) : J bool :=
  match l with
  | [] => jret false
  | n :: l =>
      jlet there := jget (fun s => match look (s_files s) (below path n) with Some _ => true | None => false end) in
      if there : bool then jlet _ := system_load E (below path n) in jret true else local_names E path l
  end.
(** NativeUtils.java:70-79 [loadLocalPath]. *)
Definition load_local_path (E : env) (path : string) : J bool :=
  jlet names := get_full_names in local_names E path names.

(** An open input stream: its number and the bytes still to come (NativeUtils.java:148). *)
Definition stream : Type := nat * list Z.
(** [close]; closing twice does nothing (NativeUtils.java:182, 185). *)
Definition close_id (i : nat) : J unit := jdo (fun s => with_open (filter (fun k => negb (Nat.eqb i k)) (s_open s)) s).
(** [getResourceAsStream]; no resource is null (NativeUtils.java:148). *)
Definition open_resource (E : env) (p : string) : J (option stream) :=
  match e_jar E p with
  | None => jret None
  | Some b => jlet i := tick in jlet _ := jdo (fun s => with_open (i :: s_open s) s) in jret (Some (i, b))
  end.
(** [new FileOutputStream(dst)] makes an empty file (NativeUtils.java:173). *)
Definition open_file (E : env) (p : string) : J nat :=
  jlet i := tick in
  jlet e := jget (fun s => look (s_files s) p) in
  match e with
  | Some Dir => jraise IOException
  | _ => if e_create E i
         then jlet _ := jdo (fun s => with_open (i :: s_open s) (with_files (put (s_files s) p (File [])) s)) in jret i
         else jraise IOException
  end.
(** [out.write] at the end of the file (NativeUtils.java:179). *)
Definition append (p : string) (b : list Z) (s : st) : st :=
  with_files (put (s_files s) p (File (match look (s_files s) p with Some (File a) => a ++ b | _ => b end)%list)) s.

(** NativeUtils.java:175-180, the loop of [copy]: a read delivers at least one byte, at most 1024 and at most what is left. *)
Fixpoint pump (E : env) (fuel : nat) (p : string) (b : list Z) : J unit :=
  match fuel with
  | O => jraise Stuck
  | S fuel =>
      jlet i := tick in
      match e_read E i with
      | None => jraise IOException
      | Some want =>
          match b with
          | [] => jret tt
          | _ =>
              let n := Z.to_nat (Z.max 1 (Z.min want (Z.min 1024 (zlen b)))) in
              jlet j := tick in
              if e_write E j then jlet _ := jdo (append p (firstn n b)) in pump E fuel p (skipn n b)
              else jraise IOException
          end
      end
  end.

(** NativeUtils.java:171-187 [copy].  The null that stands for no resource can be neither read nor closed. *)
Definition copy (E : env) (i : option stream) (dst : string) : J unit :=
  jfinally
    (jlet o := open_file E dst in
     jfinally
       match i with None => jraise NullPointer | Some (_, b) => pump E (S (length b)) dst b end
       (close_id o))
    match i with None => jraise NullPointer | Some (k, _) => close_id k end.

(** NativeUtils.java:204-213 [createTempDirectory]. *)
Definition create_temp_directory (E : env) (prefix : string) : J string :=
  jlet i := tick in
  let d := below (e_tmp E) (prefix ++ e_nano E i) in
  jlet e := jget (fun s => look (s_files s) d) in
  match e with
  | Some _ => jraise IOException
  | None => if e_mkdir E i then jlet _ := jdo (fun s => with_files (put (s_files s) d Dir) s) in jret d
            else jraise IOException
  end.

(** The texts between the slashes (NativeUtils.java:132 [split]). *)
Fixpoint split_all (t : string) : list string :=
  match t with
  | EmptyString => [""]
  | String c t =>
      if Ascii.eqb c "/" then "" :: split_all t
      else match split_all t with
           | [] => [String c ""]
           | w :: l => String c w :: l
           end
  end.
(** Without the empty texts at the end (NativeUtils.java:132 [split]). *)
Fixpoint drop_empty (l : list string) : list string :=
  match l with
  | [] => []
  | w :: l => match drop_empty l with
              | [] => if String.eqb w "" then [] else [w]
              | l => w :: l
              end
  end.
(** [String.split("/")] (NativeUtils.java:132); a text without a slash is its own only part. *)
Definition split_slash (t : string) : list string :=
  match split_all t with [w] => [w] | l => drop_empty l end.

(** NativeUtils.java:125-169 [_loadLibraryFromJar]. *)
Definition load_from_jar (E : env) (path : string) : J unit :=
  if negb (String.prefix "/" path) then jraise IllegalArgument else
  let parts := split_slash path in
  let filename := if Nat.ltb 1 (length parts) then Some (last parts "") else None in
  match filename with
  | None => jraise IllegalArgument
  | Some filename =>
      if Nat.ltb (String.length filename) 3 then jraise IllegalArgument else
      jlet known := jget s_dir in
      jlet d := match known with
                | Some d => jret d
                | None => jlet d := create_temp_directory E "boofcpplibs" in
                          jlet _ := jdo (with_dir (Some d)) in
                          jlet _ := jdo (delete_on_exit d) in jret d
                end in
      let temp := below d filename in
      jlet _ := jtry
        (jlet is := open_resource E path in
         jfinally (copy E is temp) match is with None => jret tt | Some (k, _) => close_id k end)
        (fun e => match e with
                  | IOException => jlet _ := jdo (delete temp) in jraise IOException
                  | NullPointer => jlet _ := jdo (delete temp) in jraise IOException
                  | e => jraise e
                  end) in
      jfinally (system_load E temp) (if e_posix E then jdo (delete temp) else jdo (delete_on_exit temp))
  end.

(** NativeUtils.java:89-95, the loop of [loadLibraryFromJar]. *)
Fixpoint jar_names (E : env) (path : string) (l : list string) : J bool :=
  match l with
  | [] => jret false
  | n :: l =>
      jtry (jlet _ := load_from_jar E (path ++ n) in jret true)
           (fun e => match e with IOException => jar_names E path l | e => jraise e end)
  end.
(** NativeUtils.java:81-96 [loadLibraryFromJar]. *)
Definition load_library_from_jar (E : env) (path : string) : J bool :=
  match String.get (String.length path - 1) path with
  | None => jraise IndexOutOfBounds
  | Some c =>
      let path := if Ascii.eqb c "/" then path else path ++ "/" in
      jlet names := get_full_names in
      jar_names E path names
  end.

(** [success = success || m] (org/boofcpp/BoofCPP.java:30-34). *)
Definition or_else (b : bool) (m : J bool) : J bool := if b then jret true else m.

(** org/boofcpp/BoofCPP.java:19-41, the static initializer.  An [Error] is no [Exception]: it leaves the initializer. *)
Definition load_class (E : env) : J unit :=
  jlet ok := system_library E in
  jtry
    (jlet _ := set_library_name "JNIBoofCPP" in
     jlet ok := or_else ok (load_local_path E "build/boofcpp-jni") in
     jlet ok := or_else ok (load_local_path E "../build/boofcpp-jni") in
     jlet ok := or_else ok (load_library_from_jar E "/") in
     jlet ok := or_else ok (load_library_from_jar E "/arm64-v8a") in
     jlet ok := or_else ok (load_library_from_jar E "/armeabi-v7a") in
     if ok then jret tt else jdo (fun s => with_err (s_err s ++ ["Failed to load native library"])%list s))
    (fun e => match e with
              | LinkError => jraise LinkError
              | Stuck => jraise Stuck
              | _ => jdo (fun s => with_err (s_err s ++ ["stack trace"])%list s)
              end).

(** What other code may call (NativeUtils.java:62, 70, 81; org/boofcpp/BoofCPP.java:46). *)
Inductive call := SetName (n : string) | Local (path : string) | FromJar (path : string) | LoadClass.
(** One call (NativeUtils.java:62, 70, 81; org/boofcpp/BoofCPP.java:46). *)
Definition run_call (E : env) (c : call) (s : st) : res unit * st :=
  match c with
  | SetName n => set_library_name n s
  | Local p => (jlet _ := load_local_path E p in jret tt) s
  | FromJar p => (jlet _ := load_library_from_jar E p in jret tt) s
  | LoadClass => load_class E s
  end.
(** One call after the other; whatever is raised, the process goes on (NativeUtils.java:62, 70, 81). *)
Fixpoint run_calls (E : env) (l : list call) (s : st) : st :=
  match l with
  | [] => s
  | c :: l => run_calls E l (snd (run_call E c s))
  end.
