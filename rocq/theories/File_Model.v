(** Model of /repo/src/utils/fileutil.cc and the parts of /repo/src/utils/file.cc it uses, over a
    model of the file system.

    The file system is a tree of directories and regular files; symbolic links, mount points,
    permissions and limits on the length of names are not modelled other than by the system
    calls that fail for reasons of their own ([exec] below). File sizes are not bounded. *)
From Verif Require Import Base Str_Model.

(* ---------------- the operating system (POSIX) ---------------- *)
Inductive node := File (data : str) | Dir (entries : list (str * node)).
Fixpoint child (n : str) (l : list (str * node)) : option node :=
  match l with [] => None | (m, x) :: r => if str_eqb n m then Some x else child n r end.
(** The object at the end of a list of names from the root. *)
Fixpoint lookup (t : node) (p : list str) : option node :=
  match p with
  | [] => Some t
  | n :: r => match t with
              | Dir l => match child n l with Some c => lookup c r | None => None end
              | File _ => None
              end
  end.
(** A new, empty directory [n] in the directory at [p]. *)
Fixpoint add_child (n : str) (f : node -> node) (l : list (str * node)) : list (str * node) :=
  match l with [] => [] | (m, x) :: r => if str_eqb n m then (m, f x) :: r else (m, x) :: add_child n f r end.
Fixpoint add_dir (p : list str) (n : str) (t : node) : node :=
  match t, p with
  | Dir l, [] => Dir (l ++ [(n, Dir [])])
  | Dir l, m :: r => Dir (add_child m (add_dir r n) l)
  | File _, _ => t
  end.

(** Pathname resolution (IEEE Std 1003.1, 4.13) without symbolic links: the parts between the
    slashes. *)
Fixpoint components (p : str) : list str :=
  match p with
  | [] => [[]]
  | c :: r => if Ascii.eqb c "/" then [] :: components r
              else match components r with [] => [[c]] | w :: l => (c :: w) :: l end
  end.
Inductive place := At (p : list str) | NoEnt | NotDir.
Definition skips (c : str) : bool := str_eqb c [] || str_eqb c (s_ ".").
Fixpoint walk (t : node) (cur : list str) (cs : list str) : place :=
  match cs with
  | [] => At cur
  | c :: r =>
      match lookup t cur with
      | Some (Dir _) =>
          if skips c then walk t cur r
          else if str_eqb c (s_ "..") then walk t (removelast cur) r
          else match lookup t (cur ++ [c]) with Some _ => walk t (cur ++ [c]) r | None => NoEnt end
      | Some (File _) => NotDir
      | None => NoEnt
      end
  end.
(** Where a path starts: at the root, or at the working directory. *)
Definition start (cwd : list str) (p : str) : list str :=
  match p with c :: _ => if Ascii.eqb c "/" then [] else cwd | [] => cwd end.
Definition resolve (t : node) (cwd : list str) (p : str) : place :=
  match p with [] => NoEnt | _ => walk t (start cwd p) (components p) end.
(** stat(2). *)
Inductive stat_result := IsDir | IsFile (size : nat) | Missing | Failed.
Definition sys_stat (t : node) (cwd : list str) (p : str) : stat_result :=
  match resolve t cwd p with
  | At q => match lookup t q with Some (Dir _) => IsDir | Some (File s) => IsFile (length s) | None => Missing end
  | NoEnt => Missing
  | NotDir => Failed
  end.
(** mkdir(2): slashes at the end do not count; "." and ".." exist. *)
Fixpoint drop_empty (l : list str) : list str :=
  match l with [] => [] | c :: r => if str_eqb c [] then drop_empty r else l end.
Definition sys_mkdir (t : node) (cwd : list str) (p : str) : option node :=
  match drop_empty (rev (components p)) with
  | [] => None
  | n :: before =>
      match walk t (start cwd p) (rev before) with
      | At q =>
          match lookup t q with
          | Some (Dir _) =>
              if str_eqb n (s_ ".") || str_eqb n (s_ "..") then None
              else match lookup t (q ++ [n]) with Some _ => None | None => Some (add_dir q n t) end
          | _ => None
          end
      | _ => None
      end
  end.

(* ---------------- programs that make system calls ---------------- *)
Inductive prog (A : Type) :=
| Done (a : A)
| Raise
| Stat (p : str) (k : stat_result -> prog A)
| MkDir (p : str) (k : bool -> prog A).
Arguments Done {A}. Arguments Raise {A}. Arguments Stat {A}. Arguments MkDir {A}.
(** An execution among other processes: before its i-th system call the others change the file
    system by [others i], and the call fails for another reason (a limit, permissions, an
    error of the disk) if [fails i]. What the program returns, and the file system then. *)
Fixpoint exec {A} (cwd : list str) (others : nat -> node -> node) (fails : nat -> bool)
    (i : nat) (t : node) (p : prog A) : outcome A * node :=
  match p with
  | Done a => (Ret a, t)
  | Raise => (Throw, t)
  | Stat q k => let t := others i t in
                exec cwd others fails (S i) t (k (if fails i then Failed else sys_stat t cwd q))
  | MkDir q k => let t := others i t in
                 match (if fails i then None else sys_mkdir t cwd q) with
                 | Some t' => exec cwd others fails (S i) t' (k true)
                 | None => exec cwd others fails (S i) t (k false)
                 end
  end.
(** Alone and without failures. *)
Definition alone {A} (cwd : list str) (t : node) (p : prog A) : outcome A * node :=
  exec cwd (fun _ t => t) (fun _ => false) 0 t p.

(* ---------------- fileutil.cc ---------------- *)
(** FileUtil::mkdir, fileutil.cc:30-34. *)
Definition fu_mkdir {A} (p : str) (k : prog A) : prog A := MkDir p (fun ok => if ok then k else Raise).
(** FileUtil::exists, fileutil.cc:36-48. *)
Definition fu_exists {A} (p : str) (k : bool -> prog A) : prog A :=
  Stat p (fun r => match r with Missing => k false | Failed => Raise | IsDir | IsFile _ => k true end).
(** FileUtil::isDirectory, fileutil.cc:50-58. *)
Definition fu_is_directory {A} (p : str) (k : bool -> prog A) : prog A :=
  Stat p (fun r => match r with IsDir => k true | IsFile _ => k false | _ => Raise end).
(** The body of the loop in mkdir_p, fileutil.cc:88-104. *)
Definition ensure {A} (p : str) (k : prog A) : prog A :=
  fu_exists p (fun e => if e then fu_is_directory p (fun dir => if dir then k else Raise)
                        else fu_mkdir p k).
(** The loop, fileutil.cc:88-104: [before] is what lies between begin and cur. *)
Fixpoint each_slash {A} (before rest : str) (k : prog A) : prog A :=
  match rest with
  | [] => k
  | c :: r => if Ascii.eqb c "/" then ensure before (each_slash (before ++ [c]) r k)
              else each_slash (before ++ [c]) r k
  end.
(** fileutil.cc:86. *)
Fixpoint leading (p : str) : str * str :=
  match p with
  | c :: r => if Ascii.eqb c "/" then let '(a, b) := leading r in (c :: a, b) else ([], p)
  | [] => ([], [])
  end.
(** FileUtil::mkdir_p, fileutil.cc:71-107; the text of the path up to a zero byte. *)
Definition mkdir_p (p : str) : prog unit :=
  fu_exists p (fun e =>
    if e then fu_is_directory p (fun dir => if dir then Done tt else Raise)
    else let '(a, b) := leading p in each_slash a b (fu_mkdir p (Done tt))).

(** FileUtil::joinPaths, fileutil.cc:109-115. *)
Definition join_paths (p1 p2 : str) : outcome str :=
  let* a := strip_trailing_slashes p1 in
  let* b := strip_trailing_slashes p2 in
  Ret (a ++ s_ "/" ++ b).

Section Files.
  Variable t : node.
  Variable cwd : list str.

  (** FileUtil::ls, fileutil.cc:117-157, without other processes: the names passed to the
      callback, which says whether to go on; the order is that of readdir, i.e. of the
      entries. readdir also yields "." and "..", they are skipped like all names that begin
      with a dot. *)
  Definition visible (n : str) : bool := match n with [] => false | c :: _ => negb (Ascii.eqb c ".") end.
  Fixpoint until {A} (f : str -> A -> outcome (A * bool)) (l : list str) (a : A) : outcome A :=
    match l with
    | [] => Ret a
    | n :: r => if visible n then let* (a, go) := f n a in if go then until f r a else Ret a else until f r a
    end.
  Definition ls {A} (p : str) (f : str -> A -> outcome (A * bool)) (a : A) : outcome A :=
    match sys_stat t cwd p, resolve t cwd p with
    | IsDir, At q => match lookup t q with Some (Dir l) => until f (map fst l) a | _ => Throw end
    | _, _ => Throw
    end.
  (** FileUtil::isDirectory and FileUtil::size, fileutil.cc:50-68; the size of a directory is not
      asked for. *)
  Definition is_directory (p : str) : outcome bool :=
    match sys_stat t cwd p with IsDir => Ret true | IsFile _ => Ret false | _ => Throw end.
  Definition file_size (p : str) : outcome nat :=
    match sys_stat t cwd p with IsFile n => Ret n | _ => Throw end.
  (** FileUtil::du_c, fileutil.cc:194-210; [fuel] bounds the depth. A size_t does not wrap here. *)
  Fixpoint du_c (fuel : nat) (p : str) : outcome nat :=
    match fuel with
    | O => Diverge
    | S k =>
        ls p (fun n total =>
                let* name := join_paths p n in
                let* dir := is_directory name in
                let* s := if dir then du_c k name else file_size name in
                Ret (total + s, true)) 0
    end.
  (** FileUtil::read, fileutil.cc:175-180, with File::size and File::read, file.cc:94-102 and
      :110-122: [delivers] bytes are delivered by the only read(2), the rest of the buffer
      (malloc, /repo/src/utils/buffer.cc:36-46) is indeterminate: None. *)
  Definition fu_read (delivers : nat -> nat) (p : str) : outcome (list (option ascii)) :=
    match resolve t cwd p with
    | At q => match lookup t q with
              | Some (File s) =>
                  let n := Nat.min (delivers (length s)) (length s) in
                  Ret (map Some (firstn n s) ++ repeat None (length s - n))
              | _ => Throw
              end
    | _ => Throw
    end.
End Files.

(** FileUtil::rm, fileutil.cc:159-161: the result of unlink(2) is not looked at. [unlink_at]:
    the tree without the file at [p]. *)
Fixpoint remove_child (n : str) (l : list (str * node)) : list (str * node) :=
  match l with [] => [] | (m, x) :: r => if str_eqb n m then r else (m, x) :: remove_child n r end.
Fixpoint unlink_at (p : list str) (t : node) : node :=
  match t, p with
  | Dir l, [n] => Dir (remove_child n l)
  | Dir l, m :: r => Dir (add_child m (unlink_at r) l)
  | _, _ => t
  end.
Definition sys_unlink (t : node) (cwd : list str) (p : str) : option node :=
  match resolve t cwd p with
  | At q => match lookup t q with Some (File _) => Some (unlink_at q t) | _ => None end
  | _ => None
  end.
Definition rm (t : node) (cwd : list str) (p : str) : node :=
  match sys_unlink t cwd p with Some t' => t' | None => t end.
