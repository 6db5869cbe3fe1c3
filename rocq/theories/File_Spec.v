(** Specification for the file functions: what is in the tree, and which place a path names. *)
From Verif Require Import Base File_Model.

(** What is seen at a place: nothing, a directory, or a file with its contents. *)
Inductive seen := Nothing | ADir | AFile (data : str).
Definition view (t : node) (p : list str) : seen :=
  match lookup t p with None => Nothing | Some (Dir _) => ADir | Some (File s) => AFile s end.
(** A name of a file: not empty, not "." or "..", without slashes. *)
Definition is_name (n : str) : Prop :=
  n <> [] /\ n <> s_ "." /\ n <> s_ ".." /\ ~ In "/"%char n.
Definition slashes (s : str) : Prop := s <> [] /\ Forall (eq "/"%char) s.
(** A relative path that spells the names [l]: names separated by one or more slashes, with "."
    in front or between. *)
Inductive spells : str -> list str -> Prop :=
| spells_name n : is_name n -> spells n [n]
| spells_more n s r l : is_name n -> slashes s -> spells r l -> spells (n ++ s ++ r) (n :: l)
| spells_dot s r l : slashes s -> spells r l -> spells (s_ "." ++ s ++ r) l.
(** The place that a path names, seen from a working directory. *)
Definition names (cwd : list str) (p : str) (q : list str) : Prop :=
  (exists l, spells p l /\ q = cwd ++ l) \/
  (exists s r, p = s ++ r /\ slashes s /\ spells r q).
Definition prefix (p q : list str) : Prop := exists r, q = p ++ r.

(** The sum of the sizes of the files below, not counting what is hidden: files and
    directories whose names begin with a dot. *)
Definition hidden (n : str) : Prop := exists r, n = "."%char :: r.
Inductive total : node -> nat -> Prop :=
| total_file s : total (File s) (length s)
| total_none : total (Dir []) 0
| total_hidden n x l k : hidden n -> total (Dir l) k -> total (Dir ((n, x) :: l)) k
| total_more n x l j k : ~ hidden n -> total x j -> total (Dir l) k -> total (Dir ((n, x) :: l)) (j + k).
(** A tree as file systems have it: names that are names, each once in a directory. *)
Inductive proper : node -> Prop :=
| proper_file s : proper (File s)
| proper_dir l : (forall n x, In (n, x) l -> is_name n /\ proper x) -> NoDup (map fst l) -> proper (Dir l).
(** At most [k] directories deep. *)
Inductive depth : nat -> node -> Prop :=
| depth_file k s : depth k (File s)
| depth_dir k l : (forall n x, In (n, x) l -> depth k x) -> depth (S k) (Dir l).
