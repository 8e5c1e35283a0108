(** * Model of the downloaded datasets (datasets/_adult.py, _amazon.py, _bank.py, _car.py, _default_cb.py,
      _epsilon.py, _higgs.py, _internet.py, _kick.py, _utils.py)

    A call is a program which does one operation on the file system at a time, so that it can
    be interrupted, or interleaved with other calls, between two operations. Contents are lists
    of blocks. Two simplifications: a file is read in one operation, and what [pd.read_csv]
    makes of the contents is not modelled (a truncated gzip file makes it raise EOFError): the
    result of a call is the contents of the files which are given to it. *)

Require Import String List Arith Bool.
Require Import Verif.Base.
Import ListNotations.
Local Notation length := List.length.

Definition path := string.
Definition content := list nat.
(** A directory is an entry without blocks. *)
Definition fs := path -> option content.
Definition upd (s : fs) (p : path) (c : option content) : fs := fun q => if String.eqb q p then c else s q.

(** Exceptions: FileNotFoundError, FileExistsError, the OSError of a wrong checksum, and those of
    the conversion. *)
Inductive exn : Type := NotFound | AlreadyExists | BadChecksum | BadData.

Inductive prog : Type :=
| Ret (data : list content)
| Raise (e : exn)
| Exists (p : path) (k : bool -> prog)           (* os.path.exists *)
| Mkdir (p : path) (k : bool -> prog)            (* os.makedirs: false if it exists *)
| Open (p : path) (k : prog)                     (* open for writing: the file is emptied *)
| Write (p : path) (i : nat) (b : nat) (k : prog) (* block [b] at offset [i] *)
| Read (p : path) (k : option content -> prog)
| Remove (p : path) (k : bool -> prog).          (* os.remove: false if there is no such file *)

(** A block written past the end leaves a hole; a file which has been removed by someone else
    while it was open stays removed. *)
Definition put (c : content) (i b : nat) : content := firstn i (c ++ repeat 0 i) ++ b :: skipn (S i) c.
Definition is_some {X} (o : option X) : bool := match o with Some _ => true | None => false end.

(** One operation; [None] when the program is over. *)
Definition step (s : fs) (p : prog) : option (fs * prog) :=
  match p with
  | Ret _ | Raise _ => None
  | Exists q k => Some (s, k (is_some (s q)))
  | Mkdir q k => match s q with Some _ => Some (s, k false) | None => Some (upd s q (Some []), k true) end
  | Open q k => Some (upd s q (Some []), k)
  | Write q i b k => match s q with Some c => Some (upd s q (Some (put c i b)), k) | None => Some (s, k) end
  | Read q k => Some (s, k (s q))
  | Remove q k => match s q with Some _ => Some (upd s q None, k true) | None => Some (s, k false) end
  end.

(** A call which is interrupted after [n] operations, if it is not over before. *)
Fixpoint steps (n : nat) (s : fs) (p : prog) : fs * prog :=
  match n with
  | O => (s, p)
  | S n => match step s p with Some (s', p') => steps n s' p' | None => (s, p) end
  end.

(** A whole call. *)
Inductive outcome : Type := Returned (data : list content) | Raised (e : exn).
Fixpoint exec (p : prog) (s : fs) : fs * outcome :=
  match p with
  | Ret d => (s, Returned d)
  | Raise e => (s, Raised e)
  | Exists q k => exec (k (is_some (s q))) s
  | Mkdir q k => match s q with Some _ => exec (k false) s | None => exec (k true) (upd s q (Some [])) end
  | Open q k => exec k (upd s q (Some []))
  | Write q i b k => match s q with Some c => exec k (upd s q (Some (put c i b))) | None => exec k s end
  | Read q k => exec (k (s q)) s
  | Remove q k => match s q with Some _ => exec (k true) (upd s q None) | None => exec (k false) s end
  end.

(** Several calls at the same time: [i] does the next operation. *)
Fixpoint set_nth {X} (l : list X) (i : nat) (x : X) : list X :=
  match l, i with [], _ => [] | _ :: t, O => x :: t | h :: t, S i => h :: set_nth t i x end.
Definition pstep (i : nat) (s : fs) (ps : list prog) : fs * list prog :=
  match nth_error ps i with
  | Some p => match step s p with Some (s', p') => (s', set_nth ps i p') | None => (s, ps) end
  | None => (s, ps)
  end.
Fixpoint psteps (schedule : list nat) (s : fs) (ps : list prog) : fs * list prog :=
  match schedule with [] => (s, ps) | i :: t => let (s', ps') := pstep i s ps in psteps t s' ps' end.

(** ** The functions *)

Fixpoint write_all (q : path) (i : nat) (c : content) (k : prog) : prog :=
  match c with [] => k | b :: t => Write q i b (write_all q (S i) t k) end.

(** sklearn.datasets._base._fetch_remote: [urlretrieve(url, file)], where [served] is what the network
    gives, then the checksum of the file is compared to the one of the archive. A checksum is
    taken to determine the contents. The file stays when the checksum is wrong. *)
Definition fetch_remote (archive : path * content) (served : content) (k : prog) : prog :=
  Open (fst archive) (write_all (fst archive) 0 served
    (Read (fst archive) (fun c =>
       match c with
       | Some c => if list_eq_dec Nat.eq_dec c (snd archive) then k else Raise BadChecksum
       | None => Raise NotFound
       end))).
Fixpoint download (archives : list (path * content)) (net : path -> content) (k : prog) : prog :=
  match archives with [] => k | a :: t => fetch_remote a (net (fst a)) (download t net k) end.

Fixpoint read_all (ps : list path) (k : list content -> prog) : prog :=
  match ps with
  | [] => k []
  | p :: t => Read p (fun c => match c with Some c => read_all t (fun cs => k (c :: cs)) | None => Raise NotFound end)
  end.
Fixpoint remove_all (ps : list path) (k : prog) : prog :=
  match ps with [] => k | p :: t => Remove p (fun b => if b then remove_all t k else Raise NotFound) end.

(** _utils.py:12-38, [get_data_home]. *)
Definition get_data_home (home : path) (k : prog) : prog :=
  Exists home (fun b => if b then k else Mkdir home (fun ok => if ok then k else Raise AlreadyExists)).
(** _utils.py:41-49, [_mkdirp]. *)
Definition mkdirp (dir : path) (k : prog) : prog := Mkdir dir (fun _ => k).

(** A dataset which is converted: _adult.py:31-79 and 82-88, _amazon.py:22-38 and 41-47, _car.py:22-41 and
    44-50, _default_cb.py:22-38 and 41-47, _internet.py:23-41 and 44-49, _kick.py:57-77 and 80-86. [convert] is what
    [to_csv] writes for the contents of the archives. *)
Record converted : Type := mkConverted {
  cv_home : path;
  cv_dir : path;
  cv_data : path;
  cv_archives : list (path * content);   (* name and published contents *)
  cv_convert : list content -> option content
}.
Definition fetch_converted (d : converted) (download_if_missing : bool) (net : path -> content) (k : prog) : prog :=
  get_data_home (cv_home d)
    (if download_if_missing then
       Exists (cv_data d) (fun b => if b then k else
         mkdirp (cv_dir d) (download (cv_archives d) net (read_all (map fst (cv_archives d)) (fun cs =>
           match cv_convert d cs with
           | Some c => Open (cv_data d) (write_all (cv_data d) 0 c (remove_all (map fst (cv_archives d)) k))
           | None => Raise BadData
           end))))
     else k).
Definition load_converted (d : converted) (download_if_missing : bool) (net : path -> content) : prog :=
  fetch_converted d download_if_missing net (get_data_home (cv_home d) (read_all [cv_data d] Ret)).

(** A dataset which is used as it is downloaded: _higgs.py:42-50 and 53-59 with one archive, _epsilon.py:30-41 and
    44-66 with two; only the presence of the first one is tested. *)
Record direct : Type := mkDirect {
  di_home : path;
  di_dir : path;
  di_first : path * content;
  di_others : list (path * content)
}.
Definition di_archives (d : direct) : list (path * content) := di_first d :: di_others d.
Definition fetch_direct (d : direct) (download_if_missing : bool) (net : path -> content) (k : prog) : prog :=
  get_data_home (di_home d)
    (if download_if_missing then
       Exists (fst (di_first d)) (fun b => if b then k else mkdirp (di_dir d) (download (di_archives d) net k))
     else k).
Definition load_direct (d : direct) (download_if_missing : bool) (net : path -> content) : prog :=
  fetch_direct d download_if_missing net (get_data_home (di_home d) (read_all (map fst (di_archives d)) Ret)).

(** _bank.py:23-86: the archive is unpacked in a file, which is read and removed. *)
Definition load_bank (d : direct) (unpacked : path) (unzip : content -> option content) (download_if_missing : bool) (net : path -> content) : prog :=
  fetch_direct d download_if_missing net (get_data_home (di_home d)
    (read_all [fst (di_first d)] (fun cs =>
       match unzip (hd [] cs) with
       | Some c => Open unpacked (write_all unpacked 0 c (read_all [unpacked] (fun cs => remove_all [unpacked] (Ret cs))))
       | None => Raise BadData
       end))).
