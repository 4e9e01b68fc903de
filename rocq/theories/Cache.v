(** The policy cache of the policy daemon: qrexec/policy/utils.py.

    The daemon is one thread with an event loop; other programs change files at any
    moment, also while the policy is being loaded. The kernel queues a notification for a
    change in a watched directory; the event loop takes one notification after another
    from the queue, between requests. *)
From Coq Require Import String Ascii List Bool Arith.
From Verif Require Import Base SysInfo Token Rule FileSys Loader.
Import ListNotations.
Open Scope string_scope.
Open Scope list_scope.

(** inotify events; [IN_ATTRIB] stands for all kinds that are not watched *)
Inductive kind := IN_CREATE | IN_DELETE | IN_MODIFY | IN_MOVED_FROM | IN_MOVED_TO | IN_ATTRIB.
(** initialize_watcher 55-62: the mask *)
Definition mask (k : kind) : bool :=
  match k with IN_CREATE | IN_DELETE | IN_MODIFY | IN_MOVED_FROM | IN_MOVED_TO => true | _ => false end.
(** PolicyWatcher 109-127: the events with a handler, all of which set [outdated] *)
Definition handled (k : kind) : bool :=
  match k with
  | IN_CREATE => true
  | IN_DELETE => true
  | IN_MODIFY => true
  | IN_MOVED_TO => true
  | IN_MOVED_FROM => true
  | _ => false
  end.

(** A change of the object at a path (with everything below it) and the tree afterwards. A
    renaming is two changes, as it is two notifications. *)
Record change := mkChange { ch_kind : kind; ch_path : path; ch_new : fs }.
Fixpoint prefix_path (p q : path) : bool :=
  match p, q with
  | [], _ => true
  | a :: p', b :: q' => String.eqb a b && prefix_path p' q'
  | _, [] => false
  end.

(** The attributes of PolicyCache with the files and the kernel around it: [c_roots] the
    directories of [watches], [c_dirs] all directories with a watch, [c_queue] the
    notifications that are not yet delivered *)
Record cache := mkCache {
  c_fs : fs; c_policy : option (list rule); c_outdated : bool;
  c_watching : bool; c_roots : list path; c_dirs : list path; c_queue : list (kind * path) }.

(** The kernel: a change in a watched directory is queued; the watch of a directory that
    has gone ends *)
Definition watched_parent (dirs : list path) (p : path) : bool :=
  match split_last p with Some (d, _) => existsb (path_eqb d) dirs | None => false end.
Definition change_tree (s : cache) (c : change) : cache :=
  mkCache (ch_new c) (c_policy s) (c_outdated s) (c_watching s) (c_roots s)
    (filter (fun d => negb (prefix_path (ch_path c) d)) (c_dirs s))
    (c_queue s ++ if mask (ch_kind c) && watched_parent (c_dirs s) (ch_path c) then [(ch_kind c, ch_path c)] else []).

(** directories below a path *)
Definition dirs_under (f : fs) (p : path) : list path :=
  filter (fun q => prefix_path p q && is_dir f q) (map fst f).

(** PolicyCache.__init__ 28-50. [load]: the outcome of loading, [during]: the changes
    meanwhile *)
Definition new_cache (lazy_load : bool) (f : fs) (during : list change) (load : res (list rule)) : res cache :=
  if lazy_load then Ok (mkCache f None true false [] [] [])
  else match load with
       | Ok p => Ok (fold_left change_tree during (mkCache f (Some p) false false [] [] []))
       | Err e => Err e
       end.

(** initialize_watcher 52-88: rec=True watches the directories below, too. The walk
    through the directories is taken to be one step. *)
Definition exists_at (f : fs) (p : path) : bool := match fget f p with Some _ => true | None => false end.
Definition watch_roots (use_legacy : bool) (f : fs) (paths : list path) : list path :=
  let defaults := if use_legacy then [POLICYPATH; POLICYPATH_OLD] else [] in
  filter (exists_at f)
    (filter (fun p => negb (existsb (path_eqb p) defaults)) paths ++ defaults).
Definition initialize_watcher (use_legacy : bool) (paths : list path) (s : cache) : cache :=
  let roots := watch_roots use_legacy (c_fs s) paths in
  mkCache (c_fs s) (c_policy s) (c_outdated s) true roots (flat_map (dirs_under (c_fs s)) roots) [].

(** One notification: auto_add=True, pyinotify adds watches to directories that have
    appeared (before it calls the handler) and to those in them *)
Definition deliver (s : cache) : option cache :=
  match c_queue s with
  | [] => None
  | (k, p) :: q =>
      Some (mkCache (c_fs s) (c_policy s) (c_outdated s || handled k) (c_watching s) (c_roots s)
        (match k with IN_CREATE | IN_MOVED_TO => dirs_under (c_fs s) p ++ c_dirs s | _ => c_dirs s end) q)
  end.

(** get_policy 101-106. An exception leaves the attributes as they were. *)
Definition get_policy (s : cache) (during : list change) (load : res (list rule)) : res (option (list rule)) * cache :=
  if c_outdated s then
    let s1 := fold_left change_tree during s in
    match load with
    | Err e => (Err e, s1)
    | Ok p => (Ok (Some p), mkCache (c_fs s1) (Some p) false (c_watching s1) (c_roots s1) (c_dirs s1) (c_queue s1))
    end
  else (Ok (c_policy s), s).

(** ** Histories *)
(** Nothing but the object and what is below it changes. Its directory exists, and only
    creation and moving make directories. *)
Definition change_ok (f : fs) (c : change) : Prop :=
  NoDup (map fst (ch_new c)) /\
  (forall q, prefix_path (ch_path c) q = false -> fget (ch_new c) q = fget f q) /\
  (exists d n, ch_path c = d ++ [n] /\ fget f d = Some NDir) /\
  match ch_kind c with
  | IN_CREATE | IN_MOVED_TO => True
  | _ => forall q, prefix_path (ch_path c) q = true -> fget (ch_new c) q <> Some NDir
  end.
Fixpoint changes_ok (f : fs) (l : list change) : Prop :=
  match l with [] => True | c :: l => change_ok f c /\ changes_ok (ch_new c) l end.

(** [LRequest during load answer]: get_policy; if it loads, the outcome is what loading
    yields for the files, or anything if files that it looks at change meanwhile. A change of
    other files during loading is as good as one right after it, so [during] need not show it. *)
Inductive label := LChange (c : change) | LWatch | LDeliver
| LRequest (during : list change) (load : res (list rule)) (answer : res (option (list rule))).
Inductive cache_step (legacy : path) (fuel : nat) (use_legacy : bool) (paths : list path) : cache -> label -> cache -> Prop :=
| cs_change s c : change_ok (c_fs s) c -> cache_step legacy fuel use_legacy paths s (LChange c) (change_tree s c)
| cs_watch s : c_watching s = false ->
    cache_step legacy fuel use_legacy paths s LWatch (initialize_watcher use_legacy paths s)
| cs_deliver s s' : deliver s = Some s' -> cache_step legacy fuel use_legacy paths s LDeliver s'
| cs_request s during load a s' : changes_ok (c_fs s) during -> (c_outdated s = false -> during = []) ->
    (during = [] -> load = load_policy (c_fs s) legacy fuel paths) ->
    get_policy s during load = (a, s') ->
    cache_step legacy fuel use_legacy paths s (LRequest during load a) s'.
