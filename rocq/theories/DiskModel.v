(** The file cache of minorminer/busclique.pyx: [_fetch_cache] (433-509) and
    [copy_on_close_context] (1331-1349), run by any number of threads and processes on one
    directory.  A thread is identified by a number; the thread lock (470) and the inter-process lock
    (472) are together one lock, which the operating system releases when its holder dies.
    A file is a list of numbers (bytes); [pickle] is an encoding of which no proper prefix can be
    loaded.  What a cache file holds is not interpreted (a payload is any list), the LRU file holds
    the list of codes.  [compute] (481) and the choice hit or miss are arbitrary, except that without a file there is no hit.  Not modelled:
    creation of the directory, other users of the directory ([clear_all_caches]), full disks, and
    the loss of data already handed to the operating system. *)
From stdpp Require Import base list list_numbers numbers gmap option.

Definition pickle (l : list nat) : list nat := (S <$> l) ++ [0].
Fixpoint unpickle (b : list nat) : option (list nat) :=
  match b with
  | [] => None
  | 0 :: _ => Some []
  | S x :: r => (x ::.) <$> unpickle r
  end.

(** names: 0 is the file .lru (462), [S c] the cache file of the shortcode [c] (473); a temporary
    file (1340) is the same name with [true] *)
Definition fname := (nat * bool)%type.

(** which file is being read: the cache file (474-476), or the LRU file (489-491) when the names
    opened for writing so far are [f] *)
Inductive phase := ForCache (c : nat) | ForLru (c : nat) (f : list nat).
Definition read_name (ph : phase) : nat := match ph with ForCache c => S c | ForLru _ _ => 0 end.

Inductive pstate :=
| Start (c : nat)                                          (* 460-468: before the locks *)
| Look (ph : phase)                                        (* 474, 490: lock held, about to open *)
| Read (ph : phase) (i : nat) (acc : list nat)             (* 476, 491: [load], read so far *)
| Decide (c : nat) (found : bool)                          (* 479-480; [found]: there was a file *)
| Evict (c : nat) (f keep ev : list nat)                   (* 501-503 *)
| Write (c : nat) (f : list nat) (n i : nat) (rest : list nat)  (* 483-484, 504-505: still to be written *)
| Unlock (f : list nat)                                    (* 505: end of the two with blocks *)
| Rename (f : list nat)                                    (* 508: [close], 1346-1349 *)
| Done | Raised | Crashed.

Record dstate := mkDS {
  ds_dir : gmap fname nat;            (* directory: name to inode *)
  ds_data : gmap nat (list nat);      (* inode to contents *)
  ds_next : nat;                      (* next fresh inode *)
  ds_lock : option nat;               (* holder of the locks *)
  ds_procs : gmap nat pstate;
  ds_dumps : list (nat * list nat);   (* history: all dumps begun, (file, payload) *)
  ds_loads : list (nat * option (list nat)) (* history: all loads ended, [None]: the load raised *) }.
Definition ds_init : dstate := mkDS ∅ ∅ 0 None ∅ [] [].

Definition goto (s : dstate) (p : nat) (q : pstate) : dstate :=
  mkDS (ds_dir s) (ds_data s) (ds_next s) (ds_lock s) (<[p := q]> (ds_procs s)) (ds_dumps s) (ds_loads s).
Definition with_lock (s : dstate) (l : option nat) : dstate :=
  mkDS (ds_dir s) (ds_data s) (ds_next s) l (ds_procs s) (ds_dumps s) (ds_loads s).
Definition with_dir (s : dstate) (d : gmap fname nat) : dstate :=
  mkDS d (ds_data s) (ds_next s) (ds_lock s) (ds_procs s) (ds_dumps s) (ds_loads s).
Definition with_data (s : dstate) (i : nat) (b : list nat) : dstate :=
  mkDS (ds_dir s) (<[i := b]> (ds_data s)) (ds_next s) (ds_lock s) (ds_procs s) (ds_dumps s) (ds_loads s).
Definition log_dump (s : dstate) (n : nat) (d : list nat) : dstate :=
  mkDS (ds_dir s) (ds_data s) (ds_next s) (ds_lock s) (ds_procs s) (ds_dumps s ++ [(n, d)]) (ds_loads s).
Definition log_load (s : dstate) (n : nat) (r : option (list nat)) : dstate :=
  mkDS (ds_dir s) (ds_data s) (ds_next s) (ds_lock s) (ds_procs s) (ds_dumps s) (ds_loads s ++ [(n, r)]).

(** an exception inside the with blocks: the locks are released *)
Definition raise_locked (s : dstate) (p : nat) : dstate := with_lock (goto s p Raised) None.

(** 492-503: the new LRU list and what is removed, last first; [cap] is [__lru_size] (41) *)
Definition new_lru (c : nat) (lru : list nat) : list nat := c :: filter (fun x => x <> c) lru.
(** where a thread is after it has [r] from its file; [None]: no file, 478 and 492-493 *)
Definition loaded (cap : nat) (ph : phase) (r : option (list nat)) : pstate :=
  match ph with
  | ForCache c => Decide c (match r with Some _ => true | None => false end)
  | ForLru c f => let l := new_lru c (default [] r) in Evict c f (take cap l) (rev (drop cap l))
  end.

(** 1337-1344: [open(temp_name, 'wb')] creates or truncates *)
Definition open_temp (s : dstate) (n : nat) : dstate * nat :=
  match ds_dir s !! (n, true) with
  | Some i => (with_data s i [], i)
  | None => let i := ds_next s in
      (mkDS (<[(n, true) := i]> (ds_dir s)) (<[i := []]> (ds_data s)) (S i) (ds_lock s) (ds_procs s) (ds_dumps s) (ds_loads s), i)
  end.
(** 483, 504: open and begin to dump the payload [d] *)
Definition begin_dump (s : dstate) (p c : nat) (f : list nat) (n : nat) (d : list nat) : dstate :=
  let '(s, i) := open_temp s n in
  goto (log_dump s n d) p (Write c f n i (pickle d)).

Inductive action :=
| Call (p c : nat)            (* a thread calls [_fetch_cache] *)
| Acquire (p : nat)           (* it gets the locks *)
| Hit (p : nat)               (* 480: the cache has the identifier *)
| Miss (p : nat) (d : list nat) (* 480-484: it does not, or force_write: dump [d] *)
| Put (p k : nat)             (* the next [S k] bytes of a dump reach the file *)
| Go (p : nat)                (* the next step of any other kind *)
| Crash (p : nat).            (* the process dies *)

(** 433-509: one step; [None]: not possible in this state *)
Definition act (cap : nat) (s : dstate) (a : action) : option dstate :=
  match a with
  | Call p c => match ds_procs s !! p with None => Some (goto s p (Start c)) | _ => None end
  | Acquire p =>
      match ds_procs s !! p, ds_lock s with
      | Some (Start c), None => Some (goto (with_lock s (Some p)) p (Look (ForCache c)))
      | _, _ => None
      end
  | Hit p => match ds_procs s !! p with Some (Decide c true) => Some (goto s p (Look (ForLru c []))) | _ => None end
  | Miss p d => match ds_procs s !! p with Some (Decide c _) => Some (begin_dump s p c [] (S c) d) | _ => None end
  | Put p k =>
      match ds_procs s !! p with
      | Some (Write c f n i (x :: rest)) =>
          let b := default [] (ds_data s !! i) in
          Some (goto (with_data s i (b ++ take (S k) (x :: rest))) p (Write c f n i (drop (S k) (x :: rest))))
      | _ => None
      end
  | Go p =>
      match ds_procs s !! p with
      | Some (Look ph) =>
          match ds_dir s !! (read_name ph, false) with
          | None => Some (goto s p (loaded cap ph None))
          | Some i => Some (goto s p (Read ph i []))
          end
      | Some (Read ph i acc) =>
          match default [] (ds_data s !! i) !! length acc with
          | Some x => Some (goto s p (Read ph i (acc ++ [x])))
          | None => let s := log_load s (read_name ph) (unpickle acc) in
                    match unpickle acc with
                    | Some d => Some (goto s p (loaded cap ph (Some d)))
                    | None => Some (raise_locked s p)
                    end
          end
      | Some (Evict c f keep (x :: ev)) =>
          match ds_dir s !! (S x, false) with
          | Some _ => Some (goto (with_dir s (delete (S x, false) (ds_dir s))) p (Evict c f keep ev))
          | None => Some (raise_locked s p)
          end
      | Some (Evict c f keep []) => Some (begin_dump s p c f 0 keep)
      | Some (Write c f n i []) =>
          Some (goto s p (match n with 0 => Unlock (f ++ [0]) | S _ => Look (ForLru c (f ++ [n])) end))
      | Some (Unlock f) => Some (goto (with_lock s None) p (Rename f))
      | Some (Rename (n :: f)) =>
          match ds_dir s !! (n, true) with
          | Some i => Some (goto (with_dir s (<[(n, false) := i]> (delete (n, true) (ds_dir s)))) p (Rename f))
          | None => Some (goto s p Raised)
          end
      | Some (Rename []) => Some (goto s p Done)
      | _ => None
      end
  | Crash p =>
      match ds_procs s !! p with
      | None | Some Done | Some Raised | Some Crashed => None
      | Some _ => Some (goto (if decide (ds_lock s = Some p) then with_lock s None else s) p Crashed)
      end
  end.

Fixpoint run (cap : nat) (s : dstate) (l : list action) : option dstate :=
  match l with
  | [] => Some s
  | a :: l => s' ← act cap s a; run cap s' l
  end.
