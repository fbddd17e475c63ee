(** The cluster id in heartbeats: /repo/src/common/clients/meta/MetaClient.cpp:2466-2523, with clients/meta/FileBasedClusterIdMan.cpp
    (C55's model). The other members of the request and the times in the answer (C94) are left out. *)
From Verif Require Import Prelude ClusterModel.

(** A process: its role is STORAGE, the file at FLAGS_cluster_id_path, options_.clusterId_, and whether it runs. *)
Record hostSt := mkHost { hsStorage : bool; hsFile : file; hsMem : Z; hsUp : bool }.
(** What happens to it: it starts (with no id of its own, MetaClient.h:155; options given with an id are left out), it ends, or it sends a heartbeat. To a heartbeat
    there is no answer or an error, or an answer with a cluster id; [e] is how the system behaves in persistInFile, and [crash] the state of
    the file if the process ends inside of persistInFile. Heartbeats are sent one after the other (it is only called with get(), 63 and 124) *)
Inductive hostEv :=
  | Start
  | Stop
  | Beat (answer : option (Z * sys * option file)).
(** heartbeat, 2466-2523: the id sent (None: the field is not set), and the state after the answer. LOG(FATAL) ends the process (2513) *)
Definition beat (h : hostSt) (answer : option (Z * sys * option file)) : option Z * hostSt :=
  if hsStorage h then
    let mem := if hsMem h =? 0 then getClusterIdFromFile (hsFile h) else hsMem h in
    (Some mem,
     match answer with
     | None => mkHost (hsStorage h) (hsFile h) mem true
     | Some (id, e, crash) =>
         if mem =? 0 then
           match crash with
           | Some f => mkHost (hsStorage h) f 0 false
           | None =>
               let (f, ok) := persistInFile e id (hsFile h) in
               if ok then mkHost (hsStorage h) f id true else mkHost (hsStorage h) f mem false
           end
         else mkHost (hsStorage h) (hsFile h) mem true
     end)
  else (None, h).
Definition hostStep (h : hostSt) (ev : hostEv) : list (option Z) * hostSt :=
  match ev with
  | Start => ([], if hsUp h then h else mkHost (hsStorage h) (hsFile h) 0 true)
  | Stop => ([], mkHost (hsStorage h) (hsFile h) 0 false)
  | Beat a => if hsUp h then let (s, h') := beat h a in ([s], h') else ([], h)
  end.
(** all ids sent, and the state at the end *)
Fixpoint hostRun (h : hostSt) (evs : list hostEv) : list (option Z) * hostSt :=
  match evs with
  | [] => ([], h)
  | ev :: r => let (s, h1) := hostStep h ev in let (s', h2) := hostRun h1 r in (s ++ s', h2)
  end.
