(** Model of the training protocol of src/core/model/xmmModel.hpp (lines 246-301, 366-377, 487-546) and of
    the threads it starts (xmmModelSingleClass.cpp 114-221), as an interleaving of small steps.

    Every read or write of a variable shared between threads is one step.  Simplifications: the
    steps are sequentially consistent (several of these variables are plain [bool] and [unsigned],
    for which C++ promises nothing); a busy-waiting loop is a step that is not possible before its
    condition holds; the erasing loop of [joinTraining] is one step; an update of a class is one step
    whose outcome is given in advance (C36 is about a single class). *)
From Coq Require Import List Bool Arith ZArith.
From Verif Require Import Base Model_Train.
Import ListNotations.
Local Open Scope nat_scope.

(** The place of a class thread.  The argument is the status of the event being notified.
    [CStart]..[CErr2]: xmmModelSingleClass.cpp 114-187; [CNotify]..[CUnlock]: [onTrainingEvent],
    xmmModel.hpp 524-546; [CFin]: 204 and 219. *)
Inductive cpc :=
| CNew | CStart | CLoop | CWork | CErr | CErr2
| CNotify (st : status) | CFwd (st : status) | CDec (st : status) | CDecW (st : status) (n : Z)
| CFlag (st : status) | CChk1 (st : status) | CChk2 (st : status) | CChk3 (st : status)
| CSpawn (st : status) | CSpawn2 (st : status) | CUnlock (st : status) | CFin (st : status) | CEnd (st : status).

(** The place in [joinTraining], xmmModel.hpp 487-519. *)
Inductive jpc := J0 | J1 | J2 | J3 (i : nat) | J4 | J5 | J6 | J7 | J8 | J9 | JSpin | JThrow | JEnd.

(** The place of the thread that calls [train] and then, if asked to, [cancelTraining].
    [MFlag]..[MSpawn]: 280-292; [MJoin]: 294; [X0]..[XFin]: 366-377. *)
Inductive mpc :=
| MFlag (i : nat) | MCanc (i : nat) | MCnt (i : nat) | MCntW (i : nat) (n : Z) | MSpawn (i : nat)
| MJoin (j : jpc) | MRet
| X0 | XReq (i : nat) | XSet (i : nat) | XWait (i : nat) | XJoin (j : jpc) | XFin | MEnd.

(** A class of the model: its thread, what the thread will do ([k_left] successful updates, then Done
    if [k_good] and Error otherwise), [training_status.status], [is_training_], [cancel_training_],
    whether it is in [models] and whether its thread is in [training_threads_]. *)
Record cls := mkCls {
  k_pc : cpc; k_left : nat; k_good : bool; k_status : status;
  k_flag : bool; k_cancel : bool; k_alive : bool; k_thr : bool }.

Definition set_pc (p : cpc) (c : cls) := mkCls p (k_left c) (k_good c) (k_status c) (k_flag c) (k_cancel c) (k_alive c) (k_thr c).
Definition set_left (n : nat) (c : cls) := mkCls (k_pc c) n (k_good c) (k_status c) (k_flag c) (k_cancel c) (k_alive c) (k_thr c).
Definition set_status (st : status) (c : cls) := mkCls (k_pc c) (k_left c) (k_good c) st (k_flag c) (k_cancel c) (k_alive c) (k_thr c).
Definition set_flag (b : bool) (c : cls) := mkCls (k_pc c) (k_left c) (k_good c) (k_status c) b (k_cancel c) (k_alive c) (k_thr c).
Definition set_cancel (b : bool) (c : cls) := mkCls (k_pc c) (k_left c) (k_good c) (k_status c) (k_flag c) b (k_alive c) (k_thr c).
Definition set_alive (b : bool) (c : cls) := mkCls (k_pc c) (k_left c) (k_good c) (k_status c) (k_flag c) (k_cancel c) b (k_thr c).
Definition set_thr (b : bool) (c : cls) := mkCls (k_pc c) (k_left c) (k_good c) (k_status c) (k_flag c) (k_cancel c) (k_alive c) b.

(** The events the listeners of the model receive. *)
Inductive mevent := EvClass (i : nat) (st : status) | EvAll.

(** The model; [s_join] are the detached threads running [joinTraining]. *)
Record sys := mkSys {
  s_cls : list cls; s_main : mpc; s_join : list jpc; s_mutex : option nat;
  s_count : Z; s_training : bool; s_joining : bool; s_creq : bool; s_log : list mevent }.

Definition with_cls (l : list cls) (s : sys) := mkSys l (s_main s) (s_join s) (s_mutex s) (s_count s) (s_training s) (s_joining s) (s_creq s) (s_log s).
Definition with_main (m : mpc) (s : sys) := mkSys (s_cls s) m (s_join s) (s_mutex s) (s_count s) (s_training s) (s_joining s) (s_creq s) (s_log s).
Definition with_join (l : list jpc) (s : sys) := mkSys (s_cls s) (s_main s) l (s_mutex s) (s_count s) (s_training s) (s_joining s) (s_creq s) (s_log s).
Definition with_mutex (m : option nat) (s : sys) := mkSys (s_cls s) (s_main s) (s_join s) m (s_count s) (s_training s) (s_joining s) (s_creq s) (s_log s).
Definition with_count (n : Z) (s : sys) := mkSys (s_cls s) (s_main s) (s_join s) (s_mutex s) n (s_training s) (s_joining s) (s_creq s) (s_log s).
Definition with_training (b : bool) (s : sys) := mkSys (s_cls s) (s_main s) (s_join s) (s_mutex s) (s_count s) b (s_joining s) (s_creq s) (s_log s).
Definition with_joining (b : bool) (s : sys) := mkSys (s_cls s) (s_main s) (s_join s) (s_mutex s) (s_count s) (s_training s) b (s_creq s) (s_log s).
Definition with_creq (b : bool) (s : sys) := mkSys (s_cls s) (s_main s) (s_join s) (s_mutex s) (s_count s) (s_training s) (s_joining s) b (s_log s).
Definition emit (e : mevent) (s : sys) := mkSys (s_cls s) (s_main s) (s_join s) (s_mutex s) (s_count s) (s_training s) (s_joining s) (s_creq s) (s_log s ++ [e]).

(** Replaces one element of a list. *)
Fixpoint lset {X} (l : list X) (i : nat) (x : X) : list X :=
  match l, i with
  | [], _ => []
  | _ :: l, O => x :: l
  | y :: l, S i => y :: lset l i x
  end.

Definition at_cls (i : nat) (f : cls -> cls) (s : sys) : sys :=
  match nth_error (s_cls s) i with
  | Some c => with_cls (lset (s_cls s) i (f c)) s
  | None => s
  end.

Definition is_run_status (st : status) : bool := match st with Run => true | _ => false end.

Section Mode.
  (** [configuration.multithreading]: Background if true, Parallel if false; and whether the thread
      that called [train] calls [cancelTraining] afterwards. *)
  Variables (background cancels : bool).

  (** One step of the thread of class [i]. *)
  Definition step_class (i : nat) (s : sys) : option sys :=
    match nth_error (s_cls s) i with
    | None => None
    | Some c =>
        let go f := Some (at_cls i f s) in
        match k_pc c with
        | CNew => None
        | CStart => go (fun c => set_pc CLoop (set_status Run c))
        | CLoop =>
            if k_cancel c then go (fun c => set_pc (CNotify Cancel) (set_status Cancel c))
            else go (set_pc CWork)
        | CWork =>
            match k_left c with
            | S n => go (fun c => set_pc (CNotify Run) (set_left n c))
            | O => if k_good c then go (fun c => set_pc (CNotify Done) (set_status Done c)) else go (set_pc CErr)
            end
        | CErr => go (fun c => set_pc CErr2 (set_flag false c))
        | CErr2 => go (fun c => set_pc (CNotify Error) (set_status Error c))
        | CNotify st =>
            match s_mutex s with
            | None => Some (with_mutex (Some i) (at_cls i (set_pc (CFwd st)) s))
            | Some _ => None
            end
        | CFwd st => Some (emit (EvClass i st) (at_cls i (set_pc (if is_run_status st then CUnlock st else CDec st)) s))
        | CDec st => go (set_pc (CDecW st (s_count s)))
        | CDecW st n => Some (with_count (n - 1) (at_cls i (set_pc (CFlag st)) s))
        | CFlag st => go (fun c => set_pc (CChk1 st) (set_flag false c))
        | CChk1 st => go (set_pc (if background && negb (s_joining s) then CChk2 st else CUnlock st))
        | CChk2 st => go (set_pc (if negb (s_creq s) then CChk3 st else CUnlock st))
        | CChk3 st => go (set_pc (if (s_count s =? 0)%Z then CSpawn st else CUnlock st))
        | CSpawn st => Some (with_joining false (at_cls i (set_pc (CSpawn2 st)) s))
        | CSpawn2 st => Some (with_join (s_join s ++ [J0]) (at_cls i (set_pc (CUnlock st)) s))
        | CUnlock st =>
            Some (with_mutex None (at_cls i (set_pc (match st with Run => CLoop | Error => CEnd Error | _ => CFin st end)) s))
        | CFin st => go (fun c => set_pc (CEnd st) (set_flag false c))
        | CEnd _ => None
        end
    end.

  (** The first thread of [training_threads_]. *)
  Fixpoint first_thr (l : list cls) (i : nat) : option nat :=
    match l with
    | [] => None
    | c :: l => if k_thr c then Some i else first_thr l (S i)
    end.

  Definition erase_failed (c : cls) : cls :=
    match k_status c with Cancel | Error => set_alive false c | _ => c end.

  (** One step inside [joinTraining]; [spurious]: a [compare_exchange_weak] on a matching value fails
      nevertheless (as C++ allows). *)
  Definition step_join (spurious : bool) (j : jpc) (s : sys) : option (sys * jpc) :=
    match j with
    | J0 => Some (s, if s_training s then J1 else JEnd)
    | J1 => if s_joining s then Some (s, JSpin)
            else if spurious then Some (s, JSpin)
            else Some (with_joining true s, J2)
    | J2 =>
        match first_thr (s_cls s) 0 with
        | None => Some (s, J4)
        | Some i =>
            match nth_error (s_cls s) i with
            | Some c => match k_pc c with CEnd _ => Some (s, J3 i) | _ => None end
            | None => None
            end
        end
    | J3 i =>
        match nth_error (s_cls s) i with
        | Some c => if k_thr c then Some (at_cls i (set_thr false) s, J2) else None
        | None => None
        end
    | J4 => Some (with_cls (map erase_failed (s_cls s)) s, J5)
    | J5 => Some (with_joining false s, J6)
    | J6 => Some (with_training false s, J7)
    | J7 => Some (s, if s_training s then JThrow else J8)
    | J8 => if s_joining s then None else Some (s, J9)
    | J9 => Some (emit EvAll s, JEnd)
    | JSpin => if s_joining s then None else Some (s, JEnd)
    | JThrow => None
    | JEnd => None
    end.

  Definition alive_at (s : sys) (i : nat) : bool :=
    match nth_error (s_cls s) i with Some c => k_alive c | None => false end.

  (** One step of the calling thread. *)
  Definition step_main (spurious : bool) (s : sys) : option sys :=
    let n := length (s_cls s) in
    let goto m := Some (with_main m s) in
    match s_main s with
    | MFlag i =>
        if i <? n then Some (with_main (MCanc i) (at_cls i (set_flag true) s))
        else goto (if background then MRet else MJoin J0)
    | MCanc i => Some (with_main (MCnt i) (at_cls i (set_cancel false) s))
    | MCnt i => goto (MCntW i (s_count s))
    | MCntW i c => Some (with_main (MSpawn i) (with_count (c + 1) s))
    | MSpawn i => Some (with_main (MFlag (S i)) (at_cls i (fun c => set_thr true (set_pc CStart c)) s))
    | MJoin JEnd => goto MRet
    | MJoin j =>
        match step_join spurious j s with
        | Some (s, j) => Some (with_main (MJoin j) s)
        | None => None
        end
    | MRet => if cancels then goto X0 else None
    | X0 => goto (if s_training s then XReq 0 else XFin)
    | XReq i =>
        if i <? n then
          if alive_at s i then Some (with_main (XSet i) (with_creq true s)) else goto (XReq (S i))
        else goto (XJoin J0)
    | XSet i => Some (with_main (XWait i) (at_cls i (fun c => if k_flag c then set_cancel true c else c) s))
    | XWait i =>
        match nth_error (s_cls s) i with
        | Some c => if k_flag c then None else goto (XReq (S i))
        | None => None
        end
    | XJoin JEnd => goto XFin
    | XJoin j =>
        match step_join spurious j s with
        | Some (s, j) => Some (with_main (XJoin j) s)
        | None => None
        end
    | XFin => Some (with_main MEnd (with_creq false s))
    | MEnd => None
    end.

  (** Threads, and one step of a thread. *)
  Inductive tid := TMain | TClass (i : nat) | TJoin (j : nat).

  Definition step (t : tid) (spurious : bool) (s : sys) : option sys :=
    match t with
    | TMain => step_main spurious s
    | TClass i => step_class i s
    | TJoin k =>
        match nth_error (s_join s) k with
        | None => None
        | Some j =>
            match step_join spurious j s with
            | Some (s, j) => Some (with_join (lset (s_join s) k j) s)
            | None => None
            end
        end
    end.

  (** A schedule: the threads in the order in which they are given a step; a thread that cannot take
      a step waits. *)
  Definition schedule := list (tid * bool).
  Fixpoint run (sch : schedule) (s : sys) : sys :=
    match sch with
    | [] => s
    | (t, b) :: sch => run sch (match step t b s with Some s => s | None => s end)
    end.
End Mode.

(** The state after [addModelForClass], xmmModel.hpp 275: the classes with what their trainings will
    do, [count] being the value of [models_still_training_]. *)
Definition fresh_cls (p : nat * bool) : cls := mkCls CNew (fst p) (snd p) Run false false true false.
Definition life_init (count : Z) (plan : list (nat * bool)) : sys :=
  mkSys (map fresh_cls plan) (MFlag 0) [] None count true false false [].

(** xmmModel.hpp 246-301 in Sequential mode: the calling thread runs the training of each class itself;
    nobody else takes a step ([fuel] bounds the steps of a class). *)
Fixpoint run_class (fuel : nat) (i : nat) (s : sys) : sys :=
  match fuel with
  | O => s
  | S fuel => match step_class false i s with Some s => run_class fuel i s | None => s end
  end.
Definition seq_one (i : nat) (s : sys) : sys :=
  let s := at_cls i (fun c => set_pc CStart (set_cancel false (set_flag true c))) s in
  let s := with_count (s_count s + 1) s in
  match nth_error (s_cls s) i with
  | Some c => run_class (5 * k_left c + 20) i s
  | None => s
  end.
Definition seq_train (count : Z) (plan : list (nat * bool)) : sys :=
  let s := with_main MRet (life_init count plan) in
  with_training false (fold_left (fun s i => seq_one i s) (seq 0 (length plan)) s).
