(** Model of [removeClass(label)], [train(set, label)] and [cancelTraining(label)] of
    src/core/model/xmmModel.hpp (lines 207-216, 311-360, 383-394) in Background mode, called by the thread
    that called [train(set)], while the threads of [Model_Life] may still run.

    The simplifications are those of [Model_Life].  The labels are in the set and its dimensions are those of
    the model (C91 is about the others). *)
From Coq Require Import List Bool Arith ZArith.
From Verif Require Import Base Model_Train Model_Life.
Import ListNotations.
Local Open Scope nat_scope.

(** The call, on a class of the model; the new training of the class will make [fst p] updates and succeed if
    [snd p]. *)
Inductive lop := OCancel | ORetrain (p : nat * bool) | ORemove.

(** The place in the call.  [LSpin]: 208-209; [L0]..[LClr]: 384-393; [LErase]..[LCheck2]: 211-215 and 551-555;
    [LTrue]..[LSpawn]: 333-355 and 584-602; [LRet]: the call has returned; [LAbort]: the program was ended by
    [std::terminate]; [LGone]: a joining thread erased the class between two of these steps, and the
    execution is not followed any further. *)
Inductive lpc :=
| LSpin
| L0 | LAlive | LReq | LSet | LWait | LCount | LJoin (j : jpc) | LClr
| LErase | LCheck | LCheck2
| LTrue | LAdd | LFlag | LCanc | LCnt | LCntW (n : Z) | LSpawn
| LRet | LThrow (e : exn) | LAbort | LGone.

(** The threads, the place of the calling thread, and whether a thread has used a class that was erased. *)
Record csys := mkC { cs_sys : sys; cs_pc : lpc; cs_freed : bool }.

Definition on_cls (i : nat) (f : cls -> cls) (l : lpc) (s : sys) : option (sys * lpc) :=
  if alive_at s i then Some (at_cls i f s, l) else Some (s, LGone).

(** One step of the call on class [i]. *)
Definition step_call (i : nat) (o : lop) (spurious : bool) (l : lpc) (s : sys) : option (sys * lpc) :=
  match l with
  | LSpin => if s_joining s then None else Some (s, L0)
  | L0 => Some (s, if s_training s then LAlive else LClr)
  | LAlive => Some (s, if alive_at s i then LReq else LClr)
  | LReq => Some (with_creq true s, LSet)
  | LSet => on_cls i (fun c => if k_flag c then set_cancel true c else c) LWait s
  | LWait =>
      match nth_error (s_cls s) i with
      | Some c => if k_flag c then None else Some (s, LCount)
      | None => None
      end
  | LCount => Some (s, if (s_count s =? 0)%Z then LJoin J0 else LClr)
  | LJoin JEnd => Some (s, LClr)
  | LJoin j =>
      match step_join spurious j s with
      | Some (s, j) => Some (s, LJoin j)
      | None => None
      end
  | LClr => Some (with_creq false s, match o with OCancel => LRet | ORetrain _ => LTrue | ORemove => LErase end)
  | LErase => if alive_at s i then Some (at_cls i (set_alive false) s, LCheck) else Some (s, LThrow OutOfRange)
  | LCheck => Some (s, if s_training s then LThrow RuntimeError else LCheck2)
  | LCheck2 => if s_joining s then None else Some (s, LRet)
  | LTrue => Some (with_training true s, LAdd)
  | LAdd =>
      match nth_error (s_cls s) i with
      | Some c =>
          if k_alive c then Some (s, if k_flag c then LThrow RuntimeError else LFlag)
          else Some (at_cls i (fun c => set_alive true (set_flag false c)) s, LFlag)
      | None => None
      end
  | LFlag => on_cls i (set_flag true) LCanc s
  | LCanc => on_cls i (set_cancel false) LCnt s
  | LCnt => Some (s, LCntW (s_count s))
  | LCntW n => Some (with_count (n + 1) s, LSpawn)
  | LSpawn =>
      match nth_error (s_cls s) i, o with
      | Some c, ORetrain p =>
          if k_thr c then Some (s, LAbort)
          else Some (at_cls i (fun c => mkCls CStart (fst p) (snd p) (k_status c) (k_flag c) (k_cancel c) (k_alive c) true) s, LRet)
      | _, _ => None
      end
  | LRet | LThrow _ | LAbort | LGone => None
  end.

(** One step of a thread; none once the program was ended. *)
Definition step2 (i : nat) (o : lop) (t : tid) (spurious : bool) (z : csys) : option csys :=
  match cs_pc z, t with
  | LAbort, _ => None
  | l, TMain =>
      match step_call i o spurious l (cs_sys z) with
      | Some (s, l) => Some (mkC s l (cs_freed z))
      | None => None
      end
  | l, TClass k =>
      match step_class true k (cs_sys z) with
      | Some s => Some (mkC s l (cs_freed z || negb (alive_at (cs_sys z) k)))
      | None => None
      end
  | l, TJoin k =>
      match step true false (TJoin k) spurious (cs_sys z) with
      | Some s => Some (mkC s l (cs_freed z))
      | None => None
      end
  end.

Fixpoint run2 (i : nat) (o : lop) (sch : schedule) (z : csys) : csys :=
  match sch with
  | [] => z
  | (t, b) :: sch => run2 i o sch (match step2 i o t b z with Some z => z | None => z end)
  end.

(** The beginning of the call. *)
Definition call (o : lop) (s : sys) : csys := mkC s (match o with ORemove => LSpin | _ => L0 end) false.
