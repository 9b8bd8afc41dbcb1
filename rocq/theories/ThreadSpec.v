(** * Many threads with calls in progress at the same time, and calls that never end

    Threads call the methods of Heap.v on objects they share. A call in progress is the rest of its
    program. At any moment any call may make its next access to an object (a dictionary item
    assignment is two: it reads and then writes), end, or be broken off for good: its thread is
    killed, or receives a [KeyboardInterrupt] ([except Exception], controller.py:334, viewer.py:121, utils.py:167,193,533,
    does not catch it). Results are handed from thread to thread: every object a call has returned is
    in one common pool.

    Simplification: accesses happen one after another (CPython's interpreter lock). *)
From Verif Require Import Base PyTree Tensor Num Utils States Controller Builder Viewer Editor Heap HeapSpec.

Section ThreadSpec.
  Context {N : numsys}.

  Record config := mkC {
    c_heap : heap N;
    c_pool : list loc;                          (* objects the threads hold *)
    c_running : list (hcall N * M N loc);       (* calls in progress *)
    c_ended : list (hcall N * option exn)       (* calls that returned or raised, in order *)
  }.

  (** One access of a program. A new object gets an address not used so far. *)
  Inductive access : M N loc -> heap N -> M N loc -> heap N -> Prop :=
  | ac_alloc o k h : access (Alloc o k) h (k (length h)) (h ++ [o])
  | ac_read l k h : access (Read l k) h (k (nth_error h l)) h
  | ac_write l o k h : access (Write l o k) h k (put h l o).

  Inductive step : config -> config -> Prop :=
  | st_call h p rs es i l m :
      nth_error p i = Some l ->
      step (mkC h p rs es) (mkC h p (rs ++ [(On i m, heap_call m l)]) es)
  | st_new h p rs es em b d eps dep :
      step (mkC h p rs es) (mkC h p (rs ++ [(NewBuilder em b d eps dep, h_new_builder em b d eps dep)]) es)
  | st_access h p rs1 c q rs2 es q' h' :
      access q h q' h' ->
      step (mkC h p (rs1 ++ (c, q) :: rs2) es) (mkC h' p (rs1 ++ (c, q') :: rs2) es)
  | st_return h p rs1 c l rs2 es :
      step (mkC h p (rs1 ++ (c, Done (Ok l)) :: rs2) es) (mkC h (p ++ [l]) (rs1 ++ rs2) (es ++ [(c, None)]))
  | st_raise h p rs1 c e rs2 es :
      step (mkC h p (rs1 ++ (c, Done (Err e)) :: rs2) es) (mkC h p (rs1 ++ rs2) (es ++ [(c, Some e)]))
  | st_break h p rs1 r rs2 es :
      step (mkC h p (rs1 ++ r :: rs2) es) (mkC h p (rs1 ++ rs2) es).
  Inductive steps : config -> config -> Prop :=
  | steps_none c : steps c c
  | steps_more c1 c2 c3 : steps c1 c2 -> step c2 c3 -> steps c1 c3.

  (** Every reference on the heap leads to an object. *)
  Definition attr_leads (n : nat) (v : attr) : Prop := match v with VRef l => l < n | _ => True end.
  Definition object_leads (n : nat) (o : obj N) : Prop :=
    match o with
    | ODict _ => True
    | OState x => h_defaults x < n /\ h_accumulators x < n /\ h_updates x < n
    | OInst _ attrs => Forall (fun kv => attr_leads n (snd kv)) attrs
    end.
  Definition no_dangling (h : heap N) : Prop := Forall (object_leads (length h)) h.

  (** The objects of the pool have the contents [vs]. *)
  Definition shows (h : heap N) (p : list loc) (vs : list (pyval N)) : Prop :=
    Forall2 (fun l v => view h l = Some v) p vs.
  (** The threads begin with a pool of objects and no calls in progress. *)
  Definition begins (c : config) (vs : list (pyval N)) : Prop :=
    no_dangling (c_heap c) /\ shows (c_heap c) (c_pool c) vs /\ c_running c = [] /\ c_ended c = [].
End ThreadSpec.
Arguments config N : clear implicits.
