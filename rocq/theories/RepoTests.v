(** * The repository's own tests, run on the model

    Every expectation in /repo/tests that concerns modelled behaviour, as an example computed by the model with exact
    numbers. This checks the model, not the code: it shows that the model returns what the authors of the code expect
    it to return. Two systematic differences: the tests make states without [error_mode] and call [new_builder], which at
    this commit raises TypeError before anything else happens (C22, [tests_cannot_start] below), so an error mode is
    supplied here; and arrays of random or of many equal numbers are replaced by small ones where only their shape matters. *)
From Coq Require Import QArith Qcanon.
From Verif Require Import Base PyTree Tensor Num Utils States Controller Builder Viewer Editor Layers Checkify.
Close Scope Qc_scope. Close Scope Q_scope. Open Scope string_scope. Open Scope list_scope. Open Scope nat_scope.

Notation st := (state QcNum).
Notation tr := (tree (array QcNum)).
(** [t z] is z tenths *)
Definition t (z : Z) : Qc := Q2Qc (z # 10).
Definition h (z : Z) : Qc := Q2Qc (z # 100).
Definition i (z : Z) : Qc := Q2Qc (z # 1).
Definition f32 (sh : list nat) (d : list Qc) : array QcNum := mkA (N := QcNum) DF32 (mkT sh d).
Definition i32 (sh : list nat) (d : list Qc) : array QcNum := mkA (N := QcNum) DInt32 (mkT sh d).
Definition full (d : dtype) (sh : list nat) (x : Qc) : array QcNum := a_full (N := QcNum) sh x d.
Definition ones (sh : list nat) : array QcNum := full DF32 sh (i 1).
Definition zeros (sh : list nat) : array QcNum := full DF32 sh (i 0).
Definition dict_of (kvs : list (string * tr)) : tr := Node (NDict (map fst kvs)) (map snd kvs).
(** [jnp.all(a == b)] on arrays of equal shape, [jnp.allclose], [utils.are_pytrees_equal] on trees and dictionaries *)
Definition all_equal (a b : array QcNum) : bool := match all_eq a b with Ok x => x && shape_eqb (a_shape a) (a_shape b) | Err _ => false end.
Definition all_close (a b : array QcNum) : bool := match allclose a b with Ok x => x && shape_eqb (a_shape a) (a_shape b) | Err _ => false end.
Definition trees_equal (a b : tr) : bool :=
  match are_pytrees_equal (N := QcNum) true (tmap (EArr false) a) (tmap (EArr false) b) with Ok x => x | Err _ => false end.
Definition dicts_equal (a b : dict tr) : bool := trees_equal (Node (NDict (dkeys (sort_items a))) (dvals (sort_items a))) (Node (NDict (dkeys (sort_items b))) (dvals (sort_items b))).
Definition exn_eq_dec (a b : exn) : {a = b} + {a <> b}. Proof. decide equality. Defined.
Definition raises {A} (r : res A) (e : exn) : bool := match r with Err e' => if exn_eq_dec e' e then true else false | Ok _ => false end.
Definition holds {A} (r : res A) (p : A -> bool) : bool := match r with Ok x => p x | Err _ => false end.
Definition entry (d : dict tr) (k : string) (p : tr -> bool) : bool := match dget k d with Some x => p x | None => false end.
(** what [jax.jit] does to a controller or builder it returns *)
Definition jitted (r : res st) : res st :=
  s <- r ;; _ <- guard (carry_leaves_ok s) TypeError ;; unflatten_controller (snd (flatten_controller s)) (fst (flatten_controller s)).
Definition mock (eps : Qc) (its ress probs : array QcNum) (dfs accs upds : dict tr) (dep : Qc) : st :=
  mkState (N := QcNum) eps its ress probs dfs accs upds dep None.
Definition none3 : array QcNum := f32 [3] [i 0; i 0; i 0].

(** The tests call the constructor without [error_mode], [replace] with a depression constant, and [new_builder]. *)
Example tests_cannot_start :
  raises (act_states (N := QcNum) (i 0) none3 none3 none3 [] [] [] (i 1) None) TypeError &&
  raises (replace (mock (t 1) none3 none3 none3 [] [] [] (i 1)) (mkR (N := QcNum) None None None None None None None (Some (i 1)) None)) AttributeError &&
  raises (new_builder (N := QcNum) (BInt 10) None (Q2Qc (1 # 10000)) (i 1)) TypeError = true.
Proof. vm_compute. reflexivity. Qed.

(** ** tests/core/test_controller.py *)

(** 88-99 test_halt_threshold *)
Example controller_halt_threshold : Qceqb (halt_threshold (mock (t 1) none3 none3 none3 [] [] [] (i 1))) (t 9) = true.
Proof. vm_compute. reflexivity. Qed.
(** 101-118 test_halt_batches *)
Example controller_halt_batches :
  data (halted_batches (mock (t 1) none3 none3 (f32 [4] [t 1; t 3; t 4; h 99]) [] [] [] (i 1))) = [false; false; false; true].
Proof. vm_compute. reflexivity. Qed.
(** 128-170 test_process_probabilities, with both depression constants *)
Definition pp_state (dep : Qc) := mock (t 1) none3 none3 (f32 [3] [t 4; t 2; t 7]) [] [] [] dep.
Example controller_process_probabilities :
  holds (process_probabilities (pp_state (i 1)) (f32 [3] [t 3; t 5; t 8])) (fun '(hp, ress, probs) =>
    all_close hp (f32 [3] [t 3; t 5; t 3]) && all_close probs (f32 [3] [t 7; t 7; i 1]) && all_close ress (f32 [3] [i 0; i 0; t 3]) &&
    holds (process_probabilities (pp_state (t 5)) hp) (fun '(hp', _, _) =>
      match a_data hp', a_data hp with x :: _, y :: _ => Qceqb (i 2 * x)%Qc y | _, _ => false end)) = true.
Proof. vm_compute. reflexivity. Qed.
(** 171-244 test_update_accumulators: a missing update is caught in [iterate_act] here, since trees have no [None] leaves *)
Definition ua_state := mock (t 1) none3 none3 (f32 [2] [t 1; i 1]) [] [] [] (i 1).
Definition ua_acc := f32 [2; 3] [i 3; i 4; i (-1); t 7; t 3; t 5].
Example controller_update_accumulators :
  raises (update_accumulator ua_state (f32 [2] [t 6; t 3]) ua_acc (f32 [3] [i 0; i 1; i 2])) RuntimeError &&
  holds (update_accumulator ua_state (f32 [2] [t 5; t 3]) ua_acc (f32 [2; 3] [i 2; i 1; t 1; t 2; i 10; i 11]))
    (fun a => all_close a (f32 [2; 3] [i 4; h 450; h (-95); t 7; t 3; t 5])) = true.
Proof. vm_compute. reflexivity. Qed.
(** 251-292 test_cache_update; 578-594 test_cache_act *)
Definition cu_mock (upds : dict tr) := mock (i 0) none3 none3 none3 [] [] upds (i 1).
Definition cu_upd : tr := Leaf (f32 [3] [i 0; i 0; t 1]).
Definition cu_123 : tr := Leaf (f32 [3] [i 1; i 2; i 3]).
Example controller_cache_update :
  raises (cache_update (cu_mock []) "Test" (Leaf none3)) ValueError &&
  raises (cache_update (cu_mock [("test", cu_123)]) "test" cu_upd) RuntimeError &&
  holds (cache_update (cu_mock [("test", tnone); ("test2", cu_123)]) "test" cu_upd) (fun s => entry (updates s) "test" (trees_equal cu_upd)) &&
  holds (jitted (cache_update (cu_mock [("test", tnone); ("test2", cu_123)]) "test" cu_upd)) (fun s => entry (updates s) "test" (trees_equal cu_upd)) = true.
Proof. vm_compute. reflexivity. Qed.
(** 294-379 test_act_iterate_error_handling *)
Definition m_state : tr := Leaf (f32 [3; 3] [i 3; i 4; i (-1); t 5; t 12; t 21; t 7; t 3; t 5]).
Definition m_output : tr := Leaf (f32 [3; 3] [t 1; t 1; t 1; i 1; t 7; t 3; t 1; t 1; t 1]).
Definition m_accs : dict tr := [("state", m_state); ("output", m_output)].
Definition u_state : tr := Leaf (f32 [3; 3] [i 1; i 1; i 1; i 2; i 2; i 2; i (-1); i 2; i 1]).
Definition u_output : tr := Leaf (f32 [3; 3] [t 1; t 2; t 2; t 12; t 12; t 12; t 1; t 1; t 1]).
Definition m_upds : dict tr := [("state", u_state); ("output", u_output)].
Definition sane (upds : dict tr) : st :=
  mock (t 1) (i32 [3] [i 3; i 3; i 2]) (f32 [3] [i 0; i 0; t 3]) (f32 [3] [t 1; t 5; i 1]) [] m_accs upds (i 1).
Example controller_iterate_errors :
  raises (iterate_act (sane m_upds) (zeros [2; 3; 5])) ValueError &&
  holds (iterate_act (sane m_upds) (f32 [3] [i 0; i 1; t 5])) (fun _ => true) &&
  raises (iterate_act (sane (dset "output" tnone m_upds)) (f32 [3] [t 2; t 3; t 5])) RuntimeError &&
  raises (iterate_act (sane (dset "output" (Leaf (zeros [5; 10; 3])) m_upds)) (f32 [3] [t 2; t 3; t 2])) RuntimeError = true.
Proof. vm_compute. reflexivity. Qed.
(** 380-441 test_act_iterate; 617-673 test_iterate_act_jit *)
Definition iterated (s : st) : bool :=
  all_equal (iterations s) (i32 [3] [i 4; i 4; i 2]) && all_close (probabilities s) (f32 [3] [t 6; i 1; i 1]) &&
  all_close (residuals s) (f32 [3] [i 0; t 5; t 3]) &&
  dicts_equal (accumulators s) [("state", Leaf (f32 [3; 3] [t 35; t 45; t (-5); t 15; t 22; t 31; t 7; t 3; t 5]));
                                ("output", Leaf (f32 [3; 3] [h 15; t 2; t 2; t 16; t 13; t 9; t 1; t 1; t 1]))] &&
  dicts_equal (updates s) [("state", tnone); ("output", tnone)].
Example controller_iterate :
  holds (iterate_act (sane m_upds) (f32 [3] [t 5; t 7; t 6])) iterated && holds (jitted (iterate_act (sane m_upds) (f32 [3] [t 5; t 7; t 6]))) iterated = true.
Proof. vm_compute. reflexivity. Qed.
(** 443-497 test_reset_batches; 674-720 test_reset_batches_jit *)
Definition reset_mock : st :=
  mock (t 1) (i32 [3] [i 3; i 3; i 2]) (f32 [3] [i 0; i 0; t 3]) (f32 [3] [t 1; t 4; i 1])
    [("state", Leaf (zeros [3; 3])); ("output", Leaf (ones [3; 3]))] m_accs [("state", tnone); ("output", tnone)] (i 1).
Definition was_reset (s : st) : bool :=
  all_equal (iterations s) (i32 [3] [i 3; i 3; i 0]) && all_equal (probabilities s) (f32 [3] [t 1; t 4; i 0]) && all_equal (residuals s) none3 &&
  dicts_equal (accumulators s) [("state", Leaf (f32 [3; 3] [i 3; i 4; i (-1); t 5; t 12; t 21; i 0; i 0; i 0]));
                                ("output", Leaf (f32 [3; 3] [t 1; t 1; t 1; i 1; t 7; t 3; i 1; i 1; i 1]))].
Example controller_reset_batches : holds (reset_batches reset_mock) was_reset && holds (jitted (reset_batches reset_mock)) was_reset = true.
Proof. vm_compute. reflexivity. Qed.
(** 500-528 test_get_item; 549-576 test_return_controller *)
Definition item_mock : st :=
  mock (Q2Qc (1 # 1000)) (i32 [2] [i 0; i 0]) (zeros [2]) (zeros [2]) [("item", Leaf (f32 [2] [i 0; t 2]))] [("item", Leaf (f32 [2] [i 0; t 3]))] [("item", tnone)] (i 1).
Example controller_get_item : holds (getitem item_mock "item") (fun _ => true) && raises (getitem item_mock "item2") KeyError = true.
Proof. vm_compute. reflexivity. Qed.
Example controller_return_from_jit :
  holds (c <- jitted (Ok item_mock) ;; c1 <- cache_update c "item" (Leaf (f32 [2] [i 4; t 3])) ;; c2 <- iterate_act c1 (f32 [2] [t 2; t 3]) ;; Ok (c1, c2))
    (fun '(c1, c2) => negb (all_equal (probabilities c1) (probabilities c2))) = true.
Proof. vm_compute. reflexivity. Qed.

(** ** tests/core/test_builder.py ([nb]: [new_builder] with an error mode) *)
Definition nb (b : batch_arg) (d : option dtype) (eps : Qc) : res st := new_builder_with (N := QcNum) (Some None) b d eps (i 1).
Definition nbd (b : batch_arg) : res st := nb b None (Q2Qc (1 # 10000)).
(** 29-97 test_validate_definition_pytree *)
Definition leaves12 (a b : array QcNum) : tr := dict_of [("leaf1", Leaf a); ("leaf2", Leaf b)].
Definition validated (a b : array QcNum) : res unit := s <- nbd (BList [3; 2]%Z) ;; validate_definition s (leaves12 a b).
Example builder_validate :
  holds (validated (zeros [3; 2]) (zeros [3; 2])) (fun _ => true) &&
  raises (validated (zeros [3; 2]) (full DInt32 [3; 2] (i 0))) TypeError &&
  raises (validated (zeros [3; 2]) (zeros [2])) ValueError &&
  raises (validated (zeros [3; 2]) (zeros [5; 3])) ValueError = true.
Proof. vm_compute. reflexivity. Qed.
(** 104-130 test_new_builder. The test expects iterations of dtype int32 only through [==], which promotes. *)
Definition new_ok (b : batch_arg) (sh : list nat) (d : dtype) (eps : Qc) : bool :=
  holds (nb b (Some d) eps) (fun s => Qceqb (epsilon s) eps && all_equal (probabilities s) (full d sh (i 0)) && all_equal (residuals s) (full d sh (i 0)) &&
    all_equal (iterations s) (full DInt32 sh (i 0)) && Nat.eqb (length (accumulators s)) 0 && Nat.eqb (length (updates s)) 0 && Nat.eqb (length (defaults s)) 0).
Example builder_new :
  forallb (fun d => forallb (fun eps => new_ok (BInt 10) [10] d eps && new_ok (BList [10; 20]%Z) [10; 20] d eps && new_ok (BList [3]%Z) [3] d eps)
    [t 1; t 3; t 7]) [DF32; DF16] = true.
Proof. vm_compute. reflexivity. Qed.
(** 132-175 test_new_builder_validation *)
Example builder_new_raises :
  raises (nb (BList [3; 3]%Z) (Some DInt32) (t 1)) ValueError && raises (nb (BList [3; 3]%Z) None (t 15)) ValueError && raises (nb (BList [3; 3]%Z) None (t (-1))) ValueError = true.
Proof. vm_compute. reflexivity. Qed.
(** 181-213 test_define_private *)
Definition def12 : tr := dict_of [("items1", Leaf (zeros [10; 3; 4])); ("items2", Leaf (ones [10; 2; 4]))].
Definition defined_ok (name : string) (d : tr) (s : st) : bool :=
  entry (accumulators s) name (trees_equal d) && entry (defaults s) name (trees_equal d) && entry (updates s) name is_none.
Example builder_define :
  let r := s <- nbd (BInt 10) ;; define s "test_accumulator" def12 in
  holds r (defined_ok "test_accumulator" def12) && holds (jitted r) (defined_ok "test_accumulator" def12) = true.
Proof. vm_compute. reflexivity. Qed.
(** 215-250 test_define_accumulator_directly; the invalid definition of the test has Python ints for leaves, here int32 arrays *)
Example builder_define_directly :
  let define d := s <- nbd (BList [3; 3]%Z) ;; define_directly s "acc" (dict_of [("matrix", d); ("normalizer", Leaf (zeros [3; 3]))]) in
  let good := define (Leaf (zeros [3; 3; 3])) in
  holds good (fun s => dmem "acc" (defaults s) && dmem "acc" (accumulators s)) &&
  holds (jitted good) (fun s => dmem "acc" (defaults s) && dmem "acc" (accumulators s)) &&
  raises (define (Node NList [Node NList [Leaf (full DInt32 [] (i 1)); Leaf (full DInt32 [] (i 2)); Leaf (full DInt32 [] (i 3))]])) TypeError = true.
Proof. vm_compute. reflexivity. Qed.
(** 252-347 test_define_accumulator_by_shape *)
Definition ints (zs : list Z) : tree sleaf := Node NList (map (fun z => Leaf (SInt z)) zs).
Definition by_shape (sh : tree sleaf) (d : dtype) : res st := s <- nbd (BList [3; 3]%Z) ;; define_by_shape s "acc" sh d (i 0).
Definition both (r : res st) (p : st -> bool) : bool := holds r p && holds (jitted r) p.
Example builder_define_by_shape :
  both (by_shape (ints [3; 3; 3]%Z) DF32) (fun s => dmem "acc" (defaults s) && entry (accumulators s) "acc" (trees_equal (Leaf (zeros [3; 3; 3])))) &&
  both (by_shape (Node (NDict ["item2"; "items1"]) [ints [3; 3; 10; 4]%Z; ints [3; 3; 4]%Z]) DF32)
    (fun s => entry (defaults s) "acc" (trees_equal (dict_of [("item2", Leaf (zeros [3; 3; 10; 4])); ("items1", Leaf (zeros [3; 3; 4]))]))) &&
  both (by_shape (ints [3; 3; 3]%Z) DF16) (fun s => entry (defaults s) "acc" (fun x => match x with Leaf a => dtype_eqb (a_dt a) DF16 && all_equal a (zeros [3; 3; 3]) | _ => false end)) &&
  raises (by_shape (Node (NDict ["matrix"]) [Node NList [Leaf (SInt 3); Leaf SOther; Leaf (SInt 3)]]) DF16) ValueError &&
  raises (by_shape (ints [3; 3; 3]%Z) DInt32) TypeError = true.
Proof. vm_compute. reflexivity. Qed.

(** ** tests/core/test_utilities.py *)

(** 33-50 test_setup_left_broadcast *)
Example utils_left_broadcast :
  holds (setup_left_broadcast (a_ten (zeros [2; 5])) [2; 5]) (fun x => holds (tbin Qcplus x (a_ten (zeros [2; 5]))) (fun _ => true)) &&
  holds (setup_left_broadcast (a_ten (zeros [2; 5])) [2; 5; 6; 8]) (fun x => holds (tbin Qcplus (a_ten (zeros [2; 5; 6; 8])) x) (fun _ => true)) &&
  raises (setup_left_broadcast (a_ten (zeros [2; 5])) [2]) AssertionError = true.
Proof. vm_compute. reflexivity. Qed.
(** 51-66 test_are_pytree_structure_equal *)
Definition items3 {L} (a b c d : tree L) : tree L := Node (NDict ["item1"; "item2"; "item3"]) [a; b; Node NList [c; d]].
Example utils_structure_equal :
  let tree1 : tree unit := items3 (Leaf tt) (Leaf tt) (Leaf tt) (Leaf tt) in
  are_pytree_structure_equal tree1 tree1 && are_pytree_structure_equal tree1 (items3 (L := unit) tnone tnone tnone tnone) &&
  negb (are_pytree_structure_equal tree1 (Node (L := unit) (NDict []) [])) = true.
Proof. vm_compute. reflexivity. Qed.
(** 68-94 test_merge_pytrees *)
Definition a_minus (x y : array QcNum) : res (array QcNum) := a_bin (N := QcNum) Qcminus x y.
Definition mt1 : tr := Leaf (f32 [4] [i 0; i 1; t 12; t 1]).
Definition mt2 : tr := Leaf (f32 [4] [i 2; i 1; t 2; t 1]).
Definition mt3 : tr := Leaf (f32 [4] [i (-2); i 0; i 1; i 0]).
Example utils_merge :
  holds (merge_pytrees a_minus mt1 mt2) (trees_equal mt3) &&
  holds (merge_pytrees a_minus (items3 mt1 mt1 mt1 mt1) (items3 mt2 mt2 mt2 mt2)) (trees_equal (items3 mt3 mt3 mt3 mt3)) = true.
Proof. vm_compute. reflexivity. Qed.
(** 119-128 test_repeat_node is about object identity. 130-149 test_count_linked_leaves *)
Example utils_count :
  let leaf : treedef := Leaf tt in
  map count_linked_leaves [Node NList []; Node NList [leaf]; Node NList [leaf; Node (NDict ["1"; "2"]) [leaf; leaf]; Node NList []]] = [0; 1; 3].
Proof. vm_compute. reflexivity. Qed.
(** 150-199 test_replicate_leaves (leaves by number) *)
Definition replicate (a b : tree nat) := replicate_leaves (structure a) (structure b) (leaves a).
Definition br {L} (a b : tree L) : tree L := Node (NDict ["branch1"; "branch2"]) [a; b].
Example utils_replicate :
  replicate (Leaf 1) (Leaf 2) = Ok ([1], []) /\
  replicate (Leaf 1) (Node (NDict ["item"; "item2"]) [Node NList [Leaf 5; Leaf 6]; Leaf 7]) = Ok ([1; 1; 1], []) /\
  replicate (br (Leaf 1) (Leaf 2)) (br (Node NList [Leaf 5; Leaf 6]) (Node NList [Leaf 7])) = Ok ([1; 1; 2], []).
Proof. repeat split. Qed.
(** 200-232 test_replicate_raises *)
Example utils_replicate_raises :
  raises (replicate (Node (NDict ["item1"; "item2"]) [Leaf 1; Leaf 2]) (Node (NDict ["item2"; "item3"]) [Leaf 1; Node NList [Leaf 3; Leaf 5]])) RuntimeError &&
  raises (replicate (Node NList [Leaf 1; Leaf 2; Leaf 3]) (Node NList [Leaf 1; Leaf 2])) RuntimeError &&
  raises (replicate (Node NList [Leaf 1; Leaf 2; Leaf 3]) (Node (NDict ["1"; "2"; "3"]) [Leaf 1; Leaf 2; Leaf 3])) RuntimeError = true.
Proof. vm_compute. reflexivity. Qed.
(** 233-287 test_broadcast_setup_pytree *)
Definition it12 {L} (a b c : tree L) : tree L := Node (NDict ["item1"; "item2"]) [Node NList [a; b]; c].
Example utils_broadcast :
  holds (broadcast_pytree_shape (Leaf (full DF32 [] (i 2))) (it12 (Leaf 1) (Leaf 2) (Leaf 3)))
    (trees_equal (let x := Leaf (full DF32 [] (i 2)) in it12 x x x)) &&
  holds (broadcast_pytree_shape (Leaf (ones [1; 1])) (it12 (Leaf 1) (Leaf 2) (Leaf 3))) (trees_equal (let x := Leaf (ones [1; 1]) in it12 x x x)) &&
  holds (broadcast_pytree_shape (dict_of [("item1", Leaf (ones [3])); ("item2", Leaf (ones [5]))]) (Node (NDict ["item1"; "item2"]) [Leaf 1; Node NList [Leaf 2; Leaf 3]]))
    (trees_equal (dict_of [("item1", Leaf (ones [3])); ("item2", Node NList [Leaf (ones [5]); Leaf (ones [5])])])) &&
  holds (broadcast_pytree_shape (Leaf (ones [4])) (Leaf (ones [4; 5; 6]))) (trees_equal (Leaf (ones [4]))) = true.
Proof. vm_compute. reflexivity. Qed.
(** 290-349 test_execute_binary_operator_* *)
Definition twice (sh : list nat) : tr := Leaf (full DF32 sh (i 2)).
Definition exec := @execute_binary_operator QcNum.
Example utils_binary_operator :
  holds (exec (a_add (N := QcNum)) (Leaf (ones [3])) (Leaf (ones [3; 7]))) (trees_equal (twice [3; 7])) &&
  holds (exec (a_add (N := QcNum)) (Leaf (ones [3; 7])) (Leaf (ones [3]))) (trees_equal (twice [3; 7])) &&
  (let b := dict_of [("item1", Leaf (ones [3; 5])); ("item2", Leaf (ones [3; 7]))] in
   let r := dict_of [("item1", twice [3; 5]); ("item2", twice [3; 7])] in
   holds (exec (a_add (N := QcNum)) (Leaf (ones [3])) b) (trees_equal r) && holds (exec (a_add (N := QcNum)) b (Leaf (ones [3]))) (trees_equal r)) &&
  holds (exec a_minus (Leaf (full DF32 [3] (i 2))) (Leaf (ones [3; 5]))) (trees_equal (Leaf (ones [3; 5]))) &&
  raises (exec (a_add (N := QcNum)) (dict_of [("item1", Leaf (ones [3]))]) (dict_of [("item2", Leaf (ones [4]))])) RuntimeError &&
  raises (exec (fun _ _ => Err TypeError) (Leaf (ones [3; 4])) (Leaf (ones [2; 7]))) RuntimeError = true.
Proof. vm_compute. reflexivity. Qed.
(** 350-379 test_execute_unitary_operator_*: the class they call has no such method at this commit. *)

(** ** tests/core/test_viewer.py *)
Definition v_defs : dict tr := [("state", u_state); ("output", u_output)].
Definition viewer : st :=
  mock (t 1) (i32 [3] [i 3; i 3; i 2]) (f32 [3] [i 0; i 0; t 3]) (f32 [3] [t 1; t 5; i 1]) v_defs m_accs [("state", u_state); ("output", tnone)] (i 1).
(** 65-71 *)
Example viewer_properties : Qceqb (halt_threshold viewer) (t 9) = true /\ data (halted_batches viewer) = [false; false; true].
Proof. vm_compute. split; reflexivity. Qed.
(** 101-113 test_transform_throws *)
Example viewer_transform_throws : raises (transform viewer (fun _ => Err ValueError)) RuntimeError = true.
Proof. vm_compute. reflexivity. Qed.
(** 115-143 test_transform; 239-258 test_transform_jit *)
Definition expand (a : array QcNum) : res (array QcNum) := Ok (mkA (N := QcNum) (a_dt a) (mkT (1 :: a_shape a) (a_data a))).
Definition starts13 (d : dict tr) : bool := forallb (fun kv => forallb (fun a => shape_eqb (firstn 2 (a_shape a)) [1; 3]) (leaves (snd kv))) d.
Example viewer_transform :
  both (transform viewer expand) (fun v =>
    forallb (fun a => shape_eqb (a_shape a) [1; 3]) [iterations v; residuals v; probabilities v] &&
    starts13 (accumulators v) && starts13 (defaults v) && starts13 (updates v)) = true.
Proof. vm_compute. reflexivity. Qed.
(** 145-160 test_mask_throws *)
Example viewer_mask_throws :
  raises (mask_data viewer DInt32 (mkT [3] [true; false; true])) ValueError && raises (mask_data viewer DBool (mkT [2] [true; false])) ValueError = true.
Proof. vm_compute. reflexivity. Qed.
(** 162-181 test_mask; 260-273 test_mask_data_jit *)
Definition masked (m : list bool) (ps : list Qc) : bool := both (mask_data viewer DBool (mkT [3] m)) (fun v => all_equal (probabilities v) (f32 [3] ps)).
Example viewer_mask :
  masked [false; true; true] [i 0; t 5; i 1] && masked [false; false; false] [i 0; i 0; i 0] &&
  masked [true; true; true] [t 1; t 5; i 1] && masked [true; true; false] [t 1; t 5; i 0] = true.
Proof. vm_compute. reflexivity. Qed.
(** 183-196 test_unhalted_only, test_halted_only; 275-306 the same under jit *)
Example viewer_halted :
  both (unhalted_only viewer) (fun v => all_equal (probabilities v) (f32 [3] [t 1; t 5; i 0])) &&
  both (halted_only viewer) (fun v => all_equal (probabilities v) (f32 [3] [i 0; i 0; i 1])) = true.
Proof. vm_compute. reflexivity. Qed.

(** ** tests/core/test_editor.py *)

(** 41-257 test_setter_validation: the checks of each validator *)
Example editor_validators :
  [check_same_shape (zeros [10; 5]) (ones [10; 5]); check_same_shape (zeros [10; 5]) (zeros [7; 5]);
   check_same_dtype (zeros [10; 5]) (zeros [10; 5]); check_same_dtype (zeros [10; 5]) (full DF16 [10; 5] (i 1));
   forallb (fun b => b) (checks_probability (f32 [3] [i 0; i 1; t 3])); forallb (fun b => b) (checks_probability (f32 [3] [t (-1); t 3; t 4]));
   forallb (fun b => b) (checks_probability (f32 [3] [t 13; t 3; t 4]));
   check_natural (i32 [5] [i 0; i 1; i 2; i 3; i 5]); check_natural (i32 [3] [i (-1); i 2; i 4]);
   (let s := mock (i 0) none3 none3 none3 [("potato", mt1)] [("potato", mt1)] [] (i 1) in check_exists s "potato");
   (let s := mock (i 0) none3 none3 none3 [("potato", mt1)] [("potato", mt1)] [] (i 1) in check_exists s "tomato");
   check_structure (dict_of [("item", mt1)]) (dict_of [("item", tnone)]); check_structure (dict_of [("item", mt1)]) (dict_of [("baby", tnone); ("item", tnone)]);
   (let l a := dict_of [("item1", Leaf a); ("item2", Leaf a)] in forallb (fun b => b) (checks_leaves (l (zeros [3; 2; 5])) (l (zeros [3; 2; 5]))));
   (let l a := dict_of [("item1", Leaf a); ("item2", Leaf a)] in forallb (fun b => b) (checks_leaves (l (zeros [3; 2; 5])) (l (zeros [3; 2; 7]))));
   (let l a := dict_of [("item1", Leaf a); ("item2", Leaf a)] in forallb (fun b => b) (checks_leaves (l (zeros [3; 2; 5])) (l (full DF16 [3; 2; 5] (i 0)))))]
  = [true; false; true; false; true; false; false; true; false; true; false; true; false; true; false; false].
Proof. vm_compute. reflexivity. Qed.
(** 269-288 make_state_mockup and [edit_save(save, "standard")] *)
Definition ed_save (accs upds : dict tr) : st :=
  mock (t 1) (i32 [3] [i 3; i 3; i 2]) (f32 [3] [i 0; i 0; t 3]) (f32 [3] [t 1; t 5; i 1]) accs accs upds (i 1).
Definition edit (accs upds : dict tr) (f : editor QcNum -> res (editor QcNum)) : res (editor QcNum) := e <- edit_save (ed_save accs upds) "standard" ;; f e.
Definition edit0 := edit m_accs m_upds.
(** 289-328 test_set_probabilities *)
Example editor_set_probabilities :
  holds (edit0 (fun e => set_probabilities e (ones [3]))) (fun e => all_equal (probabilities (ed_state e)) (ones [3])) &&
  raises (edit0 (fun e => set_probabilities e (full DF32 [3] (t 11)))) JaxRuntimeError &&
  raises (edit0 (fun e => set_probabilities e (ones [4; 4]))) JaxRuntimeError &&
  raises (edit0 (fun e => set_probabilities e (full DInt32 [3; 3] (i 1)))) JaxRuntimeError = true.
Proof. vm_compute. reflexivity. Qed.
(** 331-376 test_set_residuals *)
Example editor_set_residuals :
  holds (edit0 (fun e => set_residuals e (ones [3]))) (fun e => all_equal (residuals (ed_state e)) (ones [3])) &&
  forallb (fun v => raises (edit0 (fun e => set_residuals e v)) JaxRuntimeError)
    [ones [4; 4]; full DInt32 [3] (i 1); full DF32 [3] (t 11); full DF32 [3] (t (-1))] = true.
Proof. vm_compute. reflexivity. Qed.
(** 377-413 test_set_iterations *)
Example editor_set_iterations :
  holds (edit0 (fun e => set_iterations e (i32 [3] [i 1; i 2; i 3]))) (fun e => all_equal (iterations (ed_state e)) (i32 [3] [i 1; i 2; i 3])) &&
  forallb (fun v => raises (edit0 (fun e => set_iterations e v)) JaxRuntimeError)
    [i32 [3; 2] [i 1; i 2; i 3; i 4; i 5; i 6]; f32 [3] [i 1; i 2; i 3]; i32 [3] [i (-1); i 2; i 3]] = true.
Proof. vm_compute. reflexivity. Qed.
(** 415-443 test_set_epsilon *)
Example editor_set_epsilon :
  holds (edit0 (fun e => set_epsilon e (t 5))) (fun e => Qceqb (epsilon (ed_state e)) (t 5)) &&
  raises (edit0 (fun e => set_epsilon e (t (-1)))) JaxRuntimeError && raises (edit0 (fun e => set_epsilon e (t 11))) JaxRuntimeError = true.
Proof. vm_compute. reflexivity. Qed.
(** 445-533 test_set_accumulator, test_set_defaults, test_set_updates *)
Definition mn (a b : array QcNum) : tr := dict_of [("matrix", Leaf a); ("normalizer", Leaf b)].
Definition edit1 := edit [("test_acc", mn (zeros [3; 3; 3]) (zeros [3; 3]))] [("test_acc", mn (zeros [3; 3; 3]) (zeros [3; 3]))].
Definition mn1 : tr := mn (ones [3; 3; 3]) (ones [3; 3]).
Definition set_three (set : editor QcNum -> string -> tr -> res (editor QcNum)) (get : st -> dict tr) : bool :=
  holds (edit1 (fun e => set e "test_acc" mn1)) (fun e => entry (get (ed_state e)) "test_acc" (trees_equal mn1)) &&
  raises (edit1 (fun e => set e "test_acc" (mn (ones [4; 4; 4]) (ones [3; 3])))) JaxRuntimeError.
Example editor_set_accumulator :
  set_three (@set_accumulator QcNum) (@accumulators QcNum) && raises (edit1 (fun e => set_accumulator e "non_existing_acc" mn1)) JaxRuntimeError = true.
Proof. vm_compute. reflexivity. Qed.
Example editor_set_defaults :
  set_three (@set_defaults QcNum) (@defaults QcNum) && raises (edit1 (fun e => set_defaults e "non_existing_acc" mn1)) JaxRuntimeError = true.
Proof. vm_compute. reflexivity. Qed.
(** the test hands [None] to the name that does not exist *)
Example editor_set_updates :
  set_three (@set_updates QcNum) (@updates QcNum) && holds (edit1 (fun e => set_updates e "test_acc" tnone)) (fun e => entry (updates (ed_state e)) "test_acc" is_none) &&
  raises (edit1 (fun e => set_updates e "non_existing_acc" tnone)) JaxRuntimeError = true.
Proof. vm_compute. reflexivity. Qed.
(** 575-605 test_moderate_edit *)
Example editor_moderate_edit :
  holds (e <- edit_save (ed_save m_accs m_upds) "standard" ;; e <- set_probabilities e (ones [3]) ;;
         e <- set_accumulator e "output" (Leaf (ones [3; 3])) ;; e <- set_updates e "output" (Leaf (ones [3; 3])) ;; Ok (editor_save e))
    (fun s => all_equal (probabilities s) (ones [3])) = true.
Proof. vm_compute. reflexivity. Qed.

(** ** tests/core/layers/test_core.py and test_act.py *)
Definition layer_builder (b : batch_arg) (defs : list (string * list Z)) : res st :=
  fold_left (fun r d => s <- r ;; define_by_shape (N := QcNum) s (fst d) (ints (snd d)) DF32 (i 0)) defs (nbd b).
(** 52-155 the validators. 107-114 test_validate_is_tuple, 116-131 test_validate_length_two *)
Definition committed2 := layer_builder (BList [3]%Z) [("one", [3; 7]%Z); ("two", [3]%Z)].
Definition more2 := c <- committed2 ;; cache_update c "one" (Leaf (ones [3; 7])).
Definition ready2 := c <- more2 ;; cache_update c "two" (Leaf (ones [3])).
Example layer_validators :
  raises (validate_made (N := QcNum) (MOther tnone)) TypeError &&
  raises (c <- nbd (BList [3; 5]%Z) ;; validate_made (MCtrl c)) RuntimeError &&
  holds (c <- layer_builder (BList [3; 5]%Z) [("test", [3; 5; 10]%Z)] ;; validate_made (MCtrl c)) (fun _ => true) &&
  raises (c <- committed2 ;; validate_update c (ROther tnone)) TypeError &&
  raises (c <- committed2 ;; validate_update c (RTuple [ICtrl c; IObj tnone; IObj tnone])) RuntimeError &&
  raises (c <- committed2 ;; validate_update c (RTuple [ISame; IObj tnone])) RuntimeError &&
  holds (c <- committed2 ;; validate_update c (RTuple [ICtrl c; IObj tnone])) (fun _ => true) &&
  holds (c <- committed2 ;; validate_all_committed c) (fun _ => true) &&
  raises (c <- more2 ;; validate_all_committed c) RuntimeError &&
  raises (c <- ready2 ;; validate_all_committed c) RuntimeError = true.
Proof. vm_compute. reflexivity. Qed.
(** 163-244: a layer with batch 7, made through the wrapper, and one run *)
Definition core_layer : layer QcNum :=
  mkLayer (N := QcNum)
    (fun init _ => match init with Leaf a => match a_shape a with b :: _ => c <- layer_builder (BInt (Z.of_nat b)) [("test", [Z.of_nat b; 2%Z])] ;; Ok (MCtrl c) | [] => Err IndexError end | _ => Err AttributeError end)
    (fun c u => match u with
                | Leaf a => match a_shape a with
                            | b :: _ => c1 <- cache_update c "test" (Leaf (ones [b; 2])) ;; c2 <- iterate_act c1 (full DF32 [b] (t 5)) ;; Ok (RTuple [ICtrl c2; IObj u])
                            | [] => Err IndexError
                            end
                | _ => Err AttributeError
                end)
    (fun _ _ => Ok tt).
Example layer_make_and_run :
  holds (wrapped_make_controller true core_layer (Leaf (ones [7; 2])) (i 1)) (fun m => match m with MCtrl c => shape_eqb (a_shape (probabilities c)) [7] | _ => false end) &&
  holds (m <- wrapped_make_controller true core_layer (Leaf (ones [3])) (i 1) ;;
         match m with MCtrl c => wrapped_run_iteration true core_layer c (Leaf (ones [3])) | MOther _ => Err TypeError end)
    (fun r => match r with RTuple [ICtrl c; IObj _] => all_equal (probabilities c) (full DF32 [3] (t 5)) | _ => false end) = true.
Proof. vm_compute. reflexivity. Qed.
(** test_act.py:10-67 test_act, embedding_dim 10 *)
Definition act_layer : layer QcNum :=
  mkLayer (N := QcNum)
    (fun init _ => match init with Leaf a => match a_shape a with b :: _ => c <- layer_builder (BInt (Z.of_nat b)) [("state", map Z.of_nat (a_shape a)); ("output", [Z.of_nat b; 10%Z])] ;; Ok (MCtrl c) | [] => Err IndexError end | _ => Err AttributeError end)
    (fun c u => match u with
                | Leaf a => match a_shape a with
                            | b :: _ =>
                                a' <- a_add a (full DF32 (a_shape a) (t 1)) ;;
                                c1 <- cache_update c "state" (Leaf a') ;; c2 <- cache_update c1 "output" (Leaf (full DF32 [b; 10] (t 1))) ;;
                                c3 <- iterate_act c2 (full DF32 [b] (t 1)) ;; Ok (RTuple [ICtrl c3; IObj (Leaf a')])
                            | [] => Err IndexError
                            end
                | _ => Err AttributeError
                end)
    (fun _ _ => Ok tt).
(** The test only looks whether it runs. The state is 1/10 after the first iteration, 1 after the tenth; each is weighted with
    1/10, so the accumulated state is 55/100. *)
Example layer_test_act :
  holds (execute_act act_layer (Leaf (zeros [7])) (i 1) 10 true) (fun '(c, u) =>
    is_completely_halted c && trees_equal u (Leaf (ones [7])) &&
    entry (accumulators c) "state" (trees_equal (Leaf (full DF32 [7] (h 55)))) && entry (accumulators c) "output" (trees_equal (Leaf (full DF32 [7; 10] (t 1))))) = true.
Proof. vm_compute. reflexivity. Qed.

(** ** tests/core/test_integration.py: the loop in Python and the loop in [while_loop] end alike *)
Definition basic_step (c : st) : res st :=
  c1 <- cache_update c "state" (Leaf (full DF32 [10; 20] (t 1))) ;; c2 <- cache_update c1 "output" (Leaf (full DF32 [10; 10] (t 1))) ;; iterate_act c2 (full DF32 [10] (t 1)).
Fixpoint python_while (fuel : nat) (c : st) : res (st * nat) :=
  if is_completely_halted c then Ok (c, 0)
  else match fuel with 0 => Err NotImplementedError | S fuel' => c' <- basic_step c ;; '(d, n) <- python_while fuel' c' ;; Ok (d, S n) end.
Definition basic_controller : res st := layer_builder (BInt 10) [("state", [10; 20]%Z); ("output", [10; 10]%Z)].
Definition same_arrays (c d : st) : bool :=
  Qceqb (epsilon c) (epsilon d) && all_close (iterations c) (iterations d) && all_close (residuals c) (residuals d) && all_close (probabilities c) (probabilities d) &&
  dicts_equal (accumulators c) (accumulators d) && dicts_equal (defaults c) (defaults d) && dicts_equal (updates c) (updates d).
Example integration_basic_act :
  holds (c <- basic_controller ;; '(d, n) <- python_while 20 c ;;
         '(f, _, m) <- while_loop (fun x => let '(c, u, m) := x in c' <- basic_step c ;; Ok (c', u, increase_counter m)) (c, Leaf (full DF32 [10; 20] (t 1)), mkM 0 20) ;;
         Ok (d, n, f, m))
    (fun '(d, n, f, m) => Nat.eqb n 10 && Z.eqb (num_iterations m) 10 && same_arrays d f && entry (accumulators d) "state" (trees_equal (Leaf (full DF32 [10; 20] (t 1))))) = true.
Proof. vm_compute. reflexivity. Qed.
