(** * Facts about renaming accumulators *)
From Verif Require Import Base PyTree Tensor Num Utils States Controller Builder Viewer Editor Heap HeapSpec RenameSpec.

Section RenameFacts.
  Context {N : numsys} (nn : string -> string) (inj : one_to_one nn).
  Notation st := (state N).
  Notation tr := (tree (array N)).
  Notation rd := (rename_dict nn).
  Notation rn := (rename nn).

  Lemma eqb_nn k k' : String.eqb (nn k) (nn k') = String.eqb k k'.
  Proof.
    destruct (String.eqb_spec k k') as [->|H]; [apply String.eqb_refl|]. apply String.eqb_neq. intros E. now apply H, inj.
  Qed.
  Lemma dget_rd {V} k (d : dict V) : dget (nn k) (rd d) = dget k d.
  Proof. induction d as [|[k' v] d IH]; cbn; [reflexivity|]. rewrite eqb_nn. now destruct (String.eqb k k'). Qed.
  Lemma dset_rd {V} k (v : V) d : dset (nn k) v (rd d) = rd (dset k v d).
  Proof.
    induction d as [|[k' v'] d IH]; cbn; [reflexivity|]. rewrite eqb_nn. destruct (String.eqb k k'); cbn; [reflexivity|]. f_equal. exact IH.
  Qed.
  Lemma ddel_rd {V} k (d : dict V) : ddel (nn k) (rd d) = rd (ddel k d).
  Proof.
    induction d as [|[k' v'] d IH]; cbn; [reflexivity|]. rewrite eqb_nn. destruct (String.eqb k k'); cbn; [reflexivity|]. f_equal. exact IH.
  Qed.
  Lemma dkeys_rd {V} (d : dict V) : dkeys (rd d) = map nn (dkeys d).
  Proof. unfold dkeys, rename_dict. rewrite !map_map. reflexivity. Qed.
  Lemma dmem_rd {V} k (d : dict V) : dmem (nn k) (rd d) = dmem k d.
  Proof. unfold dmem. now rewrite dget_rd. Qed.
  Lemma dlookup_rd {V} k (d : dict V) : dlookup (nn k) (rd d) = dlookup k d.
  Proof. unfold dlookup. now rewrite dget_rd. Qed.
  Lemma dpop_rd {V} k (d : dict V) : dpop (nn k) (rd d) = fmap rd (dpop k d).
  Proof. unfold dpop. rewrite dmem_rd. destruct (dmem k d); cbn; [|reflexivity]. now rewrite ddel_rd. Qed.
  Lemma dmapM_rd {V W} (f : V -> res W) d : dmapM f (rd d) = fmap rd (dmapM f d).
  Proof.
    induction d as [|[k v] d IH]; cbn; [reflexivity|]. destruct (f v); cbn; [|reflexivity]. unfold rename_dict in IH. rewrite IH.
    now destruct (dmapM f d).
  Qed.
  Lemma forallb_rd {V} (p : V -> bool) d : forallb (fun kv => p (snd kv)) (rd d) = forallb (fun kv => p (snd kv)) d.
  Proof. induction d as [|[k v] d IH]; cbn; [reflexivity|]. f_equal. exact IH. Qed.
  Lemma existsb_rd {V} (p : V -> bool) d : existsb (fun kv => p (snd kv)) (rd d) = existsb (fun kv => p (snd kv)) d.
  Proof. induction d as [|[k v] d IH]; cbn; [reflexivity|]. f_equal. exact IH. Qed.

  Lemma cache_rn (s : st) k t : cache_update (rn s) (nn k) t = fmap rn (cache_update s k t).
  Proof.
    unfold cache_update. cbn [updates rename]. rewrite dget_rd. destruct (dget k (updates s)) as [p|]; [|reflexivity].
    destruct (negb (is_none p)); [reflexivity|]. rewrite dset_rd. reflexivity.
  Qed.
  Lemma iterate_loop_rn (s : st) h names a u : iterate_loop (rn s) h (map nn names) (rd a) (rd u) =
    fmap (fun x => (rd (fst x), rd (snd x))) (iterate_loop s h names a u).
  Proof.
    revert a u. induction names as [|k names IH]; intros a u; cbn [map iterate_loop]; [reflexivity|].
    rewrite !dlookup_rd. unfold rewrap. destruct (dlookup k a) as [acc|e]; cbn [bind]; [|reflexivity].
    destruct (dlookup k u) as [upd|e]; cbn [bind]; [|reflexivity]. destruct (guard (negb (is_none upd)) RuntimeError); cbn [bind]; [|reflexivity].
    change (update_accumulator (rn s) h) with (update_accumulator s h).
    destruct (merge_pytrees (update_accumulator s h) acc upd); cbn [bind]; [|reflexivity]. rewrite !dset_rd. apply IH.
  Qed.
  Lemma iterate_rn (s : st) h : iterate_act (rn s) h = fmap rn (iterate_act s h).
  Proof.
    unfold iterate_act. cbn [probabilities rename]. destruct (guard _ ValueError); cbn [bind]; [|reflexivity].
    change (process_probabilities (rn s)) with (process_probabilities s).
    destruct (process_probabilities s (a_clip01 h)) as [[[h' r'] p']|]; cbn [bind]; [|reflexivity].
    cbn [accumulators updates rename]. rewrite dkeys_rd, iterate_loop_rn.
    destruct (iterate_loop s h' (dkeys (accumulators s)) (accumulators s) (updates s)) as [[accs upds]|]; cbn [bind fmap fst snd]; [|reflexivity].
    change (halted_batches (rn s)) with (halted_batches s). cbn [iterations rename].
    destruct (a_select (halted_batches s) (iterations s) (a_plus_one (iterations s))); reflexivity.
  Qed.
  Lemma reset_loop_rn (s : st) un names out : reset_loop (rn s) un (map nn names) (rd out) = fmap rd (reset_loop s un names out).
  Proof.
    revert out. induction names as [|k names IH]; intros out; cbn [map reset_loop]; [reflexivity|].
    cbn [accumulators defaults rename]. rewrite !dlookup_rd. destruct (dlookup k (accumulators s)) as [acc|e]; cbn [bind]; [|reflexivity].
    destruct (dlookup k (defaults s)) as [def|e]; cbn [bind]; [|reflexivity].
    destruct (merge_pytrees (reset_leaf un acc) acc def); cbn [bind]; [|reflexivity]. rewrite dset_rd. apply IH.
  Qed.
  Lemma reset_rn (s : st) : reset_batches (rn s) = fmap rn (reset_batches s).
  Proof.
    unfold reset_batches. assert (E : has_cached_updates (rn s) = has_cached_updates s).
    { unfold has_cached_updates. cbn [updates rename]. apply (existsb_rd (fun t => negb (is_none t))). }
    rewrite E. destruct (guard _ RuntimeError); cbn [bind]; [|reflexivity].
    change (halted_batches (rn s)) with (halted_batches s). cbn [iterations probabilities residuals accumulators rename].
    destruct (a_mul_bool (iterations s) (tnot (halted_batches s))); cbn [bind]; [|reflexivity].
    destruct (a_mul_bool (probabilities s) (tnot (halted_batches s))); cbn [bind]; [|reflexivity].
    destruct (a_mul_bool (residuals s) (tnot (halted_batches s))); cbn [bind]; [|reflexivity].
    rewrite dkeys_rd. assert (L := reset_loop_rn s (tnot (halted_batches s)) (dkeys (accumulators s)) []). cbn [rename_dict map] in L.
    rewrite L. destruct (reset_loop s (tnot (halted_batches s)) (dkeys (accumulators s)) []); reflexivity.
  Qed.
  Lemma transform_rn (s : st) f : transform (rn s) f = fmap rn (transform s f).
  Proof.
    unfold transform. cbn [iterations probabilities residuals accumulators defaults rename]. rewrite !dmapM_rd. unfold rewrap.
    destruct (f (iterations s)); cbn [bind]; [|reflexivity]. destruct (f (residuals s)); cbn [bind]; [|reflexivity].
    destruct (f (probabilities s)); cbn [bind]; [|reflexivity]. destruct (dmapM (tree_mapM f) (accumulators s)); cbn [bind fmap]; [|reflexivity].
    destruct (dmapM (tree_mapM f) (defaults s)); cbn [bind fmap]; reflexivity.
  Qed.
  Lemma mask_rn (s : st) d m : mask_data (rn s) d m = fmap rn (mask_data s d m).
  Proof.
    unfold mask_data. destruct (guard (dtype_eqb d DBool) ValueError); cbn [bind]; [|reflexivity]. cbn [probabilities rename].
    destruct (guard _ ValueError); cbn [bind]; [|reflexivity]. apply transform_rn.
  Qed.
  Lemma define_rn (s : st) k t : define (rn s) (nn k) t = fmap rn (define s k t).
  Proof.
    unfold define. change (validate_definition (rn s) t) with (validate_definition s t).
    destruct (validate_definition s t); cbn [bind]; [|reflexivity]. cbn [accumulators defaults updates rename]. now rewrite !dset_rd.
  Qed.
  Lemma define_by_shape_rn (s : st) k sh d x : define_by_shape (rn s) (nn k) sh d x = fmap rn (define_by_shape s k sh d x).
  Proof.
    unfold define_by_shape. destruct (mapM _ _) as [ls|]; cbn [bind]; [|reflexivity].
    destruct (unflatten _ ls); cbn [bind]; [|reflexivity]. apply define_rn.
  Qed.
  Lemma delete_rn (s : st) k : delete_definition (rn s) (nn k) = fmap rn (delete_definition s k).
  Proof.
    unfold delete_definition. cbn [accumulators defaults updates rename]. rewrite !dpop_rd.
    destruct (dpop k (defaults s)); cbn [bind fmap]; [|reflexivity]. destruct (dpop k (accumulators s)); cbn [bind fmap]; [|reflexivity].
    destruct (dpop k (updates s)); reflexivity.
  Qed.
  Lemma getitem_rn (s : st) k : getitem (rn s) (nn k) = getitem s k.
  Proof. apply dlookup_rd. Qed.
  Notation re := (fun e : editor N => mkEd (rn (ed_state e)) (ed_mode e)).
  Lemma set_accumulator_rn (e : editor N) k t : set_accumulator (re e) (nn k) t = fmap re (set_accumulator e k t).
  Proof.
    destruct e as [s m]. unfold set_accumulator, execute_checks, checks_like_accumulator, check_exists.
    cbn [ed_state ed_mode accumulators defaults rename]. rewrite !dmem_rd, !dlookup_rd, !dset_rd.
    match goal with |- bind ?x _ = _ => destruct x end; reflexivity.
  Qed.
  Lemma set_defaults_rn (e : editor N) k t : set_defaults (re e) (nn k) t = fmap re (set_defaults e k t).
  Proof.
    destruct e as [s m]. unfold set_defaults, execute_checks, checks_like_accumulator, check_exists.
    cbn [ed_state ed_mode accumulators defaults rename]. rewrite !dmem_rd, !dlookup_rd, !dset_rd.
    match goal with |- bind ?x _ = _ => destruct x end; reflexivity.
  Qed.
  Lemma set_updates_rn (e : editor N) k t : set_updates (re e) (nn k) t = fmap re (set_updates e k t).
  Proof.
    destruct e as [s m]. unfold set_updates, execute_checks, checks_updates, check_exists.
    cbn [ed_state ed_mode accumulators defaults updates rename]. rewrite !dmem_rd, !dlookup_rd, !dset_rd.
    match goal with |- bind ?x _ = _ => destruct x end; reflexivity.
  Qed.

  Lemma fmap_fmap {A B C} (f : A -> B) (g : B -> C) r : fmap g (fmap f r) = fmap (fun x => g (f x)) r.
  Proof. now destruct r. Qed.
  Notation ro := (rename_object nn).
  Lemma call_rn (m : method N) (v : pyval N) : m <> MRoundTrip ->
    pure_call (rename_method nn m) (ro v) = fmap ro (pure_call m v).
  Proof.
    intros Hm. destruct m; try (now destruct Hm); destruct v as [s|s|s|[s md]|s];
      cbn [pure_call rename_method rename_object ed_state ed_mode]; rewrite ?fmap_fmap; try reflexivity.
    - rewrite cache_rn, fmap_fmap. reflexivity.
    - rewrite iterate_rn, fmap_fmap. reflexivity.
    - rewrite reset_rn, fmap_fmap. reflexivity.
    - rewrite transform_rn, fmap_fmap. reflexivity.
    - rewrite mask_rn, fmap_fmap. reflexivity.
    - unfold unhalted_only. rewrite mask_rn, fmap_fmap. reflexivity.
    - unfold halted_only. rewrite mask_rn, fmap_fmap. reflexivity.
    - unfold define_directly. rewrite define_rn, fmap_fmap. reflexivity.
    - rewrite define_by_shape_rn, fmap_fmap. reflexivity.
    - rewrite delete_rn, fmap_fmap. reflexivity.
    - unfold set_probabilities, execute_checks. cbn [ed_state ed_mode probabilities rename]. destruct (String.eqb md m_standard); cbn [bind];
        [destruct (guard _ JaxRuntimeError)|]; reflexivity.
    - unfold set_residuals, execute_checks. cbn [ed_state ed_mode residuals rename]. destruct (String.eqb md m_standard); cbn [bind];
        [destruct (guard _ JaxRuntimeError)|]; reflexivity.
    - unfold set_iterations, execute_checks. cbn [ed_state ed_mode iterations rename]. destruct (String.eqb md m_standard); cbn [bind];
        [destruct (guard _ JaxRuntimeError)|]; reflexivity.
    - unfold set_epsilon, execute_checks. cbn [ed_state ed_mode rename]. destruct (String.eqb md m_standard); cbn [bind];
        [destruct (guard _ JaxRuntimeError)|]; reflexivity.
    - rewrite (set_accumulator_rn (mkEd s md)), fmap_fmap. reflexivity.
    - rewrite (set_defaults_rn (mkEd s md)), fmap_fmap. reflexivity.
    - rewrite (set_updates_rn (mkEd s md)), fmap_fmap. reflexivity.
    - unfold edit_controller. destruct (guard _ ValueError); reflexivity.
    - unfold edit_save. destruct (guard _ ValueError); reflexivity.
  Qed.
  Lemma do_rn (p : list (pyval N)) c : no_round_trip c -> pure_do (map ro p) (rename_hcall nn c) = fmap ro (pure_do p c).
  Proof.
    intros Hc. destruct c as [i m|em b d eps dep]; cbn [rename_hcall pure_do].
    - rewrite nth_error_map. destruct (nth_error p i) as [v|]; cbn [option_map]; [|reflexivity]. apply call_rn. intros ->. exact (Hc i eq_refl).
    - assert (E : forall s, new_builder_with em b d eps dep = Ok s -> rn s = s).
      { intros s. unfold new_builder_with. destruct (guard _ ValueError); cbn [bind]; [|discriminate].
        destruct (guard _ ValueError); cbn [bind]; [|discriminate]. destruct (to_shape (batch_dims b)); cbn [bind]; [|discriminate].
        unfold act_states. destruct em as [m|]; [|discriminate]. intros [= <-]. reflexivity. }
      destruct (new_builder_with em b d eps dep) as [s|e]; cbn [fmap rename_object]; [|reflexivity]. now rewrite (E s eq_refl).
  Qed.
  Lemma run_rn (p : list (pyval N)) cs : Forall no_round_trip cs ->
    pure_run (map ro p) (map (rename_hcall nn) cs) = (fst (pure_run p cs), map ro (snd (pure_run p cs))).
  Proof.
    intros H. revert p. induction H as [|c cs Hc H IH]; intros p; cbn [map pure_run]; [reflexivity|].
    rewrite (do_rn p c Hc). destruct (pure_do p c) as [v|e]; cbn [fmap outcome].
    - change (map ro p ++ [ro v]) with (map ro p ++ map ro [v]). rewrite <- map_app, (IH (p ++ [v])). now destruct (pure_run (p ++ [v]) cs).
    - rewrite (IH p). now destruct (pure_run p cs).
  Qed.
End RenameFacts.
