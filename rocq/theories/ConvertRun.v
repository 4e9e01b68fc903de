(** The whole conversion: what is in the files afterwards. *)
From Coq Require Import String Ascii List Bool Arith Lia.
From Verif Require Import Base SysInfo Token Rule FileSys Loader SpecLoader LineLoader SelectProofs AdminProofs Graph Convert SpecConvert ConvertFs.
Import ListNotations.
Open Scope string_scope.
Open Scope list_scope.

(** where the operations happen *)
Definition op_in (d : path) (o : op) : Prop := exists a b c, o = OWrite (d ++ [a]) c \/ o = ORename (d ++ [a]) (d ++ [b]) \/ o = OUnlink (d ++ [a]).
Lemma op_in_other d o f p : op_in d o -> (forall a, p <> d ++ [a]) -> fget (apply_op f o) p = fget f p.
Proof.
  intros (a & b & c & [->|[->| ->]]) N; cbn [apply_op].
  - apply fget_fset_other. apply N.
  - destruct (fget f (d ++ [a])); [|reflexivity]. rewrite fget_fset_other, fget_fdel_other by apply N. reflexivity.
  - apply fget_fdel_other. apply N.
Qed.
Lemma ops_in_other d ops : Forall (op_in d) ops -> forall f p, (forall a, p <> d ++ [a]) -> fget (fold_left apply_op ops f) p = fget f p.
Proof. intros F. induction F as [|o ops H F IH]; intros f p N; [reflexivity|]. cbn [fold_left]. rewrite IH by exact N. eapply op_in_other; eassumption. Qed.
Lemma write_in d a c : op_in d (OWrite (d ++ [a]) c).
Proof. exists a, a, c. auto. Qed.
Lemma save_one_in f fn rs ops r : save_one f fn rs = (ops, r) -> Forall (op_in POLICYPATH) ops.
Proof.
  unfold save_one. destruct rs; [intros E; apply (f_equal fst) in E; cbn [fst] in E; subst ops; constructor|].
  destruct (exists_path _ _); [|intros E; apply (f_equal fst) in E; cbn [fst] in E; subst ops; repeat (apply Forall_cons; [apply write_in|]); apply Forall_nil].
  destruct (fget f _) as [[[c|]| |]|]; try (intros E; apply (f_equal fst) in E; cbn [fst] in E; subst ops; constructor).
  destruct (String.eqb fn INPUT_FILE); [intros E; apply (f_equal fst) in E; cbn [fst] in E; subst ops; repeat (apply Forall_cons; [apply write_in|]); apply Forall_nil|].
  destruct (read_text _ _); intros E; apply (f_equal fst) in E; cbn [fst] in E; subst ops; repeat (apply Forall_cons; [apply write_in|]); apply Forall_nil.
Qed.
Lemma save_all_in : forall l f ops r, save_all f l = (ops, r) -> Forall (op_in POLICYPATH) ops.
Proof.
  induction l as [|[fn rs] l IH]; intros f ops r E; cbn [save_all] in E; [injection E as <- <-; constructor|].
  destruct (save_one f fn rs) as [ops1 r1] eqn:E1. apply save_one_in in E1. destruct r1 as [b1|]; [|injection E as <- <-; exact E1].
  destruct (save_all (fold_left apply_op ops1 f) l) as [ops2 r2] eqn:E2. apply IH in E2.
  assert (ops = ops1 ++ ops2) as -> by (destruct r2; congruence). apply Forall_app. auto.
Qed.
Lemma remove_old_in : forall names f ops b, remove_old f names = (ops, b) -> Forall (op_in POLICYPATH_OLD) ops /\
  forall x, In x b -> exists n, fst x = POLICYPATH_OLD ++ [n] /\ ends ".rpmsave" n = false.
Proof.
  induction names as [|n names IH]; intros f ops b E; cbn [remove_old] in E; [injection E as <- <-; split; [constructor|intros x []]|].
  destruct (is_file f (POLICYPATH_OLD ++ [n]) && negb (ends ".rpmsave" n)) eqn:C; [|exact (IH f ops b E)].
  apply andb_true_iff in C as [_ C]. apply negb_true_iff in C.
  destruct (remove_old _ names) as [ops1 b1] eqn:E1. injection E as <- <-. apply IH in E1 as [H1 H2]. split.
  - constructor; [|exact H1]. eexists _, _, "". right. left. reflexivity.
  - intros x [<-|Hx]; [cbn; eauto|auto].
Qed.
Lemma ends_spec suf s : ends suf s = true <-> exists x, s = x +++ suf.
Proof.
  unfold ends. rewrite starts_spec.
  assert (R : forall a b, String.string_of_list_ascii (a ++ b) = String.string_of_list_ascii a +++ String.string_of_list_ascii b)
    by (induction a; intros; cbn; [reflexivity|now rewrite IHa]).
  assert (L : forall a b, String.list_ascii_of_string (a +++ b) = String.list_ascii_of_string a ++ String.list_ascii_of_string b)
    by (induction a; intros; cbn; [reflexivity|now rewrite IHa]).
  split.
  - intros [r E]. apply (f_equal String.list_ascii_of_string) in E. rewrite L, !String.list_ascii_of_string_of_list_ascii in E.
    apply (f_equal (@rev ascii)) in E. rewrite rev_app_distr, !rev_involutive in E.
    exists (String.string_of_list_ascii (rev (String.list_ascii_of_string r))).
    rewrite <- (String.string_of_list_ascii_of_string s), E, R, String.string_of_list_ascii_of_string. reflexivity.
  - intros [x ->]. rewrite L, rev_app_distr, R. eauto.
Qed.

(** after the old files were put aside, none is left *)
Lemma remove_old_gone : forall names f ops b, remove_old f names = (ops, b) -> forall n, is_file (fold_left apply_op ops f) (POLICYPATH_OLD ++ [n]) = true ->
  ends ".rpmsave" n = true \/ (is_file f (POLICYPATH_OLD ++ [n]) = true /\ ~ In n names).
Proof.
  induction names as [|x names IH]; intros f ops b E n H; cbn [remove_old] in E; [injection E as <- <-; right; split; [exact H|intros []]|].
  destruct (is_file f (POLICYPATH_OLD ++ [x]) && negb (ends ".rpmsave" x)) eqn:C.
  - apply andb_true_iff in C as [C _]. apply is_file_get in C as [c Gf].
    destruct (remove_old _ names) as [ops1 b1] eqn:E1. injection E as <- <-. cbn [fold_left] in H. destruct (IH _ _ _ E1 n H) as [K|[K K']]; [left; exact K|].
    cbn [apply_op] in K. rewrite Gf in K.
    set (bn := backup_name f POLICYPATH_OLD x ".rpmsave") in *.
    destruct (string_dec n bn) as [->|Nb].
    + left. apply ends_spec. apply backup_ends.
    + unfold is_file in K. rewrite fget_fset_other in K by (intros Z; apply app_inv_head in Z; congruence).
      destruct (string_dec n x) as [->|Nx]; [rewrite fget_fdel in K; discriminate|].
      rewrite fget_fdel_other in K by (intros Z; apply app_inv_head in Z; congruence).
      right. split; [exact K|]. intros [Z|Z]; [congruence|exact (K' Z)].
  - destruct (IH _ _ _ E n H) as [K|[K K']]; [left; exact K|]. destruct (string_dec n x) as [->|Nx].
    + rewrite K in C. cbn [andb] in C. apply negb_false_iff in C. left. exact C.
    + right. split; [exact K|]. intros [Z|Z]; [congruence|exact (K' Z)].
Qed.
Lemma remove_old_first names f ops b : remove_old f names = (ops, b) -> match b with [] => True | x :: _ => fget (fold_left apply_op ops f) (fst x) = None end.
Proof.
  intros E. destruct b as [|[p q] b]; [exact I|]. cbn [fst].
  assert (Hx := proj2 (remove_old_in _ _ _ _ E) _ (or_introl eq_refl)). destruct Hx as (n & Hn & Ne). cbn [fst] in Hn. subst p.
  revert f ops b q E. induction names as [|x names IH]; intros f ops b q E; cbn [remove_old] in E; [discriminate|].
  destruct (is_file f (POLICYPATH_OLD ++ [x]) && negb (ends ".rpmsave" x)) eqn:C; [|exact (IH f ops b q E)].
  apply andb_true_iff in C as [C _]. apply is_file_get in C as [c Gf].
  destruct (remove_old _ names) as [ops1 b1] eqn:E1. assert (Ex : POLICYPATH_OLD ++ [x] = POLICYPATH_OLD ++ [n]) by congruence.
  apply (f_equal fst) in E. cbn [fst] in E. subst ops.
  assert (x = n) by (apply app_inv_head in Ex; congruence). subst x. cbn [fold_left apply_op]. rewrite Gf. cbn [apply_op] in E1. rewrite Gf in E1.
  set (f1 := fset _ _ _) in *.
  assert (G1 : fget f1 (POLICYPATH_OLD ++ [n]) = None).
  { unfold f1. rewrite fget_fset_other; [apply fget_fdel|]. pose proof (backup_free f POLICYPATH_OLD n ".rpmsave" ltac:(discriminate)). congruence. }
  clearbody f1. clear - E1 G1 Ne. revert G1 E1. generalize f1. clear f1. revert ops1 b1. induction names as [|y names IH]; intros ops1 b1 f1 G1 E1; cbn [remove_old] in E1; [injection E1 as <- <-; exact G1|].
  destruct (is_file f1 (POLICYPATH_OLD ++ [y]) && _) eqn:C; [|eapply IH; eassumption].
  apply andb_true_iff in C as [C _]. apply is_file_get in C as [c Gf].
  destruct (remove_old _ names) as [ops2 b2] eqn:E2. apply (f_equal fst) in E1. cbn [fst] in E1. subst ops1. cbn [fold_left]. eapply IH; [|exact E2].
  cbn [apply_op]. rewrite Gf. destruct (backup_ends f1 POLICYPATH_OLD y ".rpmsave") as [z Hz]. rewrite Hz.
  rewrite fget_fset_other. 
  - destruct (string_dec y n) as [->|N]; [apply fget_fdel|]. rewrite fget_fdel_other by (intros Z; apply app_inv_head in Z; congruence). exact G1.
  - intros Z. apply app_inv_head in Z. injection Z as Z. assert (ends ".rpmsave" n = true) by (apply ends_spec; eauto). congruence.
Qed.

(** *** no legacy policy without files *)
Lemma rpmsave_suffix n : ends ".rpmsave" n = true -> suffix n = ".rpmsave" \/ starts "." n = true.
Proof.
  intros H. apply ends_spec in H as [x ->].
  assert (D : forall y, last_dot (y +++ ".rpmsave") = Some ".rpmsave").
  { induction y as [|c y IH]; [reflexivity|]. cbn [String.append last_dot]. rewrite IH. reflexivity. }
  unfold suffix. rewrite D. destruct x as [|c x]; [right; reflexivity|]. left. rewrite length_app_s. cbn [String.length].
  replace (Nat.eqb 8 (S (String.length x) + 8)) with false by (symmetry; apply Nat.eqb_neq; lia). reflexivity.
Qed.
Lemma compat_off f : is_dir f POLICYPATH_OLD = true -> (forall n, is_file f (POLICYPATH_OLD ++ [n]) = true -> ends ".rpmsave" n = true) ->
  compat_files f POLICYPATH_OLD = Ok [].
Proof.
  intros D H. unfold compat_files, iterdir. rewrite D. cbn [bind].
  replace (filter (compat_candidate f POLICYPATH_OLD) (listing f POLICYPATH_OLD)) with (@nil string); [reflexivity|].
  symmetry. destruct (filter _ _) as [|n l] eqn:E; [reflexivity|]. exfalso.
  assert (X : In n (filter (compat_candidate f POLICYPATH_OLD) (listing f POLICYPATH_OLD))) by (rewrite E; left; reflexivity).
  apply filter_In in X as [_ X]. unfold compat_candidate in X. rewrite !andb_true_iff, !negb_true_iff in X. destruct X as (((X1 & X2) & X3) & _).
  apply H in X1. apply rpmsave_suffix in X1 as [X1|X1]; [|congruence]. rewrite X1 in X2. discriminate.
Qed.

(** *** no rules of the old format without files *)
Lemma nconcat_ext {A} (g h : A -> res (list nrule)) l : (forall x, g x = h x) -> nconcat g l = nconcat h l.
Proof. intros E. induction l as [|x l IH]; [reflexivity|]. cbn [nconcat]. now rewrite E, IH. Qed.
Lemma nload_ext L c c' : (forall fuel, c fuel = c' fuel) -> forall fuel file ls, nload_file fuel L c file ls = nload_file fuel L c' file ls.
Proof.
  intros E. induction fuel as [|fuel IH]; intros file ls; [reflexivity|]. cbn [nload_file]. apply nconcat_ext. intros x. unfold nfile_line.
  destruct (skip_line _); [reflexivity|]. destruct (starts "!" _); [|reflexivity]. destruct (split_ws _) as [|d ps]; [reflexivity|].
  destruct (String.eqb d "!include").
  { destruct ps as [|p [|? ?]]; try reflexivity. apply bind_ext. intros fl. apply IH. }
  destruct (String.eqb d "!include-dir").
  { destruct ps as [|p [|? ?]]; try reflexivity. apply bind_ext. intros fls. apply nconcat_ext. intros fl. apply bind_ext. intros l. apply IH. }
  destruct (String.eqb d "!include-service"); [reflexivity|].
  destruct (String.eqb d "!compat-4.0"); [|reflexivity]. destruct ps; [apply E|reflexivity].
Qed.
Lemma nload_policy_ext f legacy c c' fuel dirs : (forall fuel, c fuel = c' fuel) -> nload_policy f legacy c fuel dirs = nload_policy f legacy c' fuel dirs.
Proof.
  intros E. unfold nload_policy. f_equal. apply bind_ext. intros l. apply nconcat_ext. intros x. apply bind_ext. intros ls. apply nload_ext. exact E.
Qed.
Lemma ncompat_off f : compat_files f POLICYPATH_OLD = Ok [] -> forall fuel, ncompat f POLICYPATH_OLD fuel = no_compat fuel.
Proof. intros E fuel. unfold ncompat. rewrite E. reflexivity. Qed.
Lemma compat_off_execute f : compat_files f POLICYPATH_OLD = Ok [] -> forall fuel, compat_execute f POLICYPATH_OLD fuel = Ok [].
Proof. intros E fuel. unfold compat_execute. rewrite E. reflexivity. Qed.
Lemma nothing_to_save l services : map snd (rules_to_save l l services) = map (fun _ => []) files_to_save.
Proof.
  assert (L : legacy_rules l l = []).
  { destruct (legacy_rules l l) as [|r m] eqn:E; [reflexivity|]. exfalso.
    assert (X : In r (legacy_rules l l)) by (rewrite E; left; reflexivity). unfold legacy_rules in X.
    apply filter_In in X as [X Y]. apply filter_In in X as [X _]. apply negb_true_iff in Y.
    assert (Z : existsb (same_place r) l = true).
    { apply existsb_exists. exists r. split; [exact X|]. unfold same_place. rewrite String.eqb_refl. destruct (snd r); [apply Nat.eqb_refl|reflexivity]. }
    congruence. }
  unfold rules_to_save. rewrite L.
  assert (P : flat_map (for_service [] l) services = []).
  { induction services as [|s services IH]; [reflexivity|]. cbn [flat_map]. rewrite IH. unfold for_service. cbn [of_service filter].
    rewrite orb_true_r. reflexivity. }
  rewrite P, map_map. apply map_ext. intros fn. cbn. destruct (String.eqb fn INPUT_FILE); reflexivity.
Qed.
Lemma save_nothing f : forall l, Forall (fun x : string * list nrule => snd x = []) l -> save_all f l = ([], Ok []).
Proof.
  intros l F. induction F as [|[fn rs] l H F IH]; [reflexivity|]. cbn [snd] in H. subst rs. cbn [save_all save_one fold_left].
  rewrite IH. reflexivity.
Qed.
Lemma set_eqb_refl l : set_eqb l l = true.
Proof. unfold set_eqb. assert (X : forallb (fun x => smem x l) l = true) by (apply forallb_forall; intros x H; apply smem_In; exact H). now rewrite X. Qed.

(** *** contents *)
Lemma save_one_content f fn rs ops b : save_one f fn rs = (ops, Ok b) ->
  (forall x, In x b -> fst x = POLICYPATH ++ [fn +++ ".policy"] /\ fget f (fst x) <> None /\
     fget (fold_left apply_op ops f) (snd x) = fget f (fst x)) /\
  (forall p, fget f p <> None -> ~ In p (map fst b) -> fget (fold_left apply_op ops f) p = fget f p).
Proof.
  unfold save_one. destruct rs as [|r0 rs]; [intros [= <- <-]; split; [intros x []|reflexivity]|].
  set (file := POLICYPATH ++ [fn +++ ".policy"]). set (text := new_text fn (r0 :: rs)). clearbody text.
  clearbody file.
  destruct (exists_path f file) eqn:Ex.
  2:{ intros [= <- <-]. split; [intros x []|]. intros p H _. unfold exists_path in Ex. cbn [fold_left apply_op].
      rewrite !fget_fset_other by (intros ->; destruct (fget f file); [discriminate|congruence]). reflexivity. }
  destruct (fget f file) as [[[c|]| |]|] eqn:Gf; try discriminate.
  set (bn := backup_name f POLICYPATH (fn +++ ".policy") ".bak").
  assert (Nb : fget f (POLICYPATH ++ [bn]) = None) by (apply backup_free; discriminate). clearbody bn.
  set (backup := POLICYPATH ++ [bn]) in *. clearbody backup.
  assert (Fin : forall t, let ops := [OWrite backup ""; OWrite backup c] ++ [OWrite file ""; OWrite file t] in
    (forall x, In x [(file, backup)] -> fst x = file /\ fget f (fst x) <> None /\
       fget (fold_left apply_op ops f) (snd x) = fget f (fst x)) /\
    (forall p, fget f p <> None -> ~ In p (map fst [(file, backup)]) -> fget (fold_left apply_op ops f) p = fget f p)).
  { intros t ops0. unfold ops0. cbn [app fold_left apply_op]. split.
    - intros x [<-|[]]. cbn [fst snd]. split; [reflexivity|]. split; [congruence|].
      rewrite !(fget_fset_other _ file) by congruence. rewrite fget_fset. congruence.
    - intros p H N. cbn [map fst In] in N. rewrite !fget_fset_other by (intros Z; first [apply N; left; congruence|congruence]). reflexivity. }
  destruct (String.eqb fn INPUT_FILE).
  - intros [= <- <-]. apply (Fin text).
  - destruct (read_text f file) as [cur|]; [|discriminate]. intros [= <- <-]. apply (Fin (merged text (univ_nl cur))).
Qed.
Lemma save_all_content : forall l f ops b, NoDup (map fst l) -> save_all f l = (ops, Ok b) ->
  (forall x, In x b -> (exists fn, In fn (map fst l) /\ fst x = POLICYPATH ++ [fn +++ ".policy"]) /\ fget f (fst x) <> None /\
     fget (fold_left apply_op ops f) (snd x) = fget f (fst x)) /\
  (forall p, fget f p <> None -> ~ In p (map fst b) -> fget (fold_left apply_op ops f) p = fget f p).
Proof.
  induction l as [|[fn rs] l IH]; intros f ops b D E; cbn [save_all] in E; [injection E as <- <-; split; [intros x []|reflexivity]|].
  cbn [map fst] in D. inversion D as [|? ? Nf D']; subst.
  destruct (save_one f fn rs) as [ops1 r1] eqn:E1. destruct r1 as [b1|]; [|discriminate].
  destruct (save_all (fold_left apply_op ops1 f) l) as [ops2 r2] eqn:E2. destruct r2 as [b2|]; [|discriminate]. injection E as <- <-.
  destruct (save_one_content _ _ _ _ _ E1) as [A1 A2]. destruct (IH _ _ _ D' E2) as [B1 B2].
  destruct (save_one_writes _ _ _ _ _ E1) as [W1 W2]. destruct (save_all_writes _ _ _ _ E2) as [_ V2]. destruct (V2 b2 eq_refl) as [_ V3].
  rewrite fold_left_app.
  assert (Dis : forall y, In y b2 -> fst y <> POLICYPATH ++ [fn +++ ".policy"]).
  { intros y Hy Z. destruct (B1 y Hy) as ((fn' & Hf & Hy') & _). rewrite Hy' in Z. apply app_inv_head in Z. injection Z as Z.
    apply app_inj_r in Z. congruence. }
  assert (Bak : forall x, In x b1 -> ~ In (snd x) (map fst b2)).
  { intros x Hx Z. apply in_map_iff in Z as (y & Hy & Iy). destruct (B1 y Iy) as ((fn' & _ & Hy') & _).
    assert (Sx : exists z, snd x = POLICYPATH ++ [z +++ ".bak"]).
    { clear - E1 Hx. unfold save_one in E1. destruct rs; [injection E1 as _ <-; destruct Hx|]. destruct (exists_path _ _); [|injection E1 as _ <-; destruct Hx].
      destruct (backup_ends f POLICYPATH (fn +++ ".policy") ".bak") as [z Hz]. rewrite Hz in E1.
      destruct (fget _ _) as [[[?|]| |]|]; try discriminate. destruct (String.eqb _ _); [injection E1 as _ <-; destruct Hx as [<-|[]]; exists z; reflexivity|].
      destruct (read_text _ _); [injection E1 as _ <-; destruct Hx as [<-|[]]; exists z; reflexivity|discriminate]. }
    destruct Sx as [z Sx]. rewrite Sx, Hy' in Hy. apply app_inv_head in Hy. injection Hy as Hy. exact (last_char_bak fn' z Hy). }
  split.
  - intros x Hx. apply in_app_or in Hx as [Hx|Hx].
    + destruct (A1 x Hx) as (X1 & X2 & X3). split; [exists fn; split; [left; reflexivity|exact X1]|]. split; [exact X2|].
      rewrite B2; [exact X3| |apply Bak; exact Hx]. exact (proj2 (W2 b1 eq_refl x Hx)).
    + destruct (B1 x Hx) as ((fn' & Hf & X1) & X2 & X3). split; [exists fn'; split; [right; exact Hf|exact X1]|].
      assert (N1 : ~ In (fst x) (map fst b1)).
      { intros Z. apply in_map_iff in Z as (y & Hy & Iy). destruct (A1 y Iy) as (Y1 & _). apply (Dis x Hx). congruence. }
      assert (G : fget f (fst x) <> None).
      { destruct (fget f (fst x)) eqn:G; [discriminate|]. exfalso.
        (* a file that was created by the first save is the first file *)
        assert (Cr : fget (fold_left apply_op ops1 f) (fst x) = None); [|congruence].
        clear - E1 G X1 N1 Dis Hx. specialize (Dis x Hx). unfold save_one in E1. destruct rs; [injection E1 as <- _; exact G|].
        set (file := POLICYPATH ++ [fn +++ ".policy"]) in *. clearbody file.
        destruct (exists_path _ _).
        - destruct (backup_ends f POLICYPATH (fn +++ ".policy") ".bak") as [z Hz]. rewrite Hz in E1.
          set (backup := POLICYPATH ++ [z +++ ".bak"]) in *.
          assert (Nk : fst x <> backup) by (rewrite X1; intros Z; apply app_inv_head in Z; injection Z as Z; exact (last_char_bak _ _ Z)). clearbody backup.
          destruct (fget f file) as [[[?|]| |]|]; try discriminate. destruct (String.eqb _ _).
          + injection E1 as <- _. cbn [app fold_left apply_op]. rewrite !fget_fset_other by assumption. exact G.
          + destruct (read_text _ _); [|discriminate]. injection E1 as <- _. cbn [app fold_left apply_op]. rewrite !fget_fset_other by assumption. exact G.
        - injection E1 as <- _. cbn [fold_left apply_op]. rewrite !fget_fset_other by assumption. exact G. }
      split; [exact G|]. rewrite X3. apply A2; assumption.
  - intros p H N. rewrite map_app, in_app_iff in N. rewrite B2; [apply A2; tauto| |tauto]. apply writes_mono; assumption.
Qed.
Lemma restore_content : forall b f b' ops r, NoDup (map fst b) -> NoDup (map snd b) ->
  (forall x y, In x b -> In y b -> fst x <> snd y) -> (forall x, In x b -> fget f (fst x) <> None /\ fget f (snd x) <> None) ->
  match b' with [] => False | x :: _ => fget f (fst x) = None /\ ~ In (fst x) (map fst b) end ->
  restore f (b ++ b') = (ops, r) -> r = Err EOs /\ (forall x, In x b -> fget (fold_left apply_op ops f) (fst x) = fget f (snd x)) /\
  (forall p, ~ In p (map fst b) -> ~ In p (map snd b) -> fget (fold_left apply_op ops f) p = fget f p) /\
  forall d, (forall x, In x b -> exists m n, fst x = d ++ [m] /\ snd x = d ++ [n]) -> Forall (op_in d) ops.
Proof.
  induction b as [|[file backup] b IH]; intros f b' ops r D1 D2 X Ex N E; cbn [app restore] in E.
  { destruct b' as [|[nf bk] b']; [destruct N|]. cbn [restore] in E. unfold exists_path in E. cbn [fst] in N. destruct N as [N _]. rewrite N in E.
    injection E as <- <-. split; [reflexivity|]. split; [intros x []|]. split; [reflexivity|constructor]. }
  destruct (Ex _ (or_introl eq_refl)) as [E1 E2]. cbn [fst snd] in E1, E2. unfold exists_path in E.
  destruct (fget f file) as [n1|] eqn:G1; [|congruence]. destruct (fget f backup) as [n2|] eqn:G2; [|congruence].
  assert (Nb : file <> backup) by (apply (X _ _ (or_introl eq_refl) (or_introl eq_refl))).
  cbn [fold_left] in E. destruct (restore _ (b ++ b')) as [ops1 r1] eqn:R. injection E as <- <-.
  cbn [map fst snd] in D1, D2. inversion D1 as [|? ? M1 D1']; subst. inversion D2 as [|? ? M2 D2']; subst.
  set (f1 := apply_op (apply_op f (OUnlink file)) (ORename backup file)) in *.
  assert (F1 : f1 = fset (fdel (fdel f file) backup) file n2).
  { unfold f1. cbn [apply_op]. rewrite fget_fdel_other by congruence. now rewrite G2. }
  assert (O : forall p, p <> file -> p <> backup -> fget f1 p = fget f p).
  { intros p Y Z. rewrite F1, fget_fset_other, !fget_fdel_other by assumption. reflexivity. }
  assert (Ne : forall x, In x b -> fst x <> file /\ fst x <> backup /\ snd x <> file /\ snd x <> backup).
  { intros x Hx. split; [intros Z; apply M1; rewrite <- Z; apply in_map; exact Hx|].
    split; [apply (X _ (file, backup)); [right; exact Hx|left; reflexivity]|].
    split; [intros Z; apply (X (file, backup) x (or_introl eq_refl) (or_intror Hx)); symmetry; exact Z|].
    intros Z; apply M2; rewrite <- Z; apply in_map; exact Hx. }
  destruct (IH f1 b' ops1 r1 D1' D2') as (I1 & I2 & I3 & I4).
  - intros x y Hx Hy. apply X; right; assumption.
  - intros x Hx. destruct (Ne x Hx) as (Y1 & Y2 & Y3 & Y4). rewrite !O by assumption. apply Ex. right. exact Hx.
  - destruct b' as [|x b']; [exact N|]. destruct N as [N N']. cbn [map fst In] in N'. split; [|tauto].
    destruct (list_eq_dec string_dec (fst x) backup) as [Z|Z]; [rewrite Z in N; congruence|]. rewrite O; [exact N|intros Y; apply N'; left; congruence|exact Z].
  - exact R.
  - split; [exact I1|]. cbn [app fold_left]. fold f1. split; [|split].
    + intros x [<-|Hx].
      * cbn [fst snd]. rewrite I3; [rewrite F1, fget_fset; congruence|exact M1|].
        intros Z. apply in_map_iff in Z as (y & Hy & Iy). apply (X (file, backup) y (or_introl eq_refl) (or_intror Iy)). symmetry. exact Hy.
      * rewrite I2 by exact Hx. destruct (Ne x Hx) as (Y1 & Y2 & Y3 & Y4). apply O; assumption.
    + intros p Np1 Np2. cbn [map fst snd In] in Np1, Np2. rewrite I3 by tauto. apply O; [intros Z; apply Np1; left; congruence|intros Z; apply Np2; left; congruence].
    + intros d Hd. destruct (Hd _ (or_introl eq_refl)) as (a & c & Ha & Hc). cbn [fst snd] in Ha, Hc. subst file backup.
      constructor; [exists a, a, ""; auto|]. constructor; [exists c, a, ""; auto|]. apply I4. intros x Hx. apply Hd. right. exact Hx.
Qed.
