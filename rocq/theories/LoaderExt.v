(** Loading depends on the file system only through its objects, and not on
    comments, blank lines and blanks. *)
From Coq Require Import String Ascii List Bool Arith Lia Permutation Sorting.
From Verif Require Import Base SysInfo Token Rule FileSys Loader SpecPolicy SpecRule SpecLoader
  TokenProofs RuleProofs TextProofs LoaderProofs SelectProofs.
Import ListNotations.
Open Scope string_scope.
Open Scope list_scope.

Definition rel_res {A B} (R : A -> B -> Prop) (r : res A) (r' : res B) : Prop :=
  match r, r' with
  | Ok a, Ok b => R a b
  | Err e, Err e' => e = e'
  | _, _ => False
  end.
Definition rel_file (x y : string * list string) : Prop := fst x = fst y /\ same_lines (snd x) (snd y).

Lemma same_lines_refl ls : same_lines ls ls.
Proof.
  induction ls as [|l ls IH]; [constructor|].
  pose proof (sl_line "" "" "" "" l ls ls eq_refl eq_refl eq_refl eq_refl IH) as H.
  cbn [append] in H. rewrite app_nil_s in H. exact H.
Qed.

Lemma concatM_same (g g' : string -> res (list rule)) ls ls' :
  same_lines ls ls' ->
  (forall l, inert l -> g l = Ok []) -> (forall l, inert l -> g' l = Ok []) ->
  (forall l l', strip l = strip l' -> g l = g' l') ->
  concatM g ls = concatM g' ls'.
Proof.
  intros H G G' E. induction H as [|l a b I _ IH|l a b I _ IH|x y x' y' l a b B1 B2 B3 B4 _ IH]; cbn [concatM]; auto.
  - rewrite (G _ I). cbn [bind]. rewrite <- IH. destruct (concatM g a); reflexivity.
  - rewrite (G' _ I). cbn [bind]. rewrite IH. destruct (concatM g' b); reflexivity.
  - rewrite IH. rewrite (E (x +++ l +++ y) (x' +++ l +++ y')); auto.
    rewrite !strip_blanks; auto.
Qed.

Lemma service_line_inert openf rec sv ar file l : inert l -> service_line openf rec sv ar file l = Ok [].
Proof. intros H. unfold service_line. apply skip_inert in H. rewrite H. reflexivity. Qed.

Lemma service_line_ext openf openf' rec rec' sv ar file l l' :
  (forall p, rel_res rel_file (openf p) (openf' p)) ->
  (forall sv ar file ls ls', same_lines ls ls' -> rec sv ar file ls = rec' sv ar file ls') ->
  strip l = strip l' ->
  service_line openf rec sv ar file l = service_line openf' rec' sv ar file l'.
Proof.
  intros Ho Hr E. unfold service_line. rewrite <- E.
  destruct (skip_line (strip l)); auto.
  destruct (starts "!" (compat_subst (strip l))); auto.
  destruct (split_ws (compat_subst (strip l))) as [|d [|p [|? ?]]]; auto.
  destruct (String.eqb d "!include"); auto.
  destruct (validate_service_and_argument sv ar) as [sa|]; cbn [bind]; auto.
  specialize (Ho p). destruct (openf p) as [[f1 l1]|e], (openf' p) as [[f2 l2]|e']; cbn in Ho; try contradiction.
  - destruct Ho as [E1 E2]. cbn in E1, E2. subst. cbn [bind fst snd]. auto.
  - subst. reflexivity.
Qed.

Lemma load_service_ext fuel : forall openf openf' sv ar file ls ls',
  (forall p, rel_res rel_file (openf p) (openf' p)) -> same_lines ls ls' ->
  load_service fuel openf sv ar file ls = load_service fuel openf' sv ar file ls'.
Proof.
  induction fuel as [|fuel IH]; intros openf openf' sv ar file ls ls' Ho Hs; cbn [load_service]; auto.
  apply concatM_same; auto using service_line_inert.
  intros l l' E. apply service_line_ext; auto.
Qed.

Definition rel_dir (x y : string * res (list string)) : Prop :=
  fst x = fst y /\ rel_res same_lines (snd x) (snd y).
Record rel_loader (L L' : loader) : Prop := {
  rl_open : forall p, rel_res rel_file (ld_open L p) (ld_open L' p);
  rl_dir : forall p, rel_res (Forall2 rel_dir) (ld_dir L p) (ld_dir L' p);
  rl_compat : forall fuel, ld_compat L fuel = ld_compat L' fuel
}.

Lemma include_service_ext fuel openf openf' sv ar p :
  (forall p, rel_res rel_file (openf p) (openf' p)) ->
  include_service fuel openf sv ar p = include_service fuel openf' sv ar p.
Proof.
  intros Ho. unfold include_service. destruct (validate_service_and_argument sv ar) as [sa|]; cbn [bind]; auto.
  pose proof (Ho p) as Hp. destruct (openf p) as [[f1 l1]|e], (openf' p) as [[f2 l2]|e']; cbn in Hp; try contradiction.
  - destruct Hp as [E1 E2]. cbn in E1, E2. subst. cbn [bind fst snd]. apply load_service_ext; auto.
  - subst. reflexivity.
Qed.

Lemma concatM_files (rec rec' : string -> list string -> res (list rule)) files files' :
  Forall2 rel_dir files files' ->
  (forall file ls ls', same_lines ls ls' -> rec file ls = rec' file ls') ->
  concatM (fun fl : string * res (list string) => do ls <- snd fl; rec (fst fl) ls) files =
  concatM (fun fl : string * res (list string) => do ls <- snd fl; rec' (fst fl) ls) files'.
Proof.
  intros H Hr. induction H as [|[n r] [n' r'] l l' [E1 E2] _ IH]; cbn [concatM]; auto.
  rewrite IH. cbn [fst snd] in *. subst n'.
  destruct r, r'; cbn in E2; try contradiction; cbn [bind].
  - rewrite (Hr n a a0); auto.
  - subst. reflexivity.
Qed.

Lemma file_line_ext L L' rec rec' fuel file l l' :
  rel_loader L L' ->
  (forall file ls ls', same_lines ls ls' -> rec file ls = rec' file ls') ->
  strip l = strip l' ->
  file_line L rec fuel file l = file_line L' rec' fuel file l'.
Proof.
  intros [Ho Hd Hc] Hr E. unfold file_line. rewrite <- E.
  destruct (skip_line (strip l)); auto.
  destruct (starts "!" (strip l)); auto.
  destruct (split_ws (strip l)) as [|d ps]; auto.
  destruct (String.eqb d "!include").
  { destruct ps as [|p [|? ?]]; auto.
    specialize (Ho p). destruct (ld_open L p) as [[f1 l1]|e], (ld_open L' p) as [[f2 l2]|e']; cbn in Ho; try contradiction.
    - destruct Ho as [E1 E2]. cbn in E1, E2. subst. cbn [bind fst snd]. auto.
    - subst. reflexivity. }
  destruct (String.eqb d "!include-dir").
  { destruct ps as [|p [|? ?]]; auto.
    specialize (Hd p). destruct (ld_dir L p), (ld_dir L' p); cbn in Hd; try contradiction; cbn [bind].
    - apply concatM_files; auto.
    - subst. reflexivity. }
  destruct (String.eqb d "!include-service").
  { destruct ps as [|s [|a [|p [|? ?]]]]; auto. apply include_service_ext; auto. }
  destruct (String.eqb d "!compat-4.0"); auto. destruct ps; auto.
Qed.

Lemma load_file_ext L L' : rel_loader L L' -> forall fuel file ls ls',
  same_lines ls ls' -> load_file fuel L file ls = load_file fuel L' file ls'.
Proof.
  intros R. induction fuel as [|fuel IH]; intros file ls ls' Hs; cbn [load_file]; auto.
  apply concatM_same; auto using file_line_inert.
  intros l l' E. apply file_line_ext; auto.
Qed.

(** ** File systems *)

Lemma fget_In f p : fget f p <> None <-> In p (map fst f).
Proof.
  induction f as [|[q n] f IH]; simpl; [tauto|].
  destruct (path_eqb_spec p q) as [->|Hn].
  - split; auto. discriminate.
  - rewrite IH. intuition congruence.
Qed.

Lemma same_node_none n n' : same_node n n' -> (n = None <-> n' = None).
Proof. intros [->|(c&c'&->&->&_)]; [tauto|]. split; discriminate. Qed.
Lemma same_tree_file f f' p : same_tree f f' -> is_file f p = is_file f' p.
Proof.
  intros H. specialize (H p). unfold is_file. destruct H as [->|(c&c'&->&->&_)]; reflexivity.
Qed.
Lemma same_tree_dir f f' p : same_tree f f' -> is_dir f p = is_dir f' p.
Proof.
  intros H. specialize (H p). unfold is_dir. destruct H as [->|(c&c'&->&->&_)]; reflexivity.
Qed.
Lemma same_tree_listing f f' d : wf_fs f -> wf_fs f' -> same_tree f f' ->
  Permutation (listing f d) (listing f' d).
Proof.
  intros W W' H. apply NoDup_Permutation; auto using listing_NoDup.
  intros n. rewrite !listing_In, <- !fget_In. specialize (H (d ++ [n])). apply same_node_none in H. tauto.
Qed.
Lemma same_tree_lines f f' p : same_tree f f' -> rel_res same_lines (read_lines f p) (read_lines f' p).
Proof.
  intros H. specialize (H p). unfold read_lines, read_text.
  destruct H as [->|(c&c'&->&->&V&V'&S)].
  - destruct (fget f' p) as [[[c|]| |]|]; cbn [bind rel_res]; auto.
    destruct (utf8_valid c); cbn [bind rel_res]; auto using same_lines_refl.
  - rewrite V, V'. cbn [bind rel_res]. auto.
Qed.
Lemma same_tree_open f f' p : same_tree f f' -> rel_res rel_file (open_file f p) (open_file f' p).
Proof.
  intros H. unfold open_file. rewrite (same_tree_file _ _ p H). destruct (is_file f' p); cbn; auto.
  pose proof (same_tree_lines f f' p H) as R.
  destruct (read_lines f p), (read_lines f' p); cbn in *; auto. split; auto.
Qed.

Lemma filter_perm {A} (g : A -> bool) l l' : Permutation l l' -> Permutation (filter g l) (filter g l').
Proof.
  induction 1 as [|x l l' _ IH|x y l|l l' l'' _ IH1 _ IH2]; simpl; auto.
  - destruct (g x); auto.
  - destruct (g x), (g y); auto. constructor.
  - eapply Permutation_trans; eauto.
Qed.
Lemma sort_unique {A} (P : A -> Prop) leb lt (l l' : list A) :
  strict_on P leb lt -> (forall x, P x -> ~ lt x x) -> (forall x y, P x -> P y -> lt x y -> lt y x -> False) ->
  (forall x, In x l -> P x) -> NoDup l -> Permutation l l' -> sort_by leb l = sort_by leb l'.
Proof.
  intros St Ir As Hp N Pm.
  assert (Hp' : forall x, In x l' -> P x) by (intros x Hx; apply Hp; eapply Permutation_in; [symmetry|]; eauto).
  assert (N' : NoDup l') by (eapply Permutation_NoDup; eauto).
  assert (I : forall x, In x (sort_by leb l) <-> In x l).
  { intros x. split; apply Permutation_in; [symmetry|]; apply sort_perm. }
  assert (I' : forall x, In x (sort_by leb l') <-> In x l').
  { intros x. split; apply Permutation_in; [symmetry|]; apply sort_perm. }
  apply (sorted_unique lt).
  - intros x Hx. apply Ir, Hp, I, Hx.
  - intros x y Hx Hy. apply As; apply Hp, I; auto.
  - eapply sort_sorted; eauto.
  - eapply sort_sorted; eauto.
  - intros x. rewrite I, I'. split; apply Permutation_in; auto. symmetry. auto.
Qed.

Lemma same_tree_filter f f' d : wf_fs f -> wf_fs f' -> same_tree f f' ->
  (do names <- iterdir f d; filter_filepaths f d names) = (do names <- iterdir f' d; filter_filepaths f' d names).
Proof.
  intros W W' H. unfold iterdir. rewrite (same_tree_dir _ _ d H). destruct (is_dir f' d); cbn [bind]; auto.
  unfold filter_filepaths.
  assert (E : filter (candidate f d) (listing f d) = filter (candidate f' d) (listing f d)).
  { apply filter_ext. intros n. unfold candidate. rewrite (same_tree_file _ _ _ H). reflexivity. }
  rewrite E. pose proof (filter_perm (candidate f' d) _ _ (same_tree_listing f f' d W W' H)) as Pm.
  assert (F : forallb (sforall filename_char) (filter (candidate f' d) (listing f d)) =
              forallb (sforall filename_char) (filter (candidate f' d) (listing f' d))).
  { apply eq_true_iff_eq. rewrite !forallb_forall.
    split; intros G x Hx; apply G; (eapply Permutation_in; [|exact Hx]); auto; apply Permutation_sym; auto. }
  rewrite F. clear F. destruct (forallb (sforall filename_char) (filter (candidate f' d) (listing f' d))); auto. f_equal.
  apply (sort_unique (fun _ => True) str_leb lt_bytes); auto using str_strict.
  - intros x _. apply lt_irrefl.
  - intros x y _ _ H1 H2. apply (lt_irrefl x). eapply lt_trans; eauto.
  - apply NoDup_filter, listing_NoDup; auto.
Qed.

Lemma same_tree_select f f' : wf_fs f -> wf_fs f' -> same_tree f f' -> forall dirs final,
  select_files f dirs final = select_files f' dirs final.
Proof.
  intros W W' H. induction dirs as [|d dirs IH]; intros final; cbn [select_files]; auto.
  pose proof (same_tree_filter f f' d W W' H) as E.
  destruct (iterdir f d) as [n|], (iterdir f' d) as [n'|]; cbn [bind] in *; auto.
  - rewrite E. destruct (filter_filepaths f' d n'); cbn [bind]; auto.
  - rewrite E. reflexivity.
  - rewrite <- E. reflexivity.
  - inversion E. reflexivity.
Qed.

Lemma legacy_irrefl x : ~ legacy_before x x.
Proof.
  destruct x as [[s a] n]. simpl. intros [H|(_&[[H1 H2]|(_&_&H)])]; try contradiction.
  - exact (lt_irrefl _ H).
  - exact (lt_irrefl _ H).
Qed.
Lemma legacy_asym x y : legacy_before x y -> legacy_before y x -> False.
Proof.
  destruct x as [[s a] n], y as [[s' a'] n']. simpl.
  intros [H|(->&[[H1 H2]|(H1&H2&H)])] [K|(E&[[K1 K2]|(K1&K2&K)])]; subst; try contradiction;
    try (eapply lt_irrefl; eauto; fail); eapply lt_irrefl; eapply lt_trans; eauto.
Qed.

Lemma same_tree_compat_files f f' d : wf_fs f -> wf_fs f' -> same_tree f f' ->
  compat_files f d = compat_files f' d.
Proof.
  intros W W' H. unfold compat_files, iterdir. rewrite (same_tree_dir _ _ d H).
  destruct (is_dir f' d); cbn [bind]; auto. f_equal.
  assert (E : filter (compat_candidate f d) (listing f d) = filter (compat_candidate f' d) (listing f d)).
  { apply filter_ext. intros n. unfold compat_candidate. rewrite (same_tree_file _ _ _ H). reflexivity. }
  rewrite E. pose proof (filter_perm (compat_candidate f' d) _ _ (same_tree_listing f f' d W W' H)) as Pm.
  apply (sort_unique _ _ _ _ _ compat_strict); auto using legacy_irrefl, Permutation_map.
  - intros x y _ _. apply legacy_asym.
  - intros x Hx. apply in_map_iff in Hx as (n & <- & _). cbn [fst snd]. apply parse_named.
  - apply NoDup_map_inv_l with (g := snd). rewrite map_map. cbn [snd]. rewrite map_id.
    apply NoDup_filter, listing_NoDup; auto.
Qed.

Lemma same_tree_compat f f' d fuel : wf_fs f -> wf_fs f' -> same_tree f f' ->
  compat_execute f d fuel = compat_execute f' d fuel.
Proof.
  intros W W' H. unfold compat_execute. rewrite (same_tree_compat_files f f' d W W' H).
  destruct (compat_files f' d) as [l|]; cbn [bind]; auto.
  apply concatM_ext. intros [[s a] n] _.
  destruct (validate_service_and_argument (Some s) (Some a)) as [sa|]; cbn [bind]; auto.
  pose proof (same_tree_open f f' (d ++ [n]) H) as R.
  destruct (open_file f (d ++ [n])) as [[f1 l1]|], (open_file f' (d ++ [n])) as [[f2 l2]|]; cbn in R; try contradiction; cbn [bind fst snd].
  - destruct R as [E1 E2]. cbn in E1, E2. subst.
    rewrite (load_service_ext fuel (compat_open f d) (compat_open f' d) (fst sa) (snd sa) f2 l1 l2); auto.
    intros p. apply same_tree_open; auto.
  - subst. reflexivity.
Qed.

Lemma same_tree_loader f f' legacy base : wf_fs f -> wf_fs f' -> same_tree f f' ->
  rel_loader (file_loader f legacy base) (file_loader f' legacy base).
Proof.
  intros W W' H. constructor; cbn [file_loader ld_open ld_dir ld_compat].
  - intros p. apply same_tree_open; auto.
  - intros p. rewrite (same_tree_dir _ _ _ H). destruct (is_dir f' (resolve base p)); [|reflexivity].
    pose proof (same_tree_filter f f' (resolve base p) W W' H) as E.
    destruct (iterdir f (resolve base p)) as [n|], (iterdir f' (resolve base p)) as [n'|]; cbn [bind] in *; auto.
    + rewrite E. destruct (filter_filepaths f' (resolve base p) n') as [l|]; cbn; auto.
      clear E. induction l as [|x l IH]; cbn [map]; constructor; auto. split; auto. apply same_tree_lines; auto.
    + rewrite E. reflexivity.
    + rewrite <- E. reflexivity.
    + inversion E. reflexivity.
  - intros fuel. apply same_tree_compat; auto.
Qed.

Theorem load_policy_same_tree f f' legacy fuel dirs : wf_fs f -> wf_fs f' -> same_tree f f' ->
  load_policy f legacy fuel dirs = load_policy f' legacy fuel dirs.
Proof.
  intros W W' H. unfold load_policy. f_equal.
  rewrite (same_tree_select f f' W W' H). destruct (select_files f' dirs []) as [l|]; cbn [bind]; auto.
  unfold load_files. apply concatM_ext. intros [d n] _. cbn [fst snd].
  pose proof (same_tree_lines f f' (d ++ [n]) H) as R.
  destruct (read_lines f (d ++ [n])), (read_lines f' (d ++ [n])); cbn in R; try contradiction; cbn [bind].
  - apply load_file_ext; auto using same_tree_loader.
  - subst. reflexivity.
Qed.
