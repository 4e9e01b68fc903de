(** C109: who may use the policy services, with the installed policy files *)
From Coq Require Import String Ascii List Bool Arith Lia.
From Verif Require Import Base SysInfo Token Rule Policy FileSys Loader SpecPolicy SpecRule SpecLoader TextProofs RuleProofs MatchProofs LoaderProofs SelectProofs GraphProofs Props_Loader ShippedPolicy.
From Verif Require Props_Policy.
Import ListNotations.
Open Scope string_scope.
Open Scope list_scope.

(** ** Specification *)
Definition reading_services : list string := ["policy.List"; "policy.include.List"; "policy.Get"; "policy.include.Get"; "policy.GetFiles"].
Definition writing_services : list string := ["policy.Replace"; "policy.include.Replace"; "policy.Remove"; "policy.include.Remove"].
(** a rule, for calls of the service [sv] *)
Definition for_service (sv : string) (r : rule) : rule := mkRule (Some sv) (r_arg r) (r_source r) (r_target r) (r_action r) (r_file r).
(** the rules for [sv] that the installed files give when the file of those who may write and
    the file of those who may read contain [W] and [R] *)
Definition given (W R : list rule) (sv : string) : list rule :=
  if smem sv reading_services then map (for_service sv) (W ++ R) else if smem sv writing_services then map (for_service sv) W else [].
(** two calls with the same source and target *)
Definition same_ends (q q' : request) : Prop := q_info q = q_info q' /\ q_source q = q_source q' /\ q_target q = q_target q'.

(** ** Proofs *)
Lemma end_line opens lists legacy file rs : text_rules opens lists legacy file [] rs <-> rs = [].
Proof. split; [intros H; inversion H; reflexivity|intros ->; constructor]. Qed.
Lemma inert_line opens lists legacy file l ls rs : inert l -> text_rules opens lists legacy file (l :: ls) rs <-> text_rules opens lists legacy file ls rs.
Proof.
  intros I. split; [|apply tr_inert; exact I]. intros H.
  assert (N : forall w ws, fields l (w :: ws) -> starts "#" w = false -> False) by (intros w ws F S; exact (fields_not_inert l w ws F S I)).
  inversion H; subst; try contradiction; try assumption; exfalso; eapply N; try eassumption; reflexivity.
Qed.
Lemma service_line_rules f base legacy file l ls rs s p file' ls' : fields l ["!include-service"; s; "*"; p] -> service_field s (Some s) -> opens_at f base p file' ls' ->
  text_rules (opens_at f base) (lists_at f base) legacy file (l :: ls) rs <->
  exists r1 r2, rs = r1 ++ r2 /\ service_rules (opens_at f base) (Some s) None file' ls' r1 /\ text_rules (opens_at f base) (lists_at f base) legacy file ls r2.
Proof.
  intros F S O. split.
  - assert (Ni : ~ inert l) by (eapply fields_not_inert; [exact F|reflexivity]). intros H.
    inversion H as [|? ? ? ? I _|? ? ? ws r ? _ Nd Fw _ _|? ? ? p' f'' ls'' ? ? Fw _ _ _|? ? ? p' fs ? ? Fw _ _ _|? ? ? s' a' p' sv ar f'' ls'' r1 r2 Fw Sa Op Sr Tr|? ? ? ? ? Fw _ _]; subst;
      try contradiction; try (pose proof (fields_fun _ _ _ F Fw); discriminate).
    + exfalso. apply Nd. apply fields_split in F. apply split_ws_fields in F. inversion F as [|b w rest ws' B _ _ _ _]; subst. exists b, ("include-service" +++ rest). split; [exact B|reflexivity].
    + pose proof (fields_fun _ _ _ F Fw) as E. assert (s' = s) by congruence. assert (a' = "*") by congruence. assert (p' = p) by congruence. subst s' a' p'.
      destruct (opens_fun _ _ _ _ _ _ _ O Op) as [<- <-]. destruct Sa as [Sv Ar].
      assert (sv = Some s). { inversion S; subst. inversion Sv; subst; [congruence|reflexivity]. } subst sv.
      assert (ar = None) by (inversion Ar; reflexivity). subst ar. exists r1, r2. auto.
  - intros (r1 & r2 & -> & Sr & Tr). eapply tr_include_service; [exact F|split; [exact S|apply af_any]|exact O|exact Sr|exact Tr].
Qed.
Lemma service_inert opens sv ar file l ls rs : inert l -> service_rules opens sv ar file (l :: ls) rs <-> service_rules opens sv ar file ls rs.
Proof.
  intros I. split; [|apply sr_inert; exact I]. intros H. remember (l :: ls) as x eqn:E. destruct H as [|file l0 ls0 rs0 _ H|file b l0 l' ls0 src tgt act ps r rs0 B Bg N|file b l0 l' ls0 p file' ls' rs1 rs2 B Bg Sp N]; [discriminate| | |].
  - assert (ls0 = ls) by congruence. subst. exact H.
  - exfalso. assert (b +++ l0 = l) by congruence. subst l. pose proof (inert_begins _ _ B Bg I). congruence.
  - exfalso. assert (b +++ l0 = l) by congruence. subst l. pose proof (inert_begins _ _ B Bg I) as I'.
    apply starts_spec in I' as (r & ->). clear - Sp N. inversion Sp; subst; try discriminate; congruence.
Qed.
Lemma service_end opens sv ar file rs : service_rules opens sv ar file [] rs <-> rs = [].
Proof. split; [intros H; inversion H; reflexivity|intros ->; constructor]. Qed.
Lemma service_include f base sv ar file l ls rs p file' ls' : begins l -> compat_subst l = l -> starts "!" l = true -> starts "#" l = false -> fields l ["!include"; p] -> opens_at f base p file' ls' ->
  service_rules (opens_at f base) sv ar file (l :: ls) rs <->
  exists r1 r2, rs = r1 ++ r2 /\ service_rules (opens_at f base) sv ar file' ls' r1 /\ service_rules (opens_at f base) sv ar file ls r2.
Proof.
  intros Bg Cs Ex Nh F O. split.
  - intros H. remember (l :: ls) as x eqn:E. destruct H as [|file0 l0 ls0 rs0 I H|file0 b l0 l' ls0 src tgt act ps r rs0 B Bg' N Sp Ne|file0 b l0 l' ls0 p' f2 l2 rs1 rs2 B Bg' Sp N Fp Op H1 H2]; [discriminate| | |].
    + exfalso. assert (l0 = l) by congruence. subst l0. pose proof (inert_begins "" l eq_refl Bg I). congruence.
    + exfalso. assert (Q : b +++ l0 = "" +++ l) by (cbn [append]; congruence). destruct (blank_split b l0 "" l B Bg' eq_refl Bg Q) as [_ ->].
      apply compat_subst_spec in Sp. congruence.
    + assert (Q : b +++ l0 = "" +++ l) by (cbn [append]; congruence). destruct (blank_split b l0 "" l B Bg' eq_refl Bg Q) as [_ ->].
      apply compat_subst_spec in Sp. assert (l' = l) by congruence. subst l'. rewrite Cs in Fp. pose proof (fields_fun _ _ _ F Fp) as Ef. assert (p' = p) by congruence. subst p'.
      destruct (opens_fun _ _ _ _ _ _ _ O Op) as [<- <-]. assert (ls0 = ls) by congruence. subst ls0. eauto.
  - intros (r1 & r2 & -> & S1 & S2). change (l :: ls) with (("" +++ l) :: ls).
    eapply sr_include; [reflexivity|exact Bg|apply compat_subst_spec; exact Cs|exact Ex|exact F|exact O|exact S1|exact S2].
Qed.

Lemma rules_service opens sv ar file ls rs : sv <> "*" -> service_rules opens (Some sv) ar file ls rs -> forall r, In r rs -> r_service r = Some sv.
Proof.
  intros Ns. induction 1 as [|file l ls rs _ _ IH|file b l l' ls src tgt act ps r rs _ _ _ _ _ _ Rf _ IH|file b l l' ls p file' ls' rs1 rs2 _ _ _ _ _ _ _ IH1 _ IH2]; intros x Hx.
  - destruct Hx.
  - exact (IH x Hx).
  - destruct Hx as [<-|Hx]; [|exact (IH x Hx)]. cbn [field_of] in Rf. inversion Rf as [? ? ? ? ? ? ? ? ? ? ? Sf]; subst. cbn [r_service]. inversion Sf; subst; [contradiction|reflexivity].
  - apply in_app_or in Hx as [Hx|Hx]; [exact (IH1 x Hx)|exact (IH2 x Hx)].
Qed.

Lemma fields_line l ws : split_ws l = ws -> fields l ws.
Proof. intros <-. apply split_ws_fields. reflexivity. Qed.

Lemma validated_service sv : service_field sv (Some sv) -> validated (Some sv) None.
Proof. intros S. eapply validate_idem. apply validate_spec. split; [exact S|apply af_any]. Qed.
Lemma service_rules_fun f base sv file ls rs rs' : service_field sv (Some sv) -> service_rules (opens_at f base) (Some sv) None file ls rs -> service_rules (opens_at f base) (Some sv) None file ls rs' -> rs = rs'.
Proof.
  intros S H H'. apply validated_service in S.
  apply (load_service_complete (opens_at f base) (compat_open f base) (fun p file ls => proj2 (opens_at_spec f base p file ls))) in H as [n H]; [|exact S].
  apply (load_service_complete (opens_at f base) (compat_open f base) (fun p file ls => proj2 (opens_at_spec f base p file ls))) in H' as [n' H']; [|exact S].
  apply (load_service_mono _ (max n n')) in H; [|lia]. apply (load_service_mono _ (max n n')) in H'; [|lia]. congruence.
Qed.
Lemma service_change opens s1 s2 file ls rs : s1 <> "*" -> service_field s2 (Some s2) -> service_rules opens (Some s1) None file ls rs -> service_rules opens (Some s2) None file ls (map (for_service s2) rs).
Proof.
  intros N1 S2. induction 1 as [|file l ls rs I _ IH|file b l l' ls src tgt act ps r rs B Bg N Sp Ne F Rf _ IH|file b l l' ls p file' ls' rs1 rs2 B Bg Sp N F Op _ IH1 _ IH2]; cbn [map].
  - constructor.
  - apply sr_inert; assumption.
  - eapply sr_rule; try eassumption. cbn [field_of] in *. inversion Rf as [? ? ? ? ? ? ? oar ? ? a Sf Af Ts Tt Aa D]; subst. inversion Af; subst.
    unfold for_service. cbn [r_arg r_source r_target r_action r_file]. apply rf_rule; try assumption. apply af_any.
  - rewrite map_app. eapply sr_include; eassumption.
Qed.
Lemma service_args opens sv file ls rs : service_rules opens (Some sv) None file ls rs -> forall r, In r rs -> r_arg r = None.
Proof.
  induction 1 as [|file l ls rs I _ IH|file b l l' ls src tgt act ps r rs B Bg N Sp Ne F Rf _ IH|file b l l' ls p file' ls' rs1 rs2 B Bg Sp N F Op _ IH1 _ IH2]; intros x Hx.
  - destruct Hx.
  - exact (IH x Hx).
  - destruct Hx as [<-|Hx]; [|exact (IH x Hx)]. cbn [field_of] in Rf. inversion Rf as [? ? ? ? ? ? ? ? ? ? ? Sf Af]; subst. inversion Af; reflexivity.
  - apply in_app_or in Hx as [Hx|Hx]; [exact (IH1 x Hx)|exact (IH2 x Hx)].
Qed.

Lemma inert_lines opens lists legacy file ls ls' rs : Forall inert ls -> text_rules opens lists legacy file (ls ++ ls') rs <-> text_rules opens lists legacy file ls' rs.
Proof. induction 1 as [|l ls I _ IH]; [reflexivity|]. cbn [app]. rewrite (inert_line _ _ _ _ _ _ _ I). exact IH. Qed.
Lemma service_inerts opens sv ar file ls ls' rs : Forall inert ls -> service_rules opens sv ar file (ls ++ ls') rs <-> service_rules opens sv ar file ls' rs.
Proof. induction 1 as [|l ls I _ IH]; [reflexivity|]. cbn [app]. rewrite (service_inert _ _ _ _ _ _ _ I). exact IH. Qed.
Lemma inert_all ls : forallb (fun l => skip_line (strip l)) ls = true -> Forall inert ls.
Proof. intros H. apply Forall_forall. intros l Hl. apply skip_inert. rewrite forallb_forall in H. exact (H l Hl). Qed.

(** the read-only file: those who may write, then its own lines *)
Lemma ro_rules f base sv frw rwl fro own rs : opens_at f base "include/admin-policy-rwx" frw rwl -> 
  service_rules (opens_at f base) (Some sv) None fro (ADMIN_RO ++ own) rs <->
  exists r1 r2, rs = r1 ++ r2 /\ service_rules (opens_at f base) (Some sv) None frw rwl r1 /\ service_rules (opens_at f base) (Some sv) None fro own r2.
Proof.
  intros O. assert (E : ADMIN_RO = (firstn 8 ADMIN_RO ++ [nth 8 ADMIN_RO ""] ++ skipn 9 ADMIN_RO)%list) by reflexivity.
  rewrite E, <- app_assoc, service_inerts by (apply inert_all; vm_compute; reflexivity). rewrite <- app_assoc. cbn [app].
  rewrite (service_include f base (Some sv) None fro (nth 8 ADMIN_RO "") _ rs "include/admin-policy-rwx" frw rwl); [| |vm_compute; reflexivity|reflexivity|reflexivity|apply fields_line; vm_compute; reflexivity|exact O].
  2:{ exists "!"%char, (sdrop 1 (nth 8 ADMIN_RO "")). split; reflexivity. }
  assert (I : Forall inert (skipn 9 ADMIN_RO)) by (apply inert_all; vm_compute; reflexivity).
  split; intros (r1 & r2 & -> & S1 & S2); exists r1, r2; (split; [reflexivity|split; [exact S1|]]).
  - exact (proj1 (service_inerts _ _ _ _ _ _ _ I) S2).
  - exact (proj2 (service_inerts _ _ _ _ _ _ _ I) S2).
Qed.

Lemma service_names sv : smem sv (reading_services ++ writing_services) = true -> sv <> "*" /\ service_field sv (Some sv).
Proof.
  intros H. assert (V : forallb (fun s => negb (s =? "*") && valid_chars_no_plus s)%string (reading_services ++ writing_services) = true) by (vm_compute; reflexivity).
  rewrite forallb_forall in V. apply smem_In in H. specialize (V sv H). apply andb_true_iff in V as [V1 V2].
  apply negb_true_iff, String.eqb_neq in V1. apply valid_chars_np_spec in V2 as [V2 V3]. split; [exact V1|]. apply sf_name; assumption.
Qed.
(** one block of lines of the installed file *)
Definition block (svs : list (string * string)) (p : string) : list string := map (fun x => "!include-service " +++ fst x +++ snd x +++ "*  " +++ p) svs.
Lemma admin_default_lines : ADMIN_DEFAULT = firstn 15 ADMIN_DEFAULT ++ firstn 5 (skipn 15 ADMIN_DEFAULT) ++ [""] ++ skipn 21 ADMIN_DEFAULT.
Proof. reflexivity. Qed.
Lemma block_rules f base legacy file p file' ls' : opens_at f base p file' ls' -> forall svs ls, Forall2 (fun l sv => fields l ["!include-service"; sv; "*"; p] /\ service_field sv (Some sv)) ls svs -> forall rest rs,
  text_rules (opens_at f base) (lists_at f base) legacy file (ls ++ rest) rs ->
  exists rss r2, Forall2 (fun sv r => service_rules (opens_at f base) (Some sv) None file' ls' r) svs rss /\ text_rules (opens_at f base) (lists_at f base) legacy file rest r2 /\ rs = concat rss ++ r2.
Proof.
  intros O svs ls F. induction F as [|l sv ls svs [Fl Sf] _ IH]; intros rest rs H; cbn [app] in H.
  - exists [], rs. split; [constructor|split; [exact H|reflexivity]].
  - apply (service_line_rules f base legacy file l (ls ++ rest) rs sv p file' ls' Fl Sf O) in H as (r1 & r2 & -> & S1 & H).
    apply IH in H as (rss & r3 & Fs & T & ->). exists (r1 :: rss), r3. split; [constructor; assumption|split; [exact T|]]. cbn [concat]. rewrite app_assoc. reflexivity.
Qed.
Lemma map_filter_service sv svs : forall rss : list (list rule), Forall2 (fun s rs => forall r, In r rs -> r_service r = Some s) svs rss -> NoDup svs ->
  filter (fun r => opt_match (r_service r) sv) (concat rss) = match find (fun x => String.eqb (fst x) sv) (combine svs rss) with Some x => snd x | None => [] end.
Proof.
  intros rss F. induction F as [|s rs svs rss H F IH]; intros Nd; [reflexivity|]. cbn [concat combine find fst]. rewrite filter_app. inversion Nd as [|? ? Ni Nd']; subst.
  rewrite (IH Nd'). destruct (String.eqb_spec s sv) as [->|N].
  - assert (Z : find (fun x : string * list rule => String.eqb (fst x) sv) (combine svs rss) = None).
    { destruct (find _ _) as [[a b]|] eqn:E; [|reflexivity]. exfalso. apply find_some in E as [I E]. cbn [fst] in E. apply String.eqb_eq in E. subst a. apply in_combine_l in I. contradiction. }
    rewrite Z, app_nil_r. cbn [snd]. clear - H. induction rs as [|r rs IHr]; [reflexivity|]. cbn [filter]. rewrite (H r (or_introl eq_refl)). cbn [opt_match]. rewrite String.eqb_refl. f_equal. apply IHr. intros x Hx. apply H. right. exact Hx.
  - assert (Z : filter (fun r => opt_match (r_service r) sv) rs = []).
    { clear - H N. induction rs as [|r rs IHr]; [reflexivity|]. cbn [filter]. rewrite (H r (or_introl eq_refl)). cbn [opt_match]. destruct (String.eqb_spec s sv) as [->|_]; [contradiction|]. apply IHr. intros x Hx. apply H. right. exact Hx. }
    rewrite Z. reflexivity.
Qed.

Definition of_service (q : request) (r : rule) : bool := opt_match (r_service r) (q_service q).
Lemma evaluate_of_service rs q : evaluate (filter (of_service q) rs) q = evaluate rs q.
Proof.
  destruct (evaluate_filter (of_service q) q rs) as [Ff Fa]; [intros r _ N; apply no_service; exact N|].
  unfold evaluate. rewrite Ff. destruct (find_matching_rule rs q); cbn [bind]; auto.
Qed.
Lemma filter_for_service sv q rs : q_service q = sv -> filter (of_service q) (map (for_service sv) rs) = map (for_service sv) rs.
Proof. intros <-. induction rs as [|r rs IH]; [reflexivity|]. cbn [map filter]. unfold of_service at 1. cbn [for_service r_service opt_match]. rewrite String.eqb_refl, IH. reflexivity. Qed.
Lemma filter_given W R q : filter (of_service q) (given W R (q_service q)) = given W R (q_service q).
Proof. unfold given. destruct (smem _ reading_services); [apply filter_for_service; reflexivity|]. destruct (smem _ writing_services); [apply filter_for_service; reflexivity|reflexivity]. Qed.

Lemma Forall2_map {A B} (P : A -> B -> Prop) (g : A -> B) l l' : (forall a b, In a l -> P a b -> b = g a) -> Forall2 P l l' -> l' = map g l.
Proof.
  intros H F. induction F as [|a b l l' Hab F IH]; [reflexivity|]. cbn [map]. rewrite (H a b (or_introl eq_refl) Hab), IH; [reflexivity|]. intros. apply H; [right|]; assumption.
Qed.

(** ** C109 *)
Theorem C109_rules f legacy base file frw rwl fro own rs : 
  opens_at f base "include/admin-policy-rwx" frw rwl -> opens_at f base "include/admin-policy-ro" fro (ADMIN_RO ++ own) ->
  file_rules f legacy base file ADMIN_DEFAULT rs ->
  exists W R,
    (forall sv, In sv (reading_services ++ writing_services) -> service_rules (opens_at f base) (Some sv) None frw rwl (map (for_service sv) W)) /\
    (forall sv, In sv reading_services -> service_rules (opens_at f base) (Some sv) None fro own (map (for_service sv) R)) /\
    rs = concat (map (given W R) (reading_services ++ writing_services)).
Proof.
  intros Orw Oro H. rewrite admin_default_lines in H. unfold file_rules in H.
  rewrite inert_lines in H by (apply inert_all; vm_compute; reflexivity).
  assert (L : forall n l s q, fields l ["!include-service"; s; "*"; q] -> smem s (reading_services ++ writing_services) = true -> n = 0 -> fields l ["!include-service"; s; "*"; q] /\ service_field s (Some s)).
  { intros n l s q Fl Sm _. split; [exact Fl|]. apply service_names. exact Sm. }
  apply (block_rules f base _ file "include/admin-policy-ro" fro (ADMIN_RO ++ own) Oro reading_services) in H as (rss1 & r2 & F1 & H & ->).
  2:{ cbn [firstn skipn ADMIN_DEFAULT reading_services]. repeat (apply Forall2_cons; [apply (L 0); [apply fields_line; vm_compute; reflexivity|vm_compute; reflexivity|reflexivity]|]). apply Forall2_nil. }
  cbn [app] in H. rewrite inert_line in H by (apply (in_blank ""); reflexivity). rewrite <- (app_nil_r (skipn 21 ADMIN_DEFAULT)) in H.
  apply (block_rules f base _ file "include/admin-policy-rwx" frw rwl Orw writing_services) in H as (rss2 & r3 & F2 & H & ->).
  2:{ cbn [skipn ADMIN_DEFAULT writing_services]. repeat (apply Forall2_cons; [apply (L 0); [apply fields_line; vm_compute; reflexivity|vm_compute; reflexivity|reflexivity]|]). apply Forall2_nil. }
  apply end_line in H as ->. rewrite app_nil_r.
  assert (HW : exists W0, service_rules (opens_at f base) (Some "policy.Replace") None frw rwl W0) by (inversion F2; subst; eauto).
  assert (HR : exists R0, service_rules (opens_at f base) (Some "policy.List") None fro own R0).
  { inversion F1 as [|? ? ? ? H0 _]; subst. apply (ro_rules f base _ frw rwl) in H0 as (? & ? & _ & _ & S); [eauto|exact Orw]. }
  destruct HW as (W0 & HW), HR as (R0 & HR). exists W0, R0.
  assert (SW : forall sv, In sv (reading_services ++ writing_services) -> service_rules (opens_at f base) (Some sv) None frw rwl (map (for_service sv) W0)).
  { intros sv I. apply smem_In in I. apply (service_change _ "policy.Replace"); [discriminate|apply service_names; exact I|exact HW]. }
  assert (SR : forall sv, In sv reading_services -> service_rules (opens_at f base) (Some sv) None fro own (map (for_service sv) R0)).
  { intros sv I. apply (service_change _ "policy.List"); [discriminate| |exact HR]. apply service_names, smem_In, in_or_app. left. exact I. }
  split; [exact SW|split; [exact SR|]].
  rewrite map_app, concat_app. f_equal; f_equal.
  - refine (Forall2_map _ _ _ _ _ F1). intros sv b I S. apply (ro_rules f base _ frw rwl) in S as (r1 & r2 & -> & S1 & S2); [|exact Orw].
    assert (I' : In sv (reading_services ++ writing_services)) by (apply in_or_app; left; exact I). assert (V : service_field sv (Some sv)) by (apply service_names, smem_In; exact I').
    rewrite (service_rules_fun _ _ _ _ _ _ _ V S1 (SW sv I')), (service_rules_fun _ _ _ _ _ _ _ V S2 (SR sv I)), <- map_app.
    unfold given. apply smem_In in I. rewrite I. reflexivity.
  - refine (Forall2_map _ _ _ _ _ F2). intros sv b I S.
    assert (I' : In sv (reading_services ++ writing_services)) by (apply in_or_app; right; exact I). assert (V : service_field sv (Some sv)) by (apply service_names, smem_In; exact I').
    rewrite (service_rules_fun _ _ _ _ _ _ _ V S (SW sv I')). unfold given.
    assert (Nr : smem sv reading_services = false) by (destruct I as [<-|[<-|[<-|[<-|[]]]]]; reflexivity). rewrite Nr. apply smem_In in I. rewrite I. reflexivity.
Qed.

Lemma filter_app_nil {A} (P : A -> bool) l : (forall x, In x l -> P x = false) -> filter P l = [].
Proof. induction l as [|x l IH]; intros H; [reflexivity|]. cbn [filter]. rewrite (H x (or_introl eq_refl)). apply IH. intros; apply H; right; assumption. Qed.
Lemma given_In W R sv r : In r (given W R sv) -> r_service r = Some sv.
Proof.
  unfold given. intros H. assert (G : forall l, In r (map (for_service sv) l) -> r_service r = Some sv) by (intros l I; apply in_map_iff in I as (x & <- & _); reflexivity).
  destruct (smem sv reading_services); [exact (G _ H)|]. destruct (smem sv writing_services); [exact (G _ H)|destruct H].
Qed.
Lemma filter_all_given W R q svs : NoDup svs -> (forall sv, smem sv (reading_services ++ writing_services) = smem sv svs) ->
  filter (of_service q) (concat (map (given W R) svs)) = given W R (q_service q).
Proof.
  intros Nd C. assert (G : given W R (q_service q) = if smem (q_service q) svs then given W R (q_service q) else []).
  { destruct (smem (q_service q) svs) eqn:E; [reflexivity|]. rewrite <- C in E. unfold given.
    destruct (smem (q_service q) reading_services) eqn:Er; [apply smem_In in Er; assert (X : smem (q_service q) (reading_services ++ writing_services) = true) by (apply smem_In, in_or_app; left; exact Er); congruence|].
    destruct (smem (q_service q) writing_services) eqn:Ew; [apply smem_In in Ew; assert (X : smem (q_service q) (reading_services ++ writing_services) = true) by (apply smem_In, in_or_app; right; exact Ew); congruence|reflexivity]. }
  rewrite G. clear G C. induction Nd as [|s svs Ni Nd IH]; [reflexivity|]. cbn [map concat]. rewrite filter_app, IH. unfold smem. cbn [existsb]. fold (smem (q_service q) svs).
  destruct (String.eqb_spec (q_service q) s) as [E|N]; cbn [orb].
  - rewrite <- E. rewrite filter_given. destruct (smem (q_service q) svs) eqn:I; [apply smem_In in I; rewrite E in I; contradiction|]. apply app_nil_r.
  - rewrite filter_app_nil; [reflexivity|]. intros x Hx. apply given_In in Hx. unfold of_service. rewrite Hx. cbn [opt_match]. destruct (String.eqb_spec s (q_service q)); congruence.
Qed.
Theorem C109_decides f legacy base file frw rwl fro own rs : 
  opens_at f base "include/admin-policy-rwx" frw rwl -> opens_at f base "include/admin-policy-ro" fro (ADMIN_RO ++ own) ->
  file_rules f legacy base file ADMIN_DEFAULT rs ->
  exists W R,
    (forall sv, In sv (reading_services ++ writing_services) -> service_rules (opens_at f base) (Some sv) None frw rwl (map (for_service sv) W)) /\
    (forall sv, In sv reading_services -> service_rules (opens_at f base) (Some sv) None fro own (map (for_service sv) R)) /\
    forall before after q, evaluate (before ++ rs ++ after) q = evaluate (before ++ given W R (q_service q) ++ after) q.
Proof.
  intros Orw Oro H. destruct (C109_rules _ _ _ _ _ _ _ _ _ Orw Oro H) as (W & R & HW & HR & ->). exists W, R. split; [exact HW|split; [exact HR|]].
  intros rb ra q. rewrite <- (evaluate_of_service (rb ++ _ ++ ra)), <- (evaluate_of_service (rb ++ given _ _ _ ++ ra)). f_equal.
  rewrite !filter_app. f_equal. f_equal. rewrite filter_given. apply filter_all_given; [|intros; reflexivity].
  repeat (apply NoDup_cons; [intros I; repeat (destruct I as [I|I]; [discriminate|]); destruct I|]). apply NoDup_nil.
Qed.

(** who may write may read *)
Lemma is_match_for_service s s' r q q' : r_arg r = None -> same_ends q q' -> q_service q = s -> q_service q' = s' ->
  is_match (for_service s r) q = is_match (for_service s' r) q'.
Proof.
  intros A (Ei & Es & Et) <- <-. unfold is_match, is_match_but_target. cbn [for_service r_service r_arg r_source r_target opt_match]. rewrite !String.eqb_refl, A. cbn [negb opt_match]. rewrite Ei, Es, Et. reflexivity.
Qed.
Theorem C109_writers_read f legacy base file frw rwl fro own rs q q' a : 
  opens_at f base "include/admin-policy-rwx" frw rwl -> opens_at f base "include/admin-policy-ro" fro (ADMIN_RO ++ own) ->
  file_rules f legacy base file ADMIN_DEFAULT rs -> same_ends q q' -> In (q_service q) writing_services -> In (q_service q') reading_services ->
  evaluate rs q = Ok (RAllow a) -> evaluate rs q' = Ok (RAllow a).
Proof.
  intros Orw Oro H Se Iw Ir. destruct (C109_decides _ _ _ _ _ _ _ _ _ Orw Oro H) as (W & R & HW & HR & D).
  pose proof (D [] [] q) as Dq. pose proof (D [] [] q') as Dq'. cbn [app] in Dq, Dq'. rewrite !app_nil_r in Dq, Dq'. rewrite Dq, Dq'. clear D Dq Dq'.
  assert (Nr : smem (q_service q) reading_services = false) by (destruct Iw as [<-|[<-|[<-|[<-|[]]]]]; reflexivity).
  assert (A : forall r, In r W -> r_arg r = None).
  { intros r I. assert (Ia : In (q_service q') (reading_services ++ writing_services)) by (apply in_or_app; left; exact Ir). specialize (HW _ Ia).
    assert (X := service_args _ _ _ _ _ HW (for_service (q_service q') r)). apply X. apply in_map. exact I. }
  unfold given. apply smem_In in Iw, Ir. rewrite Nr, Iw, Ir. clear - Se A.
  unfold evaluate. intros Hq. destruct (find_matching_rule (map (for_service (q_service q)) W) q) as [r|e] eqn:Fq; [|discriminate]. cbn [bind] in Hq.
  assert (X : exists r0, r = for_service (q_service q) r0 /\ In r0 W /\ find_matching_rule (map (for_service (q_service q')) (W ++ R)) q' = Ok (for_service (q_service q') r0)).
  { clear Hq. revert Fq. rewrite map_app. generalize (map (for_service (q_service q')) R) as rest. intros rest. clear R. revert r. induction W as [|x W IH]; intros r Fq; [discriminate|]. cbn [map app find_matching_rule] in *.
    rewrite <- (is_match_for_service (q_service q) (q_service q') x q q'); [|apply A; left; reflexivity|exact Se|reflexivity|reflexivity].
    destruct (is_match (for_service (q_service q) x) q) as [[|]|] eqn:M; cbn [bind] in *; [| |discriminate].
    - exists x. split; [congruence|split; [left; reflexivity|reflexivity]].
    - destruct (IH (fun r I => A r (or_intror I)) r Fq) as (r0 & E & I & Ff). exists r0. split; [exact E|split; [right; exact I|exact Ff]]. }
  destruct X as (r0 & -> & I & ->). cbn [bind]. unfold action_evaluate in *. cbn [for_service r_action] in *.
  destruct (r_action r0) as [n|t u n au|t d u n au]; [discriminate| |].
  - rewrite <- Hq. unfold allow_evaluate, assert_match. rewrite (is_match_for_service (q_service q) (q_service q') r0 q q'); [|apply A; exact I|exact Se|reflexivity|reflexivity].
    destruct Se as (Ei & Es & Et). rewrite Ei, Es, Et. reflexivity.
  - exfalso. revert Hq. unfold ask_evaluate, denied. destruct (assert_match _ _); [|discriminate]. cbn [bind].
    intros Hq. destruct (match t with Some _ => _ | None => _ end) as [ts|]; [|discriminate]. cbn [bind] in Hq.
    destruct (if au then Ok ts else filter_autostart (q_info q) ts) as [[|? ?]|]; try discriminate. cbn [bind] in Hq.
    destruct (match d with Some _ => _ | None => _ end) as [?|]; discriminate.
Qed.

(** the files as installed give nothing to anyone *)
Theorem C109_nobody f legacy base file frw fro rs : 
  opens_at f base "include/admin-policy-rwx" frw ADMIN_RWX -> opens_at f base "include/admin-policy-ro" fro ADMIN_RO ->
  file_rules f legacy base file ADMIN_DEFAULT rs -> rs = [].
Proof.
  intros Orw Oro H. rewrite <- (app_nil_r ADMIN_RO) in Oro. destruct (C109_rules _ _ _ _ _ _ _ _ _ Orw Oro H) as (W & R & HW & HR & ->).
  assert (Ew : W = []).
  { specialize (HW "policy.Replace"). rewrite <- (app_nil_r ADMIN_RWX) in HW. rewrite service_inerts, service_end in HW by (apply inert_all; vm_compute; reflexivity).
    destruct W as [|x W]; [reflexivity|]. assert (X : map (for_service "policy.Replace") (x :: W) = []) by (apply HW; apply smem_In; reflexivity). discriminate. }
  assert (Er : R = []).
  { specialize (HR "policy.List"). rewrite service_end in HR. destruct R as [|x R]; [reflexivity|]. assert (X : map (for_service "policy.List") (x :: R) = []) by (apply HR; apply smem_In; reflexivity). discriminate. }
  subst W R. reflexivity.
Qed.

Lemma compat_line opens lists legacy file l rs : fields l ["!compat-4.0"] -> text_rules opens lists legacy file [l] rs -> legacy rs.
Proof.
  intros F H. assert (Ni : ~ inert l) by (eapply fields_not_inert; [exact F|reflexivity]).
  inversion H as [|? ? ? ? I _|? ? ? ws r ? _ Nd Fw _ _|? ? ? p' f'' ls'' ? ? Fw _ _ _|? ? ? p' fs ? ? Fw _ _ _|? ? ? s' a' p' sv ar f'' ls'' r1 r2 Fw Sa Op Sr Tr|? ? ? r1 r2 Fw L T]; subst;
    try contradiction; try (pose proof (fields_fun _ _ _ F Fw); discriminate).
  - exfalso. apply Nd. apply fields_split in F. apply split_ws_fields in F. inversion F as [|b w rest ws' B _ _ _ _]; subst. exists b, ("compat-4.0" +++ rest). split; [exact B|reflexivity].
  - apply end_line in T as ->. rewrite app_nil_r. exact L.
Qed.
Lemma no_legacy f d rs : (forall n, ~ legacy_file f d n) -> legacy_policy f d rs -> rs = [].
Proof.
  intros N (l & (_ & _ & L) & R). destruct l as [|[[s a] n] l]; [inversion R; reflexivity|]. exfalso. destruct (proj1 (L s a n) (or_introl eq_refl)) as [H _]. exact (N n H).
Qed.
(** with the files as installed, no file of the administrator and no old policy file, every call is refused *)
Theorem C109_default_denies f rs : 
  (forall n, ~ policy_file f RUNTIME_POLICY_PATH n) ->
  (forall n, policy_file f POLICYPATH n -> In n ["35-compat.policy"; "90-admin-policy-default.policy"]) ->
  file_lines f (POLICYPATH ++ ["35-compat.policy"]) COMPAT -> file_lines f (POLICYPATH ++ ["90-admin-policy-default.policy"]) ADMIN_DEFAULT ->
  file_lines f (POLICYPATH ++ ["include"; "admin-policy-ro"]) ADMIN_RO -> file_lines f (POLICYPATH ++ ["include"; "admin-policy-rwx"]) ADMIN_RWX ->
  (forall n, ~ legacy_file f POLICYPATH_OLD n) ->
  policy_of f POLICYPATH_OLD [RUNTIME_POLICY_PATH; POLICYPATH] rs -> rs = [] /\ forall q, evaluate rs q = Err (EAccessDenied true).
Proof.
  intros Nr Np Fc Fd Fo Fw Nl (sel & (_ & _ & _ & Ch) & R).
  assert (E : rs = []); [|subst rs; split; reflexivity].
  assert (S : forall d n, In (d, n) sel -> d = POLICYPATH /\ In n ["35-compat.policy"; "90-admin-policy-default.policy"]).
  { intros d n I. apply Ch in I as (b & a & Ed & Pf & _). assert (Id : In d [RUNTIME_POLICY_PATH; POLICYPATH]) by (rewrite Ed; apply in_elt).
    destruct Id as [<-|[<-|[]]]; [destruct (Nr n Pf)|]. split; [reflexivity|exact (Np n Pf)]. }
  clear Ch. induction R as [|d n sel ls rs1 rs2 Fl Fr R IH]; [reflexivity|]. rewrite IH by (intros; apply S; right; assumption). rewrite app_nil_r.
  destruct (S d n (or_introl eq_refl)) as [-> [<-|[<-|[]]]].
  - rewrite (file_lines_fun _ _ _ _ Fl Fc) in Fr. unfold file_rules in Fr.
    assert (E : COMPAT = (firstn 15 COMPAT ++ [nth 15 COMPAT ""])%list) by reflexivity. rewrite E, inert_lines in Fr by (apply inert_all; vm_compute; reflexivity).
    apply compat_line in Fr; [|apply fields_line; vm_compute; reflexivity]. exact (no_legacy _ _ _ Nl Fr).
  - rewrite (file_lines_fun _ _ _ _ Fl Fd) in Fr. eapply C109_nobody; [| |exact Fr]; (split; [reflexivity|]).
    + exact Fw.
    + exact Fo.
Qed.

(** ** Examples *)
Definition shipped (ls : list string) : node := NFile (Some (text ls)).
Definition ex_shipped_fs (rwx : list string) : fs := [
  (RUNTIME_POLICY_PATH, NDir); (POLICYPATH, NDir); (POLICYPATH_OLD, NDir); (POLICYPATH ++ ["include"], NDir);
  (POLICYPATH ++ ["35-compat.policy"], shipped COMPAT); (POLICYPATH ++ ["90-admin-policy-default.policy"], shipped ADMIN_DEFAULT);
  (POLICYPATH ++ ["include"; "admin-policy-ro"], shipped ADMIN_RO); (POLICYPATH ++ ["include"; "admin-policy-rwx"], shipped rwx)].
Definition ex_shipped_lines ls : lines_univ (text ls) = ls -> utf8_valid (text ls) = true -> forall f p, fget f p = Some (shipped ls) -> file_lines f p ls.
Proof. intros L U f p G. exists (text ls). split; [exact G|split; [exact U|symmetry; exact L]]. Qed.
Example C109_default_denies_met : policy_of (ex_shipped_fs ADMIN_RWX) POLICYPATH_OLD [RUNTIME_POLICY_PATH; POLICYPATH] [] /\
  (forall n, ~ policy_file (ex_shipped_fs ADMIN_RWX) RUNTIME_POLICY_PATH n) /\
  (forall n, policy_file (ex_shipped_fs ADMIN_RWX) POLICYPATH n -> In n ["35-compat.policy"; "90-admin-policy-default.policy"]) /\
  (forall n, ~ legacy_file (ex_shipped_fs ADMIN_RWX) POLICYPATH_OLD n) /\
  file_lines (ex_shipped_fs ADMIN_RWX) (POLICYPATH ++ ["35-compat.policy"]) COMPAT /\ file_lines (ex_shipped_fs ADMIN_RWX) (POLICYPATH ++ ["90-admin-policy-default.policy"]) ADMIN_DEFAULT /\
  file_lines (ex_shipped_fs ADMIN_RWX) (POLICYPATH ++ ["include"; "admin-policy-ro"]) ADMIN_RO /\ file_lines (ex_shipped_fs ADMIN_RWX) (POLICYPATH ++ ["include"; "admin-policy-rwx"]) ADMIN_RWX.
Proof.
  split; [|split; [|split; [|split]]].
  - apply C20_loaded_policy; [|exists 5; vm_compute; reflexivity]. unfold wf_fs. cbn [map fst ex_shipped_fs].
    repeat (apply NoDup_cons; [intros I; repeat (destruct I as [I|I]; [discriminate|]); destruct I|]). apply NoDup_nil.
  - intros n H. apply candidates_In in H. vm_compute in H. exact H.
  - intros n H. apply candidates_In in H. vm_compute in H. exact H.
  - intros n H. apply compat_candidate_spec in H. vm_compute in H. exact H.
  - repeat split; (apply ex_shipped_lines; [vm_compute; reflexivity|vm_compute; reflexivity|reflexivity]).
Qed.
(** one line for those who may write: work may replace and read the policy *)
Definition ex_rwx : list string := ADMIN_RWX ++ ["work @adminvm allow target=dom0"].
Definition ex_rules : list rule := match load_policy (ex_shipped_fs ex_rwx) POLICYPATH_OLD 5 [RUNTIME_POLICY_PATH; POLICYPATH] with Ok rs => rs | Err _ => [] end.
Example C109_decides_met : map r_service ex_rules = map Some (reading_services ++ writing_services) /\ map (fun r => tok_str (r_source r)) ex_rules = repeat "work" 9.
Proof. split; vm_compute; reflexivity. Qed.
Definition ex_call (sv source : string) : request := mkRequest sv "+x" source TAdmin "" None Props_Policy.ex_info.
Example C109_writers_read_met : evaluate ex_rules (ex_call "policy.Replace" "work") = Ok (RAllow (mkAllow None "dom0" true false)) /\
  evaluate ex_rules (ex_call "policy.Get" "work") = Ok (RAllow (mkAllow None "dom0" true false)) /\
  evaluate ex_rules (ex_call "policy.Get" "vault") = Err (EAccessDenied true) /\
  evaluate ex_rules (ex_call "admin.vm.List" "work") = Err (EAccessDenied true).
Proof. repeat split; vm_compute; reflexivity. Qed.
