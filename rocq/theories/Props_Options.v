(** C93, C94: which options there are, and with which status qrexec-client-vm and qrexec-client
    end when something is wrong with them *)
From Coq Require Import String Ascii List Bool Arith ZArith Lia.
From Verif Require Import Base ClientTools SpecClient ClientProofs.
From Verif Require Exec EvalSvc SpecExec DaemonPolicy.
Import ListNotations.
Open Scope string_scope.
Open Scope list_scope.
Open Scope Z_scope.

(** The long options in the manual *)
Definition vm_names : list string := [
  "buffer-size"; "filter-escape-chars-stdout"; "filter-escape-chars-stderr"; "no-filter-escape-chars-stdout";
  "no-filter-escape-chars-stderr"; "agent-socket"; "prefix-data"; "use-stdin-socket"; "source-qube"; "help"].
Definition cl_names : list string := ["help"; "socket-dir"; "no-exit-code"; "prefix-data"; "use-stdin-socket"].
(** [abbreviates name l]: [l] begins with [name] *)
Definition abbreviates (name l : string) : Prop := exists r, l = name +++ r.
Definition means_one (names : list string) (name l : string) : Prop :=
  In l names /\ abbreviates name l /\ forall l', In l' names -> abbreviates name l' -> l' = l.
Definition means_none (names : list string) (name : string) : Prop := forall l, In l names -> ~ abbreviates name l.
Definition ambiguous (names : list string) (name : string) : Prop :=
  ~ In name names /\ exists l l', In l names /\ In l' names /\ l <> l' /\ abbreviates name l /\ abbreviates name l'.

Lemma find_none lo name : means_none (map fst lo) name -> find_long lo name = None.
Proof.
  intros N. unfold find_long. destruct (dget lo name) as [o|] eqn:D.
  - exfalso. apply dget_In in D. apply (N name); [apply in_map_iff; exists (name, o); auto|exists ""; symmetry; apply app_nil_s].
  - destruct (filter _ lo) as [|x xs] eqn:F; [reflexivity|]. exfalso.
    assert (I : In x (filter (fun x => starts name (fst x)) lo)) by (rewrite F; left; reflexivity).
    apply filter_In in I as [I S]. apply starts_spec in S as [r S]. apply (N (fst x)); [apply in_map, I|exists r; exact S].
Qed.
Definition distinct_meanings (lo : longs) : Prop :=
  forall x y, In x lo -> In y lo -> same_opt (snd x) (snd y) = true -> fst x = fst y.
Lemma find_ambiguous lo name : distinct_meanings lo -> NoDup (map fst lo) -> ambiguous (map fst lo) name -> find_long lo name = None.
Proof.
  intros Dm Nd (Ni & l & l' & I1 & I2 & Ne & A1 & A2). unfold find_long.
  destruct (dget lo name) as [o|] eqn:D. { exfalso. apply Ni. apply dget_In in D. apply in_map_iff. exists (name, o). auto. }
  destruct (filter _ lo) as [|x xs] eqn:F; [reflexivity|]. destruct (forallb _ xs) eqn:E; [|reflexivity]. exfalso.
  rewrite forallb_forall in E.
  assert (K : forall l, In l (map fst lo) -> abbreviates name l -> l = fst x).
  { clear - F E Dm. intros l I [r ->]. apply in_map_iff in I as (y & Ey & I).
    assert (J : In y (x :: xs)) by (rewrite <- F; apply filter_In; split; [exact I|]; rewrite Ey; apply starts_app).
    assert (Ix : In x lo) by (apply (proj1 (filter_In (fun x => starts name (fst x)) x lo)); rewrite F; left; reflexivity).
    rewrite <- Ey. destruct J as [<-|J]; [reflexivity|]. symmetry. apply Dm; auto. }
  apply Ne. rewrite (K _ I1 A1), (K _ I2 A2). reflexivity.
Qed.
Lemma find_one lo name l : NoDup (map fst lo) -> means_one (map fst lo) name l -> find_long lo name = find_long lo l.
Proof.
  intros Nd (I & [r A] & U). apply in_map_iff in I as (x & Ex & Ix).
  assert (F : filter (fun y => starts name (fst y)) lo = [x]).
  { assert (G : forall lo, NoDup (map fst lo) -> (forall y, In y lo -> starts name (fst y) = true -> fst y = l) -> In x lo -> starts name (fst x) = true ->
      filter (fun y => starts name (fst y)) lo = [x]).
    { clear - Ex. induction lo as [|y lo IH]; intros Nd U I S; [destruct I|]. cbn [map filter] in *. apply NoDup_cons_iff in Nd as [N1 N2].
      destruct I as [->|I].
      - rewrite S. f_equal. destruct (filter _ lo) as [|z zs] eqn:E; [reflexivity|]. exfalso. apply N1.
        assert (J : In z (filter (fun y => starts name (fst y)) lo)) by (rewrite E; left; reflexivity). apply filter_In in J as [J J'].
        rewrite Ex. rewrite <- (U z (or_intror J) J'). apply in_map, J.
      - destruct (starts name (fst y)) eqn:Sy.
        + exfalso. apply N1. rewrite (U y (or_introl eq_refl) Sy), <- Ex. apply in_map, I.
        + apply IH; auto. intros z Iz Sz. apply U; [right; exact Iz|exact Sz]. }
    apply G; auto.
    - intros y Iy Sy. apply U; [apply in_map, Iy|]. apply starts_spec in Sy. exact Sy.
    - apply starts_spec. rewrite Ex. exists r. exact A. }
  assert (Dl : dget lo l = Some (snd x)) by (apply In_dget; [exact Nd|]; rewrite <- Ex; destruct x; exact Ix).
  unfold find_long at 2. rewrite Dl. unfold find_long. destruct (dget lo name) as [o|] eqn:D.
  - apply dget_In in D. assert (K : In (name, o) (filter (fun y => starts name (fst y)) lo)).
    { apply filter_In. split; [exact D|]. apply starts_spec. exists "". symmetry. apply app_nil_s. }
    rewrite F in K. destruct K as [K|[]]. rewrite K. reflexivity.
  - rewrite F. reflexivity.
Qed.
(** a word that is a long option *)
Lemma long_word name : name <> "" -> String.eqb ("--" +++ name) "--" = false /\ starts "--" ("--" +++ name) = true /\ sdrop 2 ("--" +++ name) = name.
Proof.
  intros N. split; [|split; [destruct name; reflexivity|reflexivity]]. apply String.eqb_neq. intros E. apply N. destruct name; [reflexivity|discriminate E].
Qed.
Lemma unknown_first plus sh lo name v rest : name <> "" -> has_char "=" name = false -> find_long lo name = None -> v = "" \/ (exists x, v = "=" +++ x) ->
  exists fs ps, getopt plus sh lo (("--" +++ name +++ v) :: rest) = (("?", None) :: fs, ps).
Proof.
  intros N E F V. cbn [getopt]. assert (N' : name +++ v <> "") by (destruct name; [congruence|discriminate]).
  destruct (long_word _ N') as (-> & -> & ->).
  destruct V as [->|[x ->]].
  - rewrite app_nil_s. rewrite (proj2 (split1_None _ _) E), F. destruct (getopt plus sh lo rest). eauto.
  - change ("=" +++ x) with (String "=" x). rewrite (EvalSvc.split1_some "=" name x E). rewrite F. destruct (getopt plus sh lo rest). eauto.
Qed.

Lemma vm_names_ok : map fst vm_longs = vm_names. Proof. reflexivity. Qed.
Lemma cl_names_ok : map fst cl_longs = cl_names. Proof. reflexivity. Qed.
Lemma vm_nodup : NoDup (map fst vm_longs).
Proof. cbn [map fst vm_longs]. repeat constructor; cbn [In]; intuition discriminate. Qed.
Lemma cl_nodup : NoDup (map fst cl_longs).
Proof. cbn [map fst cl_longs]. repeat constructor; cbn [In]; intuition discriminate. Qed.
Lemma vm_distinct : distinct_meanings vm_longs.
Proof.
  intros x y Ix Iy. unfold vm_longs in Ix, Iy. cbn [In] in Ix, Iy.
  repeat (destruct Ix as [<-|Ix]; [repeat (destruct Iy as [<-|Iy]; [first [reflexivity|discriminate]|]); destruct Iy|]). destruct Ix.
Qed.
Lemma cl_distinct : distinct_meanings cl_longs.
Proof.
  intros x y Ix Iy. unfold cl_longs in Ix, Iy. cbn [In] in Ix, Iy.
  repeat (destruct Ix as [<-|Ix]; [repeat (destruct Iy as [<-|Iy]; [first [reflexivity|discriminate]|]); destruct Iy|]). destruct Ix.
Qed.

(** A long option can be shortened if that leaves only one; anything else is refused. [v] is
    nothing or =VALUE. *)
Theorem C93_option_names t1 t2 stream name v rest : name <> "" -> has_char "=" name = false -> v = "" \/ (exists x, v = "=" +++ x) ->
  (means_none vm_names name \/ ambiguous vm_names name -> vm_main t1 t2 stream (("--" +++ name +++ v) :: rest) = VExit 2) /\
  (forall l, means_one vm_names name l ->
     vm_main t1 t2 stream (("--" +++ name +++ v) :: rest) = vm_main t1 t2 stream (("--" +++ l +++ v) :: rest)).
Proof.
  intros N E V. rewrite <- vm_names_ok. split.
  - intros H. assert (F : find_long vm_longs name = None) by (destruct H as [H|H]; [apply find_none, H|apply find_ambiguous; auto using vm_distinct, vm_nodup]).
    destruct (unknown_first true vm_shorts vm_longs name v rest N E F V) as (fs & ps & G). unfold vm_main. rewrite G. reflexivity.
  - intros l H. pose proof (find_one vm_longs name l vm_nodup H) as F. destruct H as (I & [r A] & _).
    assert (El : has_char "=" l = false).
    { clear - I. unfold vm_longs in I. cbn [map fst In] in I. repeat (destruct I as [<-|I]; [reflexivity|]). destruct I. }
    assert (Nl : l <> "") by (intros ->; destruct name; [congruence|discriminate A]).
    assert (G : getopt true vm_shorts vm_longs (("--" +++ name +++ v) :: rest) = getopt true vm_shorts vm_longs (("--" +++ l +++ v) :: rest)).
    { cbn [getopt]. assert (N1 : name +++ v <> "") by (destruct name; [congruence|discriminate]). assert (N2 : l +++ v <> "") by (destruct l; [congruence|discriminate]).
      destruct (long_word _ N1) as (-> & -> & ->). destruct (long_word _ N2) as (-> & -> & ->).
      destruct V as [->|[x ->]].
      - rewrite !app_nil_s. rewrite (proj2 (split1_None _ _) E), (proj2 (split1_None _ _) El), F. reflexivity.
      - change ("=" +++ x) with (String "=" x). rewrite (EvalSvc.split1_some "=" name x E), (EvalSvc.split1_some "=" l x El), F. reflexivity. }
    unfold vm_main. rewrite G. reflexivity.
Qed.
Theorem C94_option_names fs path session stream name v rest : name <> "" -> has_char "=" name = false -> v = "" \/ (exists x, v = "=" +++ x) ->
  (means_none cl_names name \/ ambiguous cl_names name -> cl_main fs path session stream (("--" +++ name +++ v) :: rest) = ClExit 0) /\
  (forall l, means_one cl_names name l ->
     cl_main fs path session stream (("--" +++ name +++ v) :: rest) = cl_main fs path session stream (("--" +++ l +++ v) :: rest)).
Proof.
  intros N E V. rewrite <- cl_names_ok. split.
  - intros H. assert (F : find_long cl_longs name = None) by (destruct H as [H|H]; [apply find_none, H|apply find_ambiguous; auto using cl_distinct, cl_nodup]).
    destruct (unknown_first false cl_shorts cl_longs name v rest N E F V) as (fs' & ps & G). unfold cl_main. rewrite G. reflexivity.
  - intros l H. pose proof (find_one cl_longs name l cl_nodup H) as F. destruct H as (I & [r A] & _).
    assert (El : has_char "=" l = false).
    { clear - I. unfold cl_longs in I. cbn [map fst In] in I. repeat (destruct I as [<-|I]; [reflexivity|]). destruct I. }
    assert (Nl : l <> "") by (intros ->; destruct name; [congruence|discriminate A]).
    assert (G : getopt false cl_shorts cl_longs (("--" +++ name +++ v) :: rest) = getopt false cl_shorts cl_longs (("--" +++ l +++ v) :: rest)).
    { cbn [getopt]. assert (N1 : name +++ v <> "") by (destruct name; [congruence|discriminate]). assert (N2 : l +++ v <> "") by (destruct l; [congruence|discriminate]).
      destruct (long_word _ N1) as (-> & -> & ->). destruct (long_word _ N2) as (-> & -> & ->).
      destruct V as [->|[x ->]].
      - rewrite !app_nil_s. rewrite (proj2 (split1_None _ _) E), (proj2 (split1_None _ _) El), F. reflexivity.
      - change ("=" +++ x) with (String "=" x). rewrite (EvalSvc.split1_some "=" name x E), (EvalSvc.split1_some "=" l x El), F. reflexivity. }
    unfold cl_main. rewrite G. reflexivity.
Qed.

(** The first option that is wrong decides the status *)
Lemma options_first {S} (step : found -> S -> S + Z) fs : forall s n, options step fs s = inr n ->
  exists pre o post s', fs = pre ++ o :: post /\ options step pre s = inl s' /\ step o s' = inr n.
Proof.
  induction fs as [|o fs IH]; intros s n H; [discriminate H|]. cbn [options] in H. destruct (step o s) as [s1|m] eqn:E.
  - destruct (IH _ _ H) as (pre & o' & post & s' & -> & P & Q). exists (o :: pre), o', post, s'. split; [reflexivity|]. cbn [options]. rewrite E. auto.
  - assert (m = n) as -> by congruence. exists [], o, fs, s. auto.
Qed.
Lemma options_app {S} (step : found -> S -> S + Z) a : forall s s' b, options step a s = inl s' -> options step (a ++ b) s = options step b s'.
Proof.
  induction a as [|o a IH]; intros s s' b H; [injection H as <-; reflexivity|]. cbn [app options] in *. destruct (step o s); [apply IH, H|discriminate H].
Qed.
Definition vm_status (o : vm_opt) : Z := match o with OHelp => 0 | OBuffer _ => 1 | _ => 2 end.
Definition cl_status (o : cl_opt) : Z := match o with CHelp => 0 | CConnect _ | CTimeout _ => 1 | _ => 2 end.
Lemma vm_start_fine stream os : match options (vm_option stream) (map vm_code os) vm_start with inl _ => vm_fine stream os | inr _ => ~ vm_fine stream os end.
Proof.
  pose proof (vm_options stream os vm_start) as V. destruct (options (vm_option stream) (map vm_code os) vm_start) as [v|n].
  - destruct V as (V1 & V2 & V3 & V4 & V5 & _). cbn [vm_start v_prefix v_source v_socket held] in *. constructor; try lia; auto; destruct stream; lia.
  - destruct V as (V1 & _). intros [F1 F2 F3 F4 F5]. apply V1. cbn [vm_start v_prefix v_source v_socket held]. split; [lia|]. split; [lia|]. split; [destruct stream; lia|]. auto.
Qed.
Lemma cl_start_fine stream os : match options (cl_option stream) (map cl_code os) cl_start with inl _ => cl_fine stream os | inr _ => ~ cl_fine stream os end.
Proof.
  pose proof (cl_options stream os cl_start) as V. destruct (options (cl_option stream) (map cl_code os) cl_start) as [v|n].
  - destruct V as [(R1 & R2 & R3 & R4 & R5 & R6) _]. cbn [cl_start c_conn c_prefix c_socket held] in *. constructor; try lia; auto; destruct stream; lia.
  - destruct V as (V1 & _). intros [F1 F2 F3 F4 F5 F6]. apply V1. unfold cl_rel. cbn [cl_start c_conn c_prefix c_socket held].
    split; [lia|]. split; [exact F2|]. split; [lia|]. split; [exact F4|]. split; [destruct stream; lia|exact F6].
Qed.
Lemma vm_step_status stream o v n : vm_option stream (vm_code o) v = inr n -> n = vm_status o.
Proof.
  destruct o as [[]|[]|p|p|p|t| |]; cbn; try discriminate; try congruence.
  - destruct (v_prefix v); [congruence|discriminate].
  - destruct (v_source v); [congruence|discriminate].
  - destruct (parse_int t); [discriminate|congruence].
  - destruct (v_socket v || negb stream); [congruence|discriminate].
Qed.
Lemma cl_step_status stream o c n : cl_option stream (cl_code o) c = inr n -> n = cl_status o.
Proof.
  destruct c as [dom local just code conn prefix out err timeout wait socket kill].
  destruct o as [d|l| | |t|p| | |t| |p| | |]; cbn; try discriminate; try congruence.
  - destruct conn; [congruence|]. destruct (parse_connect t) as [[[id name] k]|]; [|congruence]. destruct (DaemonPolicy.target_refers_to_dom0 name || (k =? 0)); [congruence|discriminate].
  - destruct prefix; [congruence|discriminate].
  - destruct (parse_int t); [discriminate|congruence].
  - destruct (socket || negb stream); [congruence|discriminate].
Qed.
Theorem C93_exit_status t1 t2 stream argv os ps n : line true vm_spelled argv os ps -> vm_main t1 t2 stream argv = VExit n ->
  (exists pre o post, os = pre ++ o :: post /\ vm_fine stream pre /\ ~ vm_fine stream (pre ++ [o]) /\ n = vm_status o) \/
  vm_fine stream os /\ n = 2.
Proof.
  intros L. pose proof (getopt_line true vm_spelled vm_shorts vm_longs vm_code argv os ps (vm_words true) L) as G.
  unfold vm_main. rewrite G. pose proof (vm_start_fine stream os) as W. destruct (options (vm_option stream) (map vm_code os) vm_start) as [v|m] eqn:O.
  - intros H. right. split; [exact W|]. destruct ps as [|a [|b l]]; try congruence. destruct l; [|destruct (v_socket v)]; try congruence;
      destruct (vm_request _ _ _); discriminate H.
  - intros H. assert (m = n) as -> by congruence. left. apply options_first in O as (fpre & fo & fpost & v & E & P & Q).
    apply map_eq_app in E as (pre & r & -> & <- & E). destruct r as [|o post]; [discriminate E|]. cbn [map] in E. injection E as <- <-.
    exists pre, o, post. split; [reflexivity|]. pose proof (vm_start_fine stream pre) as A. rewrite P in A. split; [exact A|].
    pose proof (vm_start_fine stream (pre ++ [o])) as B. rewrite map_app, (options_app _ _ _ _ _ P) in B. cbn [map options] in B. rewrite Q in B.
    split; [exact B|]. eapply vm_step_status, Q.
Qed.
Theorem C94_exit_status fs path session stream argv os ps n : line false cl_spelled argv os ps -> cl_main fs path session stream argv = ClExit n ->
  (exists pre o post, os = pre ++ o :: post /\ cl_fine stream pre /\ ~ cl_fine stream (pre ++ [o]) /\ n = cl_status o) \/
  cl_fine stream os /\ (n = 1 \/ (n = 125 \/ n = 127) /\ exists dom, last_of p_domain os = Some dom /\ is_dom0 dom).
Proof.
  intros L. pose proof (getopt_line false cl_spelled cl_shorts cl_longs cl_code argv os ps (cl_words false) L) as G.
  unfold cl_main. rewrite G. pose proof (cl_start_fine stream os) as W. pose proof (cl_options stream os cl_start) as V.
  destruct (options (cl_option stream) (map cl_code os) cl_start) as [c|m] eqn:O.
  - intros H. right. split; [exact W|]. destruct V as [_ (F1 & _)]. cbn [cl_start c_dom] in F1.
    destruct ps as [|command more]; [left; congruence|]. destruct (c_dom c) as [dom|] eqn:Ed; [|left; congruence].
    destruct (match c_local c, c_conn c with Some _, Some _ => true | Some _, None | None, Some _ => c_just c | None, None => false end); [left; congruence|].
    destruct (match c_local c with Some _ => c_socket c | None => false end); [left; congruence|].
    destruct (DaemonPolicy.target_refers_to_dom0 dom) eqn:D.
    + assert (X : exists dom, last_of p_domain os = Some dom /\ is_dom0 dom).
      { exists dom. split; [|apply dom0_spec, D]. unfold or_keep in F1. destruct (last_of p_domain os); congruence. }
      destruct (c_conn c) as [[[id name] k]|]; [destruct (String.eqb id ""); [left; congruence|discriminate H]|]. right. split; [|exact X].
      destruct (c_local c); [left; congruence|]. destruct (negb (starts "DEFAULT:" command)); [left; congruence|].
      destruct (Exec.parse_qubes_rpc_command (sdrop 8 command) false) as [p|]; [|left; congruence].
      destruct (Exec.pc_descriptor p); [|left; congruence]. destruct (Exec.pc_name p); [|left; congruence]. destruct (negb session); [left; congruence|].
      destruct (Exec.find_qrexec_service _ _ _ _ _ _ _ _); try (left; congruence); try discriminate H. right. congruence.
    + destruct (c_conn c) as [[[id name] k]|]; discriminate H.
  - intros H. assert (m = n) as -> by congruence. left. apply options_first in O as (fpre & fo & fpost & v & E & P & Q).
    apply map_eq_app in E as (pre & r & -> & <- & E). destruct r as [|o post]; [discriminate E|]. cbn [map] in E. injection E as <- <-.
    exists pre, o, post. split; [reflexivity|]. pose proof (cl_start_fine stream pre) as A. rewrite P in A. split; [exact A|].
    pose proof (cl_start_fine stream (pre ++ [o])) as B. rewrite map_app, (options_app _ _ _ _ _ P) in B. cbn [map options] in B. rewrite Q in B.
    split; [exact B|]. eapply cl_step_status, Q.
Qed.
Example C93_names_example :
  means_one vm_names "source" "source-qube" /\ ambiguous vm_names "filter-escape-chars-std" /\ means_none vm_names "source-quber" /\
  vm_main false false true ["--source=far"; "work"; "svc"] = vm_main false false true ["--source-qube=far"; "work"; "svc"] /\
  vm_main false false true ["--prefix-data=a"; "-p"; "b"; "work"; "svc"] = VExit 2.
Proof.
  assert (N : forall name l, starts name l = false -> ~ abbreviates name l) by (intros name l S A; apply starts_spec in A; congruence).
  repeat split; try reflexivity.
  - cbn; tauto.
  - exists "-qube". reflexivity.
  - intros l I A. cbn [vm_names In] in I. repeat (destruct I as [<-|I]; [first [reflexivity|exfalso; revert A; apply N; reflexivity]|]). destruct I.
  - cbn; intuition discriminate.
  - exists "filter-escape-chars-stdout", "filter-escape-chars-stderr". repeat split; try (cbn; tauto); try discriminate; [exists "out"|exists "err"]; reflexivity.
  - intros l I. cbn [vm_names In] in I. repeat (destruct I as [<-|I]; [apply N; reflexivity|]). destruct I.
Qed.
