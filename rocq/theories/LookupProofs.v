(** Proofs about libqrexec/exec.c: looking up a service *)
From Coq Require Import String Ascii List Bool Arith ZArith Lia.
From Verif Require Import Base Sanitize DaemonAgent Exec SpecExec SpecLookup ExecCProofs.
Import ListNotations.
Open Scope string_scope.
Open Scope list_scope.
Open Scope Z_scope.

(** ** Splitting *)
Lemma split_all_ne c s : split_all c s <> [].
Proof. destruct s; simpl; [discriminate|]. destruct (Ascii.eqb c a); [discriminate|]. destruct (split_all c s); discriminate. Qed.
Lemma split_all_cons c x s : lacks c x -> split_all c (x +++ String c s) = x :: split_all c s.
Proof.
  intros H. induction x as [|d x IH]; simpl.
  - rewrite Ascii.eqb_refl. reflexivity.
  - unfold lacks in *. simpl in H. apply orb_false_iff in H as [Hd Hx]. rewrite Hd, IH; auto.
Qed.
Lemma split_all_lacks c x : lacks c x -> split_all c x = [x].
Proof.
  intros H. induction x as [|d x IH]; simpl; auto.
  unfold lacks in *. simpl in H. apply orb_false_iff in H as [Hd Hx]. rewrite Hd, IH; auto.
Qed.
Lemma split_all_app c a b : lacks c b -> split_all c (a +++ String c b) = split_all c a ++ [b].
Proof.
  intros H. induction a as [|d a IH]; simpl.
  - rewrite Ascii.eqb_refl, split_all_lacks; auto.
  - destruct (Ascii.eqb c d); rewrite IH; auto.
    pose proof (split_all_ne c a). destruct (split_all c a); [contradiction|]. reflexivity.
Qed.
Lemma split_all_join c l : l <> [] -> (forall d, In d l -> lacks c d) -> split_all c (join (str1 c) l) = l.
Proof.
  induction l as [|x l IH]; [contradiction|]. intros _ H. destruct l as [|y l].
  - simpl. apply split_all_lacks. apply H. left. reflexivity.
  - change (join (str1 c) (x :: y :: l)) with (x +++ String c (join (str1 c) (y :: l))).
    rewrite split_all_cons by (apply H; left; reflexivity). f_equal.
    apply IH; [discriminate|]. intros d Hd. apply H. right. exact Hd.
Qed.
Lemma join_split_all c s : join (str1 c) (split_all c s) = s.
Proof.
  induction s as [|d s IH]; auto. simpl. destruct (Ascii.eqb_spec c d) as [<-|n].
  - pose proof (split_all_ne c s). destruct (split_all c s) as [|x l] eqn:E; [contradiction|].
    change (join (str1 c) ("" :: x :: l)) with (String c (join (str1 c) (x :: l))). rewrite IH. reflexivity.
  - pose proof (split_all_ne c s). destruct (split_all c s) as [|x l] eqn:E; [contradiction|].
    rewrite <- IH. destruct l as [|y l]; reflexivity.
Qed.
Lemma split_all_each c s x : In x (split_all c s) -> lacks c x.
Proof.
  revert x. induction s as [|d s IH]; simpl; intros x H.
  - destruct H as [<-|[]]. reflexivity.
  - destruct (Ascii.eqb c d) eqn:E.
    + destruct H as [<-|H]; [reflexivity|auto].
    + pose proof (split_all_ne c s). destruct (split_all c s) as [|y l] eqn:El; [contradiction|].
      destruct H as [<-|H].
      * unfold lacks. simpl. rewrite E. apply IH. left. reflexivity.
      * apply IH. right. exact H.
Qed.
Lemma join_snoc c l x : l <> [] -> join (str1 c) (l ++ [x]) = join (str1 c) l +++ String c x.
Proof.
  induction l as [|y l IH]; [contradiction|]. intros _. destruct l as [|z l]; [reflexivity|].
  change ((y :: z :: l) ++ [x]) with (y :: z :: (l ++ [x])).
  change (join (str1 c) (y :: z :: (l ++ [x]))) with (y +++ String c (join (str1 c) ((z :: l) ++ [x]))).
  rewrite IH by discriminate.
  change (join (str1 c) (y :: z :: l)) with (y +++ String c (join (str1 c) (z :: l))).
  rewrite app_assoc_s. reflexivity.
Qed.
Lemma split_last_iff c s a b : split_last c s = Some (a, b) <-> s = a +++ String c b /\ lacks c b.
Proof.
  unfold split_last. split.
  - destruct (rev (split_all c s)) as [|x front] eqn:E; [discriminate|].
    destruct front as [|y front]; [discriminate|]. intros H. injection H as <- <-.
    assert (E2 : split_all c s = rev (y :: front) ++ [x]).
    { rewrite <- (rev_involutive (split_all c s)), E. reflexivity. }
    split.
    + rewrite <- (join_split_all c s), E2, join_snoc; [reflexivity|].
      simpl. intros H. apply app_eq_nil in H as [_ H]. discriminate.
    + apply (split_all_each c s). rewrite E2. apply in_or_app. right. left. reflexivity.
  - intros [-> H]. rewrite split_all_app by exact H. rewrite rev_app_distr. cbn [rev app].
    destruct (rev (split_all c a)) as [|y l] eqn:E.
    + apply (f_equal (@rev string)) in E. rewrite rev_involutive in E. destruct (split_all_ne c a E).
    + rewrite <- E, rev_involutive, join_split_all. reflexivity.
Qed.

Lemma search_dirs_path path dirs : search_path path dirs -> search_dirs path = dirs.
Proof.
  intros [-> H]. destruct dirs as [|d ds]; [reflexivity|].
  assert (E : split_all ":" (join ":" (d :: ds)) = d :: ds).
  { apply (split_all_join ":"); [discriminate|]. intros x Hx. apply H. exact Hx. }
  unfold search_dirs. rewrite E.
  assert (F : filter (fun x => negb (String.eqb x "")) ds = ds).
  { clear E. assert (G : forall x, In x ds -> x <> "") by (intros x Hx; apply H; right; exact Hx). clear H.
    induction ds as [|x l IH]; auto. simpl. destruct (String.eqb_spec x "") as [Ex|Ex].
    - destruct (G x); [left; reflexivity|exact Ex].
    - simpl. f_equal. apply IH. intros y Hy. apply G. right. exact Hy. }
  rewrite F. destruct (join ":" (d :: ds)) eqn:Ej; [|reflexivity].
  exfalso. assert (Hd : d <> "") by (apply H; left; reflexivity).
  destruct ds; simpl in Ej; [contradiction|]. destruct d; [contradiction|discriminate].
Qed.

(** ** One directory *)
Lemma tcp_target_iff t : tcp_target t = true <-> points_to_tcp t.
Proof.
  unfold tcp_target, points_to_tcp. rewrite orb_true_iff, String.eqb_eq, starts_true. tauto.
Qed.
Lemma tcp_target_false t : tcp_target t = false <-> ~ points_to_tcp t.
Proof. rewrite <- tcp_target_iff. destruct (tcp_target t); split; congruence. Qed.
Lemma size_in_dir d n : size (in_dir d n) = size d + size n + 1.
Proof. unfold in_dir. rewrite !size_app. change (size "/") with 1. lia. Qed.

Lemma find_in_some fs d n sz r : find_in fs d n sz true = Some r ->
  match r with
  | Found p k => p = in_dir d n /\ entry fs (in_dir d n) (Is k)
  | FoundLink t => entry fs (in_dir d n) (Tcp t) /\ t <> "/dev/tcp/"
  | NotFound => False
  | FindError => True
  end.
Proof.
  unfold find_in. destruct (zlen d + zlen n + 1 >=? sz); [intros H; injection H as <-; exact I|].
  change (d +++ "/" +++ n) with (in_dir d n). cbv zeta.
  destruct (fs (in_dir d n)) as [| |k|[t|] s] eqn:E.
  - discriminate.
  - intros H. injection H as <-. exact I.
  - intros H. injection H as <-. split; auto. apply en_file. exact E.
  - destruct (tcp_target t) eqn:Et.
    + destruct (zlen t >=? sz); [intros H; injection H as <-; exact I|].
      destruct (Z.eqb_spec (zlen t) 9) as [|Hn]; [intros H; injection H as <-; exact I|].
      intros H. injection H as <-. apply tcp_target_iff in Et. split.
      * eapply en_tcp; eauto.
      * intros ->. apply Hn. reflexivity.
    + apply tcp_target_false in Et. destruct s as [| |k]; intros H; [discriminate|injection H as <-; exact I|].
      injection H as <-. split; auto. eapply en_link; eauto.
  - intros H. injection H as <-. exact I.
Qed.
Lemma find_in_none fs d n sz : find_in fs d n sz true = None -> entry fs (in_dir d n) Nothing.
Proof.
  unfold find_in. destruct (zlen d + zlen n + 1 >=? sz); [discriminate|].
  change (d +++ "/" +++ n) with (in_dir d n). cbv zeta.
  destruct (fs (in_dir d n)) as [| |k|[t|] s] eqn:E; try discriminate.
  - intros _. apply en_absent. exact E.
  - destruct (tcp_target t) eqn:Et.
    + destruct (zlen t >=? sz); [discriminate|]. destruct (zlen t =? 9); discriminate.
    + apply tcp_target_false in Et. destruct s as [| |k]; intros H; try discriminate.
      eapply en_dangling; eauto.
Qed.
Lemma find_in_entry fs d n th : size (in_dir d n) < 1024 -> entry fs (in_dir d n) th -> link_fits th ->
  find_in fs d n 1024 true = match th with
                             | Nothing => None
                             | Is k => Some (Found (in_dir d n) k)
                             | Tcp t => Some (FoundLink t)
                             end.
Proof.
  intros Hs He Hl. unfold find_in. rewrite size_in_dir in Hs.
  change zlen with size. destruct (size d + size n + 1 >=? 1024) eqn:E; [lia|].
  change (d +++ "/" +++ n) with (in_dir d n). cbv zeta.
  destruct He as [H|t H Ht|k H|t k H Ht|t s H Ht]; rewrite H; auto.
  - apply tcp_target_false in Ht. rewrite Ht. reflexivity.
  - apply tcp_target_false in Ht. rewrite Ht. reflexivity.
  - pose proof Ht as Ht'. apply tcp_target_iff in Ht. rewrite Ht. destruct Hl as [L1 L2].
    destruct (size t >=? 1024) eqn:E2; [lia|].
    destruct (Z.eqb_spec (size t) 9) as [E9|]; [|reflexivity].
    exfalso. destruct Ht' as [->|[r ->]]; [discriminate E9|].
    rewrite size_app in E9. change (size "/dev/tcp/") with 9 in E9.
    assert (size r = 0) as Hr by lia. apply size_0 in Hr. subst r. apply L2. reflexivity.
Qed.

(** ** All directories *)
Lemma find_loop_found fs dirs n sz r : find_loop fs dirs n sz true = r ->
  match r with
  | Found p k => exists before d after, dirs = before ++ d :: after /\
      (forall d', In d' before -> entry fs (in_dir d' n) Nothing) /\ p = in_dir d n /\ entry fs p (Is k)
  | FoundLink t => t <> "/dev/tcp/" /\ exists p before d after, dirs = before ++ d :: after /\
      (forall d', In d' before -> entry fs (in_dir d' n) Nothing) /\ p = in_dir d n /\ entry fs p (Tcp t)
  | NotFound => forall d, In d dirs -> entry fs (in_dir d n) Nothing
  | FindError => True
  end.
Proof.
  revert r. induction dirs as [|d ds IH]; intros r; cbn [find_loop].
  { intros <-. intros d []. }
  destruct (find_in fs d n sz true) as [r'|] eqn:E.
  - intros <-. apply find_in_some in E. destruct r' as [p k|t| |].
    + destruct E as [-> E]. exists [], d, ds. repeat split; auto. intros ? [].
    + destruct E as [E Ht]. split; [exact Ht|]. exists (in_dir d n), [], d, ds. repeat split; auto. intros ? [].
    + contradiction.
    + exact I.
  - apply find_in_none in E. intros H. specialize (IH r H). destruct r as [p k|t| |].
    + destruct IH as (b & d0 & a & -> & H1 & H2 & H3). exists (d :: b), d0, a. repeat split; auto.
      intros d' [<-|Hd]; auto.
    + destruct IH as (Ht & p & b & d0 & a & -> & H1 & H2 & H3). split; [exact Ht|].
      exists p, (d :: b), d0, a. repeat split; auto. intros d' [<-|Hd]; auto.
    + intros d' [<-|Hd]; auto.
    + exact I.
Qed.
Lemma find_loop_skip fs before n rest : (forall d, In d before -> size (in_dir d n) < 1024) ->
  (forall d', In d' before -> entry fs (in_dir d' n) Nothing) ->
  find_loop fs (before ++ rest) n 1024 true = find_loop fs rest n 1024 true.
Proof.
  induction before as [|d b IH]; intros Hf He; [reflexivity|]. cbn [find_loop app].
  rewrite (find_in_entry fs d n Nothing); [|apply Hf; left; reflexivity|apply He; left; reflexivity|exact I].
  apply IH; intros x Hx; [apply Hf|apply He]; right; exact Hx.
Qed.

Lemma find_file_first fs path dirs n p th : search_path path dirs -> fits dirs n -> link_fits th ->
  first_in fs dirs n p th ->
  find_file fs path n 1024 true = match th with Nothing => NotFound | Is k => Found p k | Tcp t => FoundLink t end.
Proof.
  intros HP HF HL (Hn & Hth & before & d & after & -> & Hb & -> & He).
  unfold find_file. change zlen with size. destruct (size n >? NAME_MAX) eqn:E; [unfold NAME_MAX in E; lia|].
  rewrite (search_dirs_path _ _ HP).
  rewrite find_loop_skip; auto.
  2:{ intros x Hx. apply HF. apply in_or_app. left. exact Hx. }
  cbn [find_loop]. rewrite (find_in_entry fs d n th); auto.
  - destruct th; auto. contradiction.
  - apply HF. apply in_or_app. right. left. reflexivity.
Qed.
Lemma find_file_nowhere fs path dirs n : search_path path dirs -> fits dirs n -> nowhere fs dirs n ->
  find_file fs path n 1024 true = NotFound.
Proof.
  intros HP HF [Hn|Hn]; unfold find_file; change zlen with size.
  - destruct (size n >? NAME_MAX) eqn:E; auto. unfold NAME_MAX in E. lia.
  - destruct (size n >? NAME_MAX); auto. rewrite (search_dirs_path _ _ HP).
    rewrite <- (app_nil_r dirs). rewrite find_loop_skip; auto.
Qed.
Lemma find_file_result fs path dirs n sz r : search_path path dirs -> find_file fs path n sz true = r ->
  match r with
  | Found p k => first_in fs dirs n p (Is k)
  | FoundLink t => t <> "/dev/tcp/" /\ exists p, first_in fs dirs n p (Tcp t)
  | NotFound => nowhere fs dirs n
  | FindError => True
  end.
Proof.
  intros HP. unfold find_file. change zlen with size. unfold NAME_MAX.
  destruct (size n >? 255) eqn:E.
  - intros <-. left. lia.
  - rewrite (search_dirs_path _ _ HP). intros H. apply find_loop_found in H.
    destruct r as [p k|t| |]; auto.
    + split; [lia|]. split; [discriminate|exact H].
    + destruct H as (Ht & p & H). split; [exact Ht|]. exists p. split; [lia|]. split; [discriminate|exact H].
    + right. exact H.
Qed.

(** ** The address *)
Lemma smap_plus h : smap (fun c => if Ascii.eqb c "+" then ":"%char else c) h = plus_to_colon h.
Proof. induction h; simpl; congruence. Qed.

Lemma tcp_address_iff t a h p : points_to_tcp t -> t <> "/dev/tcp/" ->
  (tcp_address t a = Some (h, p) <-> tcp_to t a h p).
Proof.
  intros Ht Hne. unfold tcp_address. split.
  - destruct Ht as [->|[r ->]].
    + change (sdrop 8 "/dev/tcp") with "". cbn [starts].
      destruct a as [a|]; [|discriminate]. destruct (String.eqb_spec a "") as [|Ha]; [discriminate|].
      destruct (split_last "+" a) as [[h0 p0]|] eqn:E; [|discriminate].
      apply split_last_iff in E as [-> Hp]. destruct (has_char "_" h0) eqn:Eu; [discriminate|].
      intros H. injection H as <- <-. rewrite smap_plus.
      change (h0 +++ String "+" p0) with (h0 +++ "+" +++ p0). constructor; auto.
    + change (sdrop 8 ("/dev/tcp/" +++ r)) with ("/" +++ r). rewrite starts_app.
      change (sdrop 1 ("/" +++ r)) with r. destruct (split1 "/" r) as [[h0 p0]|] eqn:E.
      * apply split1_spec in E as [-> Hh].
        destruct a as [a|]; [destruct (String.eqb_spec a "") as [->|]; [|discriminate]|];
          intros H; injection H as <- <-; change (h0 +++ String "/" p0) with (h0 +++ "/" +++ p0);
          constructor; auto; [right|left]; reflexivity.
      * apply split1_None in E. destruct a as [a|]; [|discriminate].
        destruct (String.eqb_spec a "") as [|Ha]; [discriminate|]. intros H. injection H as <- <-.
        constructor; auto. intros ->. apply Hne. reflexivity.
  - intros H. destruct H as [h p a Hh Ha|h p Hh Hn Hp|h p Hp Hh].
    + change (sdrop 8 ("/dev/tcp/" +++ h +++ "/" +++ p)) with ("/" +++ (h +++ "/" +++ p)). rewrite starts_app.
      change (sdrop 1 ("/" +++ (h +++ "/" +++ p))) with (h +++ String "/" p). rewrite split1_at; auto.
      destruct Ha as [->| ->]; reflexivity.
    + change (sdrop 8 ("/dev/tcp/" +++ h)) with ("/" +++ h). rewrite starts_app.
      change (sdrop 1 ("/" +++ h)) with h. rewrite split1_lacks; auto.
      destruct (String.eqb_spec p ""); [contradiction|reflexivity].
    + change (sdrop 8 "/dev/tcp") with "". cbn [starts].
      destruct (String.eqb_spec (h +++ "+" +++ p) "") as [E|_]; [destruct h; discriminate|].
      replace (split_last "+" (h +++ "+" +++ p)) with (Some (h, p)).
      2:{ symmetry. apply split_last_iff. auto. }
      unfold lacks in Hh. rewrite Hh, smap_plus. reflexivity.
Qed.

(** ** The service *)
Lemma implementation_found fs path dirs c sz : search_path path dirs ->
  match (match find_file fs path (c_full c) sz true with
         | NotFound => find_file fs path (c_name c) sz true
         | r => r end) with
  | Found p k => implementation fs dirs c p (Is k)
  | FoundLink t => t <> "/dev/tcp/" /\ exists p, implementation fs dirs c p (Tcp t)
  | NotFound => nowhere fs dirs (c_full c) /\ nowhere fs dirs (c_name c)
  | FindError => True
  end.
Proof.
  intros HP. destruct (find_file fs path (c_full c) sz true) as [q k|t| |] eqn:E1;
    apply (find_file_result _ _ _ _ _ _ HP) in E1; auto.
  - apply im_exact. exact E1.
  - destruct E1 as (Ht & q & E1). split; [exact Ht|]. exists q. apply im_exact. exact E1.
  - destruct (find_file fs path (c_name c) sz true) as [q k|t| |] eqn:E2;
      apply (find_file_result _ _ _ _ _ _ HP) in E2; auto.
    + apply im_general; auto.
    + destruct E2 as (Ht & q & E2). split; [exact Ht|]. exists q. apply im_general; auto.
Qed.

Lemma entry_tcp fs p t : entry fs p (Tcp t) -> points_to_tcp t.
Proof. intros H. inversion H; subst; auto. Qed.
Lemma implementation_entry fs dirs c p th : implementation fs dirs c p th -> entry fs p th.
Proof. intros [(_ & _ & b & d & a & _ & _ & _ & H)|_ (_ & _ & b & d & a & _ & _ & _ & H)]; exact H. Qed.

Theorem service_sound fs path dirs sockets send c command s : search_path path dirs ->
  find_qrexec_service fs path sockets send (c_full c) (c_name c) (c_arg c) command = s ->
  match s with
  | ServiceAbsent => nowhere fs dirs (c_full c) /\ nowhere fs dirs (c_name c)
  | ServiceError => True
  | _ => exists p th, implementation fs dirs c p th /\ reached sockets send command p th (c_arg c) s
  end.
Proof.
  intros HP <-. unfold find_qrexec_service. cbv zeta.
  pose proof (implementation_found fs path dirs c QUBES_SOCKADDR_UN_MAX_PATH_LEN HP) as H.
  destruct (match find_file fs path (c_full c) QUBES_SOCKADDR_UN_MAX_PATH_LEN true with
         | NotFound => find_file fs path (c_name c) QUBES_SOCKADDR_UN_MAX_PATH_LEN true
         | r => r end) as [p [|x]|t| |]; auto.
  - destruct sockets; [|exact I]. exists p, (Is KSocket). split; [exact H|]. apply re_socket. reflexivity.
  - destruct x; [|exact I]. exists p, (Is (KFile true)). split; [exact H|]. constructor.
  - destruct sockets; [|exact I]. destruct H as (Ht & p & H).
    destruct (tcp_address t (c_arg c)) as [[h q]|] eqn:E; [|exact I].
    destruct (validate_port q) eqn:Eq; [|exact I]. apply validate_port_iff in Eq.
    apply tcp_address_iff in E; auto.
    2:{ eapply entry_tcp, implementation_entry, H. }
    exists p, (Tcp t). split; [exact H|]. apply re_tcp; auto.
Qed.

Theorem service_complete fs path dirs sockets send c command p th s : search_path path dirs ->
  fits dirs (c_full c) -> fits dirs (c_name c) -> link_fits th ->
  implementation fs dirs c p th -> reached sockets send command p th (c_arg c) s ->
  find_qrexec_service fs path sockets send (c_full c) (c_name c) (c_arg c) command = s.
Proof.
  intros HP F1 F2 HL HI HR. unfold find_qrexec_service. cbv zeta.
  assert (E : match find_file fs path (c_full c) QUBES_SOCKADDR_UN_MAX_PATH_LEN true with
         | NotFound => find_file fs path (c_name c) QUBES_SOCKADDR_UN_MAX_PATH_LEN true
         | r => r end = match th with Nothing => NotFound | Is k => Found p k | Tcp t => FoundLink t end).
  { change QUBES_SOCKADDR_UN_MAX_PATH_LEN with 1024. destruct HI as [H|H1 H2].
    - assert (Hth : th <> Nothing) by apply H.
      rewrite (find_file_first _ _ _ _ _ _ HP F1 HL H). destruct th; auto. contradiction.
    - rewrite (find_file_nowhere _ _ _ _ HP F1 H1). apply (find_file_first _ _ _ _ _ _ HP F2 HL H2). }
  rewrite E. clear E. pose proof (implementation_entry _ _ _ _ _ HI) as He.
  destruct HR as [a ->|a|t a h q -> Ht Hq]; auto.
  apply tcp_address_iff in Ht.
  - rewrite Ht. apply validate_port_iff in Hq. rewrite Hq. reflexivity.
  - eapply entry_tcp, He.
  - apply HL.
Qed.

Theorem service_absent fs path dirs sockets send c command : search_path path dirs ->
  fits dirs (c_full c) -> fits dirs (c_name c) ->
  nowhere fs dirs (c_full c) -> nowhere fs dirs (c_name c) ->
  find_qrexec_service fs path sockets send (c_full c) (c_name c) (c_arg c) command = ServiceAbsent.
Proof.
  intros HP F1 F2 H1 H2. unfold find_qrexec_service. cbv zeta.
  change QUBES_SOCKADDR_UN_MAX_PATH_LEN with 1024.
  rewrite (find_file_nowhere _ _ _ _ HP F1 H1), (find_file_nowhere _ _ _ _ HP F2 H2). reflexivity.
Qed.
