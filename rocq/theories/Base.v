(** Foundations: exceptions as values, Python string operations, Python dicts.

    Modelling conventions (see DESIGN.md): a Python [str] is a Coq [string]
    (8-bit characters; characters above 127 are opaque non-blank characters),
    a Python exception is a value of [exn]. *)
From Coq Require Import String Ascii List Bool Arith Lia.
Import ListNotations.
Open Scope string_scope.
Open Scope nat_scope.
Open Scope list_scope.

(** String concatenation (Python + on str); ++ is list concatenation. *)
Notation "a +++ b" := (String.append a b) (at level 60, right associativity).

(** ** Exceptions

    /repo/qrexec/exc.py 24-67: [AccessDenied(notify)] and its subclasses
    [PolicySyntaxError] and [RequestError] (both with notify=True), plus the
    Python built-in exceptions the modelled code can raise. [EFuel] is not a
    Python exception: it marks exhaustion of the recursion budget (the
    counterpart of Python's RecursionError on circular includes). *)
Inductive exn :=
| EAccessDenied (notify : bool)
| ESyntax
| ERequest
| EKey
| EAttr
| EAssert
| EType
| EValue
| ENotImpl
| EOs
| EFuel.

Inductive res (A : Type) :=
| Ok (a : A)
| Err (e : exn).
Arguments Ok {A}. Arguments Err {A}.

Definition bind {A B} (x : res A) (f : A -> res B) : res B :=
  match x with Ok a => f a | Err e => Err e end.
Notation "'do' x <- e ; f" := (bind e (fun x => f))
  (at level 200, x pattern, e at level 100, f at level 200).

Definition rmap {A B} (f : A -> B) (x : res A) : res B :=
  do a <- x; Ok (f a).

(** isinstance(e, AccessDenied): exc.py 24, 40, 60 *)
Definition is_access_denied (e : exn) : bool :=
  match e with EAccessDenied _ | ESyntax | ERequest => true | _ => false end.

(** err.notify: exc.py 33-35 (default True), 43-49, 60 *)
Definition exn_notify (e : exn) : bool :=
  match e with EAccessDenied n => n | _ => true end.

Fixpoint mapM {A B} (f : A -> res B) (l : list A) : res (list B) :=
  match l with
  | [] => Ok []
  | a :: l' => do b <- f a; do bs <- mapM f l'; Ok (b :: bs)
  end.

(** ** Strings *)

Definition ch (n : nat) : ascii := ascii_of_nat n.
Definition NL : ascii := ch 10.
Definition CR : ascii := ch 13.
Definition TAB : ascii := ch 9.
Definition NUL : ascii := ch 0.
Definition str1 (c : ascii) : string := String c EmptyString.
Definition nl : string := str1 NL.

(** str.startswith(p) *)
Fixpoint starts (p s : string) : bool :=
  match p, s with
  | EmptyString, _ => true
  | String a p', String b s' => Ascii.eqb a b && starts p' s'
  | String _ _, EmptyString => false
  end.

Arguments starts !p !s.
Global Arguments Ascii.eqb !a !b.
Global Arguments String.eqb !s1 !s2.

(** s[n:] *)
Fixpoint sdrop (n : nat) (s : string) : string :=
  match n, s with
  | 0, _ => s
  | S n', String _ s' => sdrop n' s'
  | S _, EmptyString => EmptyString
  end.

(** s[:n] *)
Fixpoint stake (n : nat) (s : string) : string :=
  match n, s with
  | 0, _ => EmptyString
  | S n', String c s' => String c (stake n' s')
  | S _, EmptyString => EmptyString
  end.

(** c in s *)
Fixpoint has_char (c : ascii) (s : string) : bool :=
  match s with
  | EmptyString => false
  | String d s' => Ascii.eqb c d || has_char c s'
  end.

(** all(p(c) for c in s) *)
Fixpoint sforall (p : ascii -> bool) (s : string) : bool :=
  match s with
  | EmptyString => true
  | String c s' => p c && sforall p s'
  end.

Fixpoint smap (f : ascii -> ascii) (s : string) : string :=
  match s with
  | EmptyString => EmptyString
  | String c s' => String (f c) (smap f s')
  end.

(** s.split(c, 1) when c in s: the part before the first c and the part after *)
Fixpoint split1 (c : ascii) (s : string) : option (string * string) :=
  match s with
  | EmptyString => None
  | String d s' =>
      if Ascii.eqb c d then Some (EmptyString, s')
      else match split1 c s' with
           | Some (a, b) => Some (String d a, b)
           | None => None
           end
  end.

(** s.split(c) *)
Fixpoint split_all (c : ascii) (s : string) : list string :=
  match s with
  | EmptyString => [EmptyString]
  | String d s' =>
      if Ascii.eqb c d then EmptyString :: split_all c s'
      else match split_all c s' with
           | [] => [str1 d]
           | h :: t => String d h :: t
           end
  end.

(** Python's ASCII whitespace (str.split(), str.strip()): 9-13, 28-31, 32 *)
Definition is_space (c : ascii) : bool :=
  let n := nat_of_ascii c in
  ((9 <=? n) && (n <=? 13)) || ((28 <=? n) && (n <=? 32)).

(** s.split() : maximal runs of non-blank characters *)
Fixpoint split_ws_aux (s : string) (cur : string) : list string :=
  match s with
  | EmptyString => match cur with EmptyString => [] | _ => [cur] end
  | String c s' =>
      if is_space c then
        match cur with
        | EmptyString => split_ws_aux s' EmptyString
        | _ => cur :: split_ws_aux s' EmptyString
        end
      else split_ws_aux s' (cur +++ str1 c)
  end.
Definition split_ws (s : string) : list string := split_ws_aux s EmptyString.

(** s.lstrip(), s.rstrip(), s.strip() *)
Fixpoint lstrip (s : string) : string :=
  match s with
  | EmptyString => EmptyString
  | String c s' => if is_space c then lstrip s' else s
  end.
Fixpoint rstrip (s : string) : string :=
  match s with
  | EmptyString => EmptyString
  | String c s' =>
      match rstrip s' with
      | EmptyString => if is_space c then EmptyString else str1 c
      | r => String c r
      end
  end.
Definition strip (s : string) : string := rstrip (lstrip s).

(** s.rstrip(c) for a single character c *)
Fixpoint rstrip_char (x : ascii) (s : string) : string :=
  match s with
  | EmptyString => EmptyString
  | String c s' =>
      match rstrip_char x s' with
      | EmptyString => if Ascii.eqb c x then EmptyString else str1 c
      | r => String c r
      end
  end.

(** s.replace(old, new) for non-empty old: leftmost, non-overlapping.
    [fuel] is the number of characters left to scan. *)
Fixpoint replace_aux (fuel : nat) (old new s : string) : string :=
  match fuel with
  | 0 => s
  | S f =>
      match s with
      | EmptyString => EmptyString
      | String c s' =>
          if starts old s then new +++ replace_aux f old new (sdrop (String.length old) s)
          else String c (replace_aux f old new s')
      end
  end.
Definition replace (old new s : string) : string :=
  replace_aux (S (String.length s)) old new s.

(** sep.join(l) *)
Fixpoint join (sep : string) (l : list string) : string :=
  match l with
  | [] => EmptyString
  | [x] => x
  | x :: l' => x +++ sep +++ join sep l'
  end.

(** Lines of io.StringIO(text): only LF ends a line (newline is LF by default,
    no translation). The terminator is dropped; every caller strips the line. *)
Fixpoint lines_lf_aux (s cur : string) : list string :=
  match s with
  | EmptyString => match cur with EmptyString => [] | _ => [cur] end
  | String c s' =>
      if Ascii.eqb c NL then cur :: lines_lf_aux s' EmptyString
      else lines_lf_aux s' (cur +++ str1 c)
  end.
Definition lines_lf (s : string) : list string := lines_lf_aux s EmptyString.

(** Universal newline translation of a text-mode open(): CRLF and CR become LF *)
Fixpoint univ_nl (s : string) : string :=
  match s with
  | EmptyString => EmptyString
  | String c s' =>
      if Ascii.eqb c CR then
        match s' with
        | String d _ =>
            if Ascii.eqb d NL then univ_nl s' else String NL (univ_nl s')
        | EmptyString => nl
        end
      else String c (univ_nl s')
  end.
Definition lines_univ (s : string) : list string := lines_lf (univ_nl s).

(** Byte-wise string order (Python compares code points) *)
Fixpoint str_leb (a b : string) : bool :=
  match a, b with
  | EmptyString, _ => true
  | String _ _, EmptyString => false
  | String x a', String y b' =>
      let m := nat_of_ascii x in let n := nat_of_ascii y in
      (m <? n) || ((m =? n) && str_leb a' b')
  end.

Fixpoint insert_by {A} (leb : A -> A -> bool) (x : A) (l : list A) : list A :=
  match l with
  | [] => [x]
  | y :: l' => if leb x y then x :: l else y :: insert_by leb x l'
  end.
(** sorted(l, key=...) ; stable: an element goes before later equal ones *)
Fixpoint sort_by {A} (leb : A -> A -> bool) (l : list A) : list A :=
  match l with
  | [] => []
  | x :: l' => insert_by leb x (sort_by leb l')
  end.

(** ** Dictionaries: association lists, first binding wins, insertion order *)
Fixpoint dget {V} (d : list (string * V)) (k : string) : option V :=
  match d with
  | [] => None
  | (k', v) :: d' => if String.eqb k k' then Some v else dget d' k
  end.
Definition dmem {V} (d : list (string * V)) (k : string) : bool :=
  match dget d k with Some _ => true | None => false end.
(** d[k] *)
Definition dgetE {V} (d : list (string * V)) (k : string) : res V :=
  match dget d k with Some v => Ok v | None => Err EKey end.
(** d[k] = v *)
Fixpoint dset {V} (d : list (string * V)) (k : string) (v : V) : list (string * V) :=
  match d with
  | [] => [(k, v)]
  | (k', v') :: d' => if String.eqb k k' then (k, v) :: d' else (k', v') :: dset d' k v
  end.
(** del d[k] *)
Fixpoint ddel {V} (d : list (string * V)) (k : string) : list (string * V) :=
  match d with
  | [] => []
  | (k', v') :: d' => if String.eqb k k' then ddel d' k else (k', v') :: ddel d' k
  end.

Definition smem (x : string) (l : list string) : bool := existsb (String.eqb x) l.
Arguments smem : simpl never.

(** ** Basic lemmas *)

Lemma eqb_refl_s s : String.eqb s s = true. Proof. apply String.eqb_refl. Qed.

Lemma smem_In x l : smem x l = true <-> In x l.
Proof.
  unfold smem. rewrite existsb_exists. split.
  - intros [y [Hin He]]. apply String.eqb_eq in He. subst. auto.
  - intros H. exists x. split; auto. apply String.eqb_refl.
Qed.
Lemma smem_false x l : smem x l = false <-> ~ In x l.
Proof.
  rewrite <- smem_In. destruct (smem x l); split; congruence.
Qed.

Lemma app_assoc_s (a b c : string) : ((a +++ b) +++ c = a +++ (b +++ c)).
Proof. induction a; simpl; congruence. Qed.
Lemma app_nil_s (a : string) : (a +++ "" = a).
Proof. induction a; simpl; congruence. Qed.
Lemma app_inj_l_s (p a b : string) : (p +++ a = p +++ b) -> a = b.
Proof. induction p; simpl; intros H; auto. inversion H; auto. Qed.

Lemma starts_spec p s : starts p s = true <-> exists r, s = (p +++ r).
Proof.
  revert s. induction p as [|a p IH]; intros s; simpl.
  - split; eauto.
  - destruct s as [|b s].
    + split; [discriminate|]. intros [r H]. discriminate.
    + simpl. rewrite andb_true_iff, IH. split.
      * intros [Ha [r Hr]]. apply Ascii.eqb_eq in Ha. subst. eauto.
      * intros [r H]. inversion H; subst. split; [apply Ascii.eqb_refl|eauto].
Qed.

Lemma starts_app p r : starts p (p +++ r) = true.
Proof. apply starts_spec. eauto. Qed.

Lemma sdrop_app p r : sdrop (String.length p) (p +++ r) = r.
Proof. induction p; simpl; auto. Qed.

Lemma sdrop_starts p s : starts p s = true -> s = (p +++ sdrop (String.length p) s).
Proof. intros H. apply starts_spec in H as [r ->]. rewrite sdrop_app. reflexivity. Qed.

Lemma length_app_s a b : String.length (a +++ b) = String.length a + String.length b.
Proof. induction a; simpl; auto. Qed.

Lemma dget_In {V} (d : list (string * V)) k v : dget d k = Some v -> In (k, v) d.
Proof.
  induction d as [|[k' v'] d IH]; simpl; [discriminate|].
  destruct (String.eqb_spec k k'); intros H; [inversion H; subst; auto|auto].
Qed.
Lemma dget_None {V} (d : list (string * V)) k :
  dget d k = None <-> ~ In k (map fst d).
Proof.
  induction d as [|[k' v'] d IH]; simpl; [tauto|].
  destruct (String.eqb_spec k k').
  - split; [discriminate|]. intros H. exfalso. apply H. auto.
  - rewrite IH. split; intros H; [intros [H1|H1]; [congruence|tauto]|tauto].
Qed.
Lemma In_dget {V} (d : list (string * V)) k v :
  NoDup (map fst d) -> In (k, v) d -> dget d k = Some v.
Proof.
  induction d as [|[k' v'] d IH]; simpl; [tauto|].
  intros Hnd [H|H]; inversion Hnd as [|? ? Hn Hnd']; subst.
  - inversion H; subst. rewrite String.eqb_refl. reflexivity.
  - destruct (String.eqb_spec k k').
    + subst. exfalso. apply Hn. apply in_map_iff. exists (k', v). auto.
    + auto.
Qed.
Lemma dmem_true {V} (d : list (string * V)) k : dmem d k = true <-> exists v, dget d k = Some v.
Proof. unfold dmem. destruct (dget d k); split; eauto; try discriminate. intros [v H]; discriminate. Qed.

Lemma dget_dset_same {V} (d : list (string * V)) k v : dget (dset d k v) k = Some v.
Proof.
  induction d as [|[k' v'] d IH]; simpl; [rewrite String.eqb_refl; auto|].
  destruct (String.eqb_spec k k'); simpl.
  - rewrite String.eqb_refl. auto.
  - destruct (String.eqb_spec k k'); [contradiction|auto].
Qed.
Lemma dget_dset_other {V} (d : list (string * V)) k v k2 :
  k2 <> k -> dget (dset d k v) k2 = dget d k2.
Proof.
  intros Hn. induction d as [|[k' v'] d IH]; simpl.
  - destruct (String.eqb_spec k2 k); [contradiction|auto].
  - destruct (String.eqb_spec k k'); simpl.
    + subst. destruct (String.eqb_spec k2 k'); [contradiction|auto].
    + destruct (String.eqb_spec k2 k'); auto.
Qed.
Lemma dget_ddel_same {V} (d : list (string * V)) k : dget (ddel d k) k = None.
Proof.
  induction d as [|[k' v'] d IH]; simpl; auto.
  destruct (String.eqb_spec k k'); auto. simpl.
  destruct (String.eqb_spec k k'); [contradiction|auto].
Qed.
Lemma dget_ddel_other {V} (d : list (string * V)) k k2 :
  k2 <> k -> dget (ddel d k) k2 = dget d k2.
Proof.
  intros Hn. induction d as [|[k' v'] d IH]; simpl; auto.
  destruct (String.eqb_spec k k').
  - subst. destruct (String.eqb_spec k2 k'); [contradiction|auto].
  - simpl. destruct (String.eqb_spec k2 k'); auto.
Qed.

Lemma sforall_app p a b : sforall p (a +++ b) = sforall p a && sforall p b.
Proof. induction a; simpl; auto. rewrite IHa. apply andb_assoc. Qed.

Lemma has_char_app c a b : has_char c (a +++ b) = has_char c a || has_char c b.
Proof. induction a; simpl; auto. rewrite IHa. apply orb_assoc. Qed.

Lemma bind_ok {A B} (x : res A) (f : A -> res B) b :
  bind x f = Ok b <-> exists a, x = Ok a /\ f a = Ok b.
Proof.
  destruct x; simpl; split; intros H.
  - eauto.
  - destruct H as [a' [H1 H2]]. inversion H1; subst; auto.
  - discriminate.
  - destruct H as [a' [H1 H2]]. discriminate.
Qed.

Lemma split1_spec c s a b :
  split1 c s = Some (a, b) <-> s = (a +++ String c b) /\ has_char c a = false.
Proof.
  revert a b. induction s as [|d s IH]; intros a b; simpl.
  - split; [discriminate|]. intros [H _]. destruct a; discriminate.
  - destruct (Ascii.eqb_spec c d).
    + subst. split.
      * intros H. inversion H; subst. auto.
      * intros [H1 H2]. destruct a as [|e a]; simpl in *.
        -- inversion H1; subst; auto.
        -- inversion H1; subst. rewrite Ascii.eqb_refl in H2. discriminate.
    + destruct (split1 c s) as [[x y]|] eqn:E.
      * split.
        -- intros H. inversion H; subst. destruct (proj1 (IH x b) eq_refl) as [-> Hc].
           simpl. split; auto. apply Ascii.eqb_neq in n. rewrite n. auto.
        -- intros [H1 H2]. destruct a as [|e a]; simpl in *.
           +++ inversion H1; subst; contradiction.
           +++ inversion H1; subst. apply orb_false_iff in H2 as [_ H2].
              destruct (IH a b) as [_ IH2]. specialize (IH2 (conj eq_refl H2)).
              inversion IH2; subst; auto.
      * split; [discriminate|]. intros [H1 H2]. destruct a as [|e a]; simpl in *.
        -- inversion H1; subst; contradiction.
        -- inversion H1; subst. apply orb_false_iff in H2 as [_ H2].
           destruct (IH a b) as [_ IH2]. specialize (IH2 (conj eq_refl H2)). discriminate.
Qed.

Lemma split1_None c s : split1 c s = None <-> has_char c s = false.
Proof.
  induction s as [|d s IH]; simpl; [tauto|].
  destruct (Ascii.eqb_spec c d); simpl; [split; discriminate|].
  destruct (split1 c s) as [[x y]|] eqn:E.
  - split; [discriminate|]. intros H. apply IH in H. discriminate.
  - split; auto. intros _. apply IH. reflexivity.
Qed.
