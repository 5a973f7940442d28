(** Lock discipline: objects whose calls run under one outer RWMutex are
    linearizable, race free and never deadlock. *)
From Verif.Model Require Import Lock.
From Verif.Spec Require Import LinSpec.

(** ** programs run by one goroutine *)
Fixpoint seqrun {S R} (p : prog S R) (s : S) : R * S :=
  match p with
  | Ret r => (r, s)
  | Act u k => seqrun (k s) (u s)
  | RLock _ k | RUnlock _ k | Lock _ k | LockWait _ k | Unlock _ k => seqrun k s
  end.
Lemma seqrun_bind {S A B} (p : prog S A) (f : A -> prog S B) s :
  seqrun (pbind p f) s = seqrun (f (seqrun p s).1) (seqrun p s).2.
Proof. revert s; induction p; intros s; cbn; auto. Qed.
Lemma seqrun_map {S A B} (p : prog S A) (f : A -> B) s :
  seqrun (pmap f p) s = (f (seqrun p s).1, (seqrun p s).2).
Proof. unfold pmap. now rewrite seqrun_bind. Qed.

(** ** what a goroutine holds of the inner mutex (number 1) *)
Inductive hold := HR (n : nat) | HA | HW.
(** the mutex when nobody else uses it *)
Definition hold_mutex (h : hold) : mstate :=
  match h with HR n => MState n false false | HA => MState 0 true false | HW => MState 0 true true end.

(** [disc ro nest Q h p]: run from hold h, the program [p] uses mutex 1 only, in a
    balanced way, and ends with hold h' and result r such that Q h' r.
    ro: no change of shared data and no write lock.  nest: may take a read lock
    while holding one. *)
Inductive disc {S R} (ro nest : bool) (Q : hold -> R -> Prop) : hold -> prog S R -> Prop :=
| d_ret h r : Q h r -> h <> HA -> disc ro nest Q h (Ret r)
| d_act h u k : h <> HA -> (ro = true -> forall s, u s = s) ->
    (forall s, disc ro nest Q h (k s)) -> disc ro nest Q h (Act u k)
| d_rlock n k : (nest = true \/ n = 0) -> disc ro nest Q (HR (1 + n)) k -> disc ro nest Q (HR n) (RLock 1 k)
| d_runlock n k : disc ro nest Q (HR n) k -> disc ro nest Q (HR (1 + n)) (RUnlock 1 k)
| d_lock k : ro = false -> disc ro nest Q HA (LockWait 1 k) -> disc ro nest Q (HR 0) (Lock 1 k)
| d_wait k : ro = false -> disc ro nest Q HW k -> disc ro nest Q HA (LockWait 1 k)
| d_unlock k : ro = false -> disc ro nest Q (HR 0) k -> disc ro nest Q HW (Unlock 1 k).

Lemma disc_bind {S A B} ro nest (Q : hold -> A -> Prop) (Q' : hold -> B -> Prop) h
    (p : prog S A) (f : A -> prog S B) :
  disc ro nest Q h p -> (forall h' a, h' <> HA -> Q h' a -> disc ro nest Q' h' (f a)) ->
  disc ro nest Q' h (pbind p f).
Proof. intros D F. induction D; cbn [pbind]; [now apply F | constructor; auto ..]. Qed.
Lemma disc_mono {S A} ro nest (Q Q' : hold -> A -> Prop) h (p : prog S A) :
  disc ro nest Q h p -> (forall h' a, Q h' a -> Q' h' a) -> disc ro nest Q' h p.
Proof. intros D F. induction D; constructor; auto. Qed.
Lemma disc_map {S A B} ro nest (Q : hold -> A -> Prop) (Q' : hold -> B -> Prop) h
    (p : prog S A) (f : A -> B) :
  disc ro nest Q h p -> (forall h' a, h' <> HA -> Q h' a -> Q' h' (f a)) ->
  disc ro nest Q' h (pmap f p).
Proof.
  intros D F. unfold pmap. eapply disc_bind; eauto. intros h' a N q. constructor; auto.
Qed.
Lemma disc_ro_state {S A} nest (Q : hold -> A -> Prop) h (p : prog S A) s :
  disc true nest Q h p -> (seqrun p s).2 = s.
Proof.
  intros D. remember true as ro. revert s. induction D; intros s; cbn [seqrun]; try congruence; auto.
  rewrite H0 by auto. auto.
Qed.

(** ** lists of threads *)
Lemma thread_step_prog {S R Op} (impl : Op -> prog S R) s mu t op p :
  t_cur t = Some (op, p) -> (forall r, p <> Ret r) ->
  thread_step impl s mu t =
  match prog_step s mu p with
  | None => None
  | Some (s', mu', p') => Some (s', mu', Thread (Some (op, p')) (t_todo t) (t_done t))
  end.
Proof. intros E N. unfold thread_step. rewrite E. destruct p; auto. now destruct (N r). Qed.

(** sums over threads *)
  Fixpoint total {X} (f : X -> nat) (l : list X) : nat :=
    match l with [] => 0 | x :: l' => f x + total f l' end.

  Lemma total_insert {X} f l i (ph ph' : X) :
    l !! i = Some ph -> total f (<[i := ph']> l) + f ph = total f l + f ph'.
  Proof.
    revert i. induction l as [|x l IH]; intros [|i] E; cbn in *; try discriminate.
    - injection E as ->. lia.
    - specialize (IH _ E). unfold insert in *. lia.
  Qed.
  Lemma total_ge {X} f l i (ph : X) : l !! i = Some ph -> f ph <= total f l.
  Proof.
    revert i. induction l as [|x l IH]; intros [|i] E; cbn in *; try discriminate.
    - injection E as ->. lia.
    - specialize (IH _ E). lia.
  Qed.
  Lemma total_ge2 {X} f l i j (ph ph' : X) :
    i <> j -> l !! i = Some ph -> l !! j = Some ph' -> f ph + f ph' <= total f l.
  Proof.
    revert i j. induction l as [|x l IH]; intros [|i] [|j] N E E'; cbn in *; try discriminate; try lia.
    - injection E as ->. pose proof (total_ge f _ _ _ E'). lia.
    - injection E' as ->. pose proof (total_ge f _ _ _ E). lia.
    - assert (i <> j) by lia. specialize (IH _ _ H E E'). lia.
  Qed.
  Lemma total_pos {X} (f : X -> nat) l : 0 < total f l -> exists i ph, l !! i = Some ph /\ 0 < f ph.
  Proof.
    induction l as [|x l IH]; cbn; [lia|]. intros P.
    destruct (f x) eqn:E.
    - destruct IH as (i & ph & H & H'); [lia|]. exists (1 + i), ph; auto.
    - exists 0, x; split; [auto | lia].
  Qed.

Lemma ltb_true n : 0 < n -> Nat.ltb 0 n = true.
Proof. apply Nat.ltb_lt. Qed.
Lemma ltb_false n : n = 0 -> Nat.ltb 0 n = false.
Proof. intros ->. auto. Qed.
Lemma mu_set_same (mu : mutexes) m x : mu_set mu m x m = x.
Proof. unfold mu_set. now rewrite Nat.eqb_refl. Qed.
Lemma mu_set_other (mu : mutexes) m x j : j <> m -> mu_set mu m x j = mu j.
Proof. unfold mu_set. intros N. destruct (Nat.eqb_spec j m); congruence. Qed.

Section gen.
  Context {S R Op : Type} (impl : Op -> prog S R) (fatal : R -> Prop).
  Lemma returned_step c c' i : conf_step impl c i = Some c' -> returned fatal c -> returned fatal c'.
  Proof.
    unfold conf_step. destruct (c_ths c !! i) as [t|] eqn:Et; [|discriminate].
    destruct (thread_step impl (c_sh c) (c_mu c) t) as [[[s' mu'] t']|] eqn:Es; [|discriminate].
    intros [= <-] (t1 & Hin & H). unfold returned; cbn.
    apply elem_of_list_lookup in Hin as [j Ej]. destruct (decide (i = j)) as [->|N].
    - rewrite Et in Ej. injection Ej as <-. exists t'. split.
      { apply elem_of_list_lookup. exists j. apply list_lookup_insert. eapply lookup_lt_Some; eauto. }
      unfold thread_step in Es. destruct H as [(op & r & Hd & F)|(op & r & Hc & F)].
      + left. exists op, r. split; auto. destruct (t_cur t) as [[op1 p]|].
        * destruct p; [injection Es as <- <- <-; cbn; set_solver|..];
            destruct (prog_step _ _ _) as [[[? ?] ?]|]; try discriminate;
            injection Es as <- <- <-; auto.
        * destruct (t_todo t); [discriminate|]. injection Es as <- <- <-; auto.
      + left. rewrite Hc in Es. injection Es as <- <- <-. exists op, r. split; auto. cbn. set_solver.
    - exists t1. split; auto. apply elem_of_list_lookup. exists j.
      now rewrite list_lookup_insert_ne.
  Qed.

  Lemma enabled_prog c i t op p x :
    c_ths c !! i = Some t -> t_cur t = Some (op, p) -> (forall r, p <> Ret r) ->
    prog_step (c_sh c) (c_mu c) p = Some x -> enabled impl c i.
  Proof.
    intros Et Ec N E. unfold enabled, conf_step. rewrite Et, (thread_step_prog _ _ _ _ _ _ Ec N), E.
    destruct x as [[? ?] ?]. eauto.
  Qed.
  Lemma unfinished_thread (c : conf S R Op) :
    ~ finished c -> exists i t, c_ths c !! i = Some t /\ ~ thread_finished t.
  Proof.
    intros NE. unfold finished in NE. induction (c_ths c) as [|t l IH]; [destruct NE; constructor|].
    destruct (t_cur t) as [p|] eqn:Ec.
    { exists 0, t. split; auto. intros [? _]. congruence. }
    destruct (t_todo t) as [|op ops] eqn:Eo.
    2:{ exists 0, t. split; auto. intros [_ ?]. congruence. }
    destruct IH as (i & t1 & E & N1).
    { intros F. apply NE. constructor; auto. split; auto. }
    exists (1 + i), t1. auto.
  Qed.
End gen.

Section obj.
  Context {S R Op : Type} (impl : Op -> prog S R) (call : Op -> S -> R * S) (fatal : R -> Prop).
  Notation event := (nat * Op * R)%type.
  Definition wpost (h : hold) (r : R) : Prop := h = HR 0 \/ fatal r.
  Definition rpost (h : hold) (r : R) : Prop := h = HR 0.
  (** a call is one critical section of mutex 0 *)
  Definition wsection (op : Op) (p : prog S R) : Prop :=
    exists body, p = locked 0 body /\ disc false true wpost (HR 0) body /\ forall s, seqrun body s = call op s.
  Definition rsection (op : Op) (p : prog S R) : Prop :=
    exists body, p = rlocked 0 body /\ disc true true rpost (HR 0) body /\ forall s, seqrun body s = call op s.
  Context (sections : forall op, wsection op (impl op) \/ rsection op (impl op)).

  Definition wend (r : R) : prog S R := Unlock 0 (Ret r).
  Definition rend (r : R) : prog S R := RUnlock 0 (Ret r).

  Inductive phase := Idle | Ann | Wr (h : hold) | Rd (n : nat) | Fin.
  Definition ph_ok (t : thread S R Op) (ph : phase) : Prop :=
    match ph with
    | Idle => t_cur t = None \/ exists op, t_cur t = Some (op, impl op)
    | Ann => exists op body, t_cur t = Some (op, LockWait 0 (pbind body wend)) /\
               disc false true wpost (HR 0) body /\ forall s, seqrun body s = call op s
    | Wr h => exists op body, t_cur t = Some (op, pbind body wend) /\ disc false true wpost h body
    | Rd n => exists op body, t_cur t = Some (op, pbind body rend) /\ disc true true rpost (HR n) body
    | Fin => exists op r, t_cur t = Some (op, Ret r)
    end.
  Definition cur_res (s : S) (t : thread S R Op) : list (Op * R) :=
    match t_cur t with Some (op, p) => [(op, (seqrun p s).1)] | None => [] end.
  Definition pend (s : S) (t : thread S R Op) (ph : phase) : list (Op * R) :=
    match ph with Idle | Ann => [] | _ => cur_res s t end.
  Definition is_wr (ph : phase) : nat := match ph with Wr _ => 1 | _ => 0 end.
  Definition is_ann (ph : phase) : nat := match ph with Ann => 1 | _ => 0 end.
  Definition is_rd (ph : phase) : nat := match ph with Rd _ => 1 | _ => 0 end.
  Definition inner (ph : phase) : nat := match ph with Rd n => n | _ => 0 end.
  Record mu_ok (mu : mutexes) (phs : list phase) : Prop := {
    mo_rd : m_rd (mu 0) = total is_rd phs;
    mo_wr : m_wr (mu 0) = Nat.ltb 0 (total is_wr phs);
    mo_ann : m_ann (mu 0) = Nat.ltb 0 (total is_wr phs + total is_ann phs);
    mo_one : total is_wr phs + total is_ann phs <= 1;
    mo_excl : 0 < total is_wr phs -> total is_rd phs = 0;
  }.
  (** the inner mutex, as long as no fatal result has been returned *)
  Definition inner_ok (mu : mutexes) (phs : list phase) : Prop :=
    (total is_wr phs = 0 -> mu 1 = MState (total inner phs) false false) /\
    (forall i h, phs !! i = Some (Wr h) -> mu 1 = hold_mutex h).
  Record inv (s0 : S) (log : list event) (c : conf S R Op) (phs : list phase) : Prop := {
    i_len : length phs = length (c_ths c);
    i_ths : forall i t ph, c_ths c !! i = Some t -> phs !! i = Some ph ->
              ph_ok t ph /\ calls_of i log = t_done t ++ pend (c_sh c) t ph;
    i_out : forall i, length (c_ths c) <= i -> calls_of i log = [];
    i_mu : mu_ok (c_mu c) phs;
    i_legal : exists s', legal call s0 log s' /\
              (total is_wr phs = 0 -> c_sh c = s') /\
              (forall i t op p h, c_ths c !! i = Some t -> phs !! i = Some (Wr h) ->
                 t_cur t = Some (op, p) -> (seqrun p (c_sh c)).2 = s');
    i_inner : returned fatal c \/ inner_ok (c_mu c) phs;
  }.

  (** log entry of a step: the call enters its critical section *)
  Definition emit (c : conf S R Op) (i : nat) : list event :=
    match c_ths c !! i with
    | Some t =>
        match t_cur t with
        | Some (op, LockWait 0 _) | Some (op, RLock 0 _) => [(i, op, (call op (c_sh c)).1)]
        | _ => []
        end
    | None => []
    end.

  Lemma calls_of_app i (l1 l2 : list event) : calls_of i (l1 ++ l2) = calls_of i l1 ++ calls_of i l2.
  Proof.
    induction l1 as [|[[j op] r] l1 IH]; cbn; auto. destruct (Nat.eqb j i); cbn; congruence.
  Qed.
  Lemma legal_snoc s l s1 i op :
    legal call s l s1 -> legal call s (l ++ [(i, op, (call op s1).1)]) (call op s1).2.
  Proof.
    induction 1 as [s|s j op' r s1 l s2 E L IH]; cbn [app].
    - econstructor; [apply surjective_pairing | constructor].
    - econstructor; eauto.
  Qed.
  Lemma bind_is_ret (body : prog S R) (f : R -> prog S R) r : (forall a, exists m k, f a = Unlock m k \/ f a = RUnlock m k) ->
    pbind body f <> Ret r.
  Proof. intros F. destruct body; cbn; try discriminate. destruct (F r0) as (m & k & [-> | ->]); discriminate. Qed.
  Lemma wbind_not_ret body r : pbind body wend <> Ret r.
  Proof. apply bind_is_ret. intros a. unfold wend. eauto. Qed.
  Lemma rbind_not_ret body r : pbind body rend <> Ret r.
  Proof. apply bind_is_ret. intros a. unfold rend. eauto. Qed.

  (** one step of the body of a critical section *)
  Lemma body_step {A B} ro nest (Q : hold -> A -> Prop) h (body : prog S A) (f : A -> prog S B)
      s s' mu mu' (p' : prog S B) :
    disc ro nest Q h body -> (forall r, body <> Ret r) ->
    prog_step s mu (pbind body f) = Some (s', mu', p') ->
    exists body' h', p' = pbind body' f /\ disc ro nest Q h' body' /\
      seqrun body' s' = seqrun body s /\ mu' 0 = mu 0 /\
      (mu 1 = hold_mutex h -> mu' 1 = hold_mutex h') /\
      (ro = true -> s' = s /\ forall n k, h = HR n -> mu 1 = MState (n + k) false false ->
                    exists n', h' = HR n' /\ mu' 1 = MState (n' + k) false false) /\
      (ro = true -> forall n, h = HR n -> exists n', h' = HR n').
  Proof.
    intros D N E. destruct D; cbn [pbind prog_step] in E.
    - now destruct (N r).
    - injection E as <- <- <-. exists (k s), h. split_and!; auto.
      + intros Hr. split; [now rewrite H0|]. intros n k0 -> E1. eauto.
      + intros Hr n ->. eauto.
    - destruct (m_ann (mu 1)) eqn:EA; [discriminate|]. injection E as <- <- <-.
      exists k, (HR (1 + n)). split_and!; auto.
      + rewrite mu_set_same. intros E1. rewrite E1 in *. reflexivity.
      + intros _. split; auto. intros n0 k0 [= <-] E1. exists (1 + n). split; auto.
        rewrite mu_set_same, E1. reflexivity.
      + intros _ n0 _. eauto.
    - destruct (m_rd (mu 1)) eqn:EA; [discriminate|]. injection E as <- <- <-.
      exists k, (HR n). split_and!; auto.
      + rewrite mu_set_same. intros E1. rewrite E1 in *. cbn in *. now injection EA as <-.
      + intros _. split; auto. intros n1 k0 [= <-] E1. exists n. split; auto.
        rewrite mu_set_same, E1. rewrite E1 in EA. cbn in *. now injection EA as <-.
      + intros _ n1 _. eauto.
    - destruct (m_ann (mu 1)) eqn:EA; [discriminate|]. injection E as <- <- <-.
      exists (LockWait 1 k), HA. split_and!; auto.
      + rewrite mu_set_same. intros E1. rewrite E1 in *. reflexivity.
      + congruence.
      + congruence.
    - destruct (m_rd (mu 1)) eqn:EA; [|discriminate]. injection E as <- <- <-.
      exists k, HW. split_and!; auto; try congruence.
      rewrite mu_set_same. intros E1. rewrite E1 in *. reflexivity.
    - destruct (m_wr (mu 1)) eqn:EA; [|discriminate]. injection E as <- <- <-.
      exists k, (HR 0). split_and!; auto; try congruence.
      rewrite mu_set_same. intros E1. rewrite E1 in *. reflexivity.
  Qed.
  Lemma body_enabled {A B} ro nest (Q : hold -> A -> Prop) h (body : prog S A) (f : A -> prog S B) s mu k :
    disc ro nest Q h body -> (forall r, body <> Ret r) ->
    (mu 1 = hold_mutex h \/ ro = true /\ exists n, h = HR n /\ mu 1 = MState (n + k) false false) ->
    exists x, prog_step s mu (pbind body f) = Some x.
  Proof.
    intros D N E. destruct D; cbn [pbind prog_step].
    - now destruct (N r).
    - eauto.
    - destruct E as [-> | (_ & n1 & [= <-] & ->)]; cbn; eauto.
    - destruct E as [-> | (_ & n1 & [= <-] & ->)]; cbn; eauto.
    - destruct E as [-> | (? & ?)]; [cbn; eauto | congruence].
    - destruct E as [-> | (? & ?)]; [cbn; eauto | congruence].
    - destruct E as [-> | (? & ?)]; [cbn; eauto | congruence].
  Qed.

  Lemma pend_other s s' t ph :
    ph_ok t ph -> s' = s \/ (is_wr ph = 0 /\ is_rd ph = 0) -> pend s' t ph = pend s t ph.
  Proof.
    intros O [-> | [W Rr]]; auto. destruct ph; cbn in *; try discriminate; auto.
    destruct O as (op & r & E). unfold cur_res. now rewrite E.
  Qed.
  Lemma total_is_rd_inner phs : total is_rd phs = 0 -> total inner phs = 0.
  Proof.
    induction phs as [|ph phs IH]; cbn; auto. intros E. rewrite IH by lia.
    destruct ph; cbn in *; lia.
  Qed.

  Lemma inv_upd s0 log c phs i t t' ph ph' s' mu' ev :
    inv s0 log c phs -> c_ths c !! i = Some t -> phs !! i = Some ph ->
    ph_ok t' ph' ->
    (ev = [] \/ exists op r, ev = [(i, op, r)]) ->
    t_done t ++ pend (c_sh c) t ph ++ calls_of i ev = t_done t' ++ pend s' t' ph' ->
    (s' = c_sh c \/ is_wr ph = 1) ->
    mu_ok mu' (<[i := ph']> phs) ->
    (exists s1, legal call s0 (log ++ ev) s1 /\
       (total is_wr (<[i := ph']> phs) = 0 -> s' = s1) /\
       (forall h op p, ph' = Wr h -> t_cur t' = Some (op, p) -> (seqrun p s').2 = s1) /\
       (is_wr ph' = 1 \/ total is_wr (<[i := ph']> phs) = 0 \/ s' = c_sh c /\ ev = [] /\ legal call s0 log s1 /\ is_wr ph = is_wr ph')) ->
    (returned fatal (Conf s' mu' (<[i := t']> (c_ths c))) \/ inner_ok mu' (<[i := ph']> phs)) ->
    inv s0 (log ++ ev) (Conf s' mu' (<[i := t']> (c_ths c))) (<[i := ph']> phs).
  Proof.
    intros I Et Ep O' Hev Hcalls Hs Hmu Hleg Hin.
    pose proof (lookup_lt_Some _ _ _ Et) as Lt.
    assert (Lp : i < length phs) by (rewrite (i_len _ _ _ _ I); auto).
    constructor; cbn.
    - now rewrite !insert_length, (i_len _ _ _ _ I).
    - intros j t1 ph1 E1 E2. destruct (decide (i = j)) as [<-|N].
      + rewrite list_lookup_insert in E1 by auto. rewrite list_lookup_insert in E2 by auto.
        injection E1 as <-. injection E2 as <-. split; auto.
        rewrite calls_of_app. destruct (i_ths _ _ _ _ I _ _ _ Et Ep) as [_ ->].
        rewrite <- app_assoc. exact Hcalls.
      + rewrite list_lookup_insert_ne in E1 by auto. rewrite list_lookup_insert_ne in E2 by auto.
        destruct (i_ths _ _ _ _ I _ _ _ E1 E2) as [O1 C1]. split; auto.
        rewrite calls_of_app, C1.
        assert (calls_of j ev = []) as ->.
        { destruct Hev as [-> |(op & r & ->)]; cbn; auto. destruct (Nat.eqb_spec i j); congruence. }
        rewrite app_nil_r. f_equal. symmetry. apply pend_other; auto.
        destruct Hs as [-> | W]; auto. right.
        pose proof (i_mu _ _ _ _ I) as M.
        pose proof (total_ge2 is_wr _ _ _ _ _ N Ep E2).
        pose proof (total_ge is_rd _ _ _ E2). pose proof (mo_one _ _ M). pose proof (mo_excl _ _ M). lia.
    - intros j Lj. rewrite insert_length in Lj. rewrite calls_of_app, (i_out _ _ _ _ I) by auto.
      destruct Hev as [-> |(op & r & ->)]; cbn; auto. destruct (Nat.eqb_spec i j); auto. lia.
    - exact Hmu.
    - destruct Hleg as (s1 & L & Z & W & X). exists s1. split_and!; auto.
      intros j t1 op p h E1 E2 E3. destruct (decide (i = j)) as [<-|N].
      + rewrite list_lookup_insert in E1 by auto. rewrite list_lookup_insert in E2 by auto.
        injection E1 as <-. injection E2 as ->. eauto.
      + rewrite list_lookup_insert_ne in E1 by auto.
        pose proof (list_lookup_insert _ _ ph' Lp) as E2'.
        pose proof (total_ge2 is_wr _ _ _ _ _ N E2' E2). pose proof (mo_one _ _ Hmu). cbn in *.
        destruct X as [X|[X|(-> & -> & X & EW)]]; [lia|lia|].
        rewrite list_lookup_insert_ne in E2 by auto.
        destruct (i_legal _ _ _ _ I) as (s2 & L2 & _ & W2). rewrite (W2 _ _ _ _ _ E1 E2 E3).
        clear -L2 X. revert s1 X. induction L2; intros s3 X; inversion X; subst; auto.
        match goal with A : call _ _ = (_, ?a), B : call _ _ = (_, ?b) |- _ => rewrite A in B; injection B as <- end.
        auto.
    - exact Hin.
  Qed.

  Lemma inv_step s0 log c phs i c' :
    inv s0 log c phs -> conf_step impl c i = Some c' ->
    exists phs', inv s0 (log ++ emit c i) c' phs'.
  Proof.
    intros I E. pose proof (returned_step impl fatal _ _ _ E) as RS. unfold conf_step in E. unfold emit.
    destruct (c_ths c !! i) as [t|] eqn:Et; [|discriminate].
    destruct (phs !! i) as [ph|] eqn:Ep.
    2:{ apply lookup_ge_None in Ep. apply lookup_lt_Some in Et. rewrite (i_len _ _ _ _ I) in Ep. lia. }
    destruct (thread_step impl (c_sh c) (c_mu c) t) as [[[s' mu'] t']|] eqn:Es; [|discriminate].
    injection E as <-.
    destruct (i_ths _ _ _ _ I _ _ _ Et Ep) as [O C].
    pose proof (i_mu _ _ _ _ I) as M. destruct M as [Mr Mw Ma M1 Mx].
    destruct (i_legal _ _ _ _ I) as (sl & L & LZ & LW).
    pose proof (i_inner _ _ _ _ I) as IN.
    assert (TI : forall f ph', total f (<[i:=ph']> phs) + f ph = total f phs + f ph').
    { intros. now apply total_insert. }
    destruct ph as [| |h|n|]; cbn [ph_ok] in O.
    - (* not in its critical section *)
      destruct O as [O|[op O]].
      + (* a new call *)
        unfold thread_step in Es. rewrite O in Es. destruct (t_todo t) as [|op ops] eqn:Eo; [discriminate|].
        injection Es as <- <- <-. rewrite O. exists (<[i := Idle]> phs).
        eapply inv_upd; eauto; cbn [ph_ok t_cur t_done pend calls_of]; eauto.
        * rewrite list_insert_id by auto. now constructor.
        * exists sl. rewrite app_nil_r. rewrite list_insert_id by auto. split_and!; auto; try discriminate.
          right. right. auto.
        * destruct IN as [F|IN]; [left; auto|right]. now rewrite list_insert_id.
      + (* taking the lock *)
        rewrite (thread_step_prog _ _ _ _ _ _ O) in Es.
        2:{ intros r Er. destruct (sections op) as [(b & -> & _)|(b & -> & _)] in Er; discriminate. }
        rewrite O.
        destruct (sections op) as [(body & Eb & D & Q)|(body & Eb & D & Q)]; rewrite Eb in *; cbn [locked rlocked] in *;
          unfold locked, rlocked in Es |- *; cbn [prog_step] in Es |- *.
        * destruct (m_ann (c_mu c 0)) eqn:EA; [discriminate|]. injection Es as <- <- <-.
          symmetry in Ma. apply Nat.ltb_ge in Ma.
          exists (<[i := Ann]> phs).
          pose proof (TI is_wr Ann) as T1. pose proof (TI is_ann Ann) as T2. pose proof (TI is_rd Ann) as T3.
          pose proof (TI inner Ann) as T4. cbn in T1, T2, T3, T4.
          eapply inv_upd; eauto; cbn [ph_ok t_cur t_done pend calls_of]; auto.
          -- exists op, body. auto.
          -- constructor; rewrite ?mu_set_same; cbn [m_rd m_wr m_ann]; try lia.
             ++ rewrite Mw. rewrite !ltb_false by lia. auto.
             ++ rewrite ltb_true by lia. auto.
          -- exists sl. rewrite app_nil_r. split_and!; auto; try discriminate; [|right; left; lia].
             intros _. apply LZ. lia.
          -- destruct IN as [F|[IN1 IN2]]; [left; auto|right]. split.
             ++ intros _. rewrite mu_set_other by lia. rewrite IN1 by lia. f_equal. lia.
             ++ intros j h Ej. pose proof (total_ge is_wr _ _ _ Ej). cbn in *. lia.
        * destruct (m_ann (c_mu c 0)) eqn:EA; [discriminate|]. injection Es as <- <- <-.
          symmetry in Ma. apply Nat.ltb_ge in Ma.
          exists (<[i := Rd 0]> phs).
          pose proof (TI is_wr (Rd 0)) as T1. pose proof (TI is_ann (Rd 0)) as T2. pose proof (TI is_rd (Rd 0)) as T3.
          pose proof (TI inner (Rd 0)) as T4. cbn in T1, T2, T3, T4.
          assert (Hs : sl = c_sh c) by (symmetry; apply LZ; lia).
          eapply inv_upd; eauto; cbn [ph_ok t_cur t_done pend calls_of cur_res]; auto.
          -- exists op, body. auto.
          -- unfold cur_res; cbn [t_cur]. rewrite Nat.eqb_refl. rewrite seqrun_bind. cbn. now rewrite Q.
          -- constructor; rewrite ?mu_set_same; cbn [m_rd m_wr m_ann]; try lia.
             ++ rewrite Mw. rewrite !ltb_false by lia. auto.
             ++ rewrite ltb_false by lia. auto.
          -- subst sl. exists (call op (c_sh c)).2. split_and!; try discriminate.
             ++ apply legal_snoc. exact L.
             ++ intros _. rewrite <- Q. now rewrite (disc_ro_state _ _ _ _ _ D).
             ++ right. left. lia.
          -- destruct IN as [F|[IN1 IN2]]; [left; auto|right]. split.
             ++ intros _. rewrite mu_set_other by lia. rewrite IN1 by lia. f_equal. lia.
             ++ intros j h Ej. pose proof (total_ge is_wr _ _ _ Ej). cbn in *. lia.
    - (* announced *)
      destruct O as (op & body & O & D & Q). rewrite O.
      rewrite (thread_step_prog _ _ _ _ _ _ O) in Es by discriminate. cbn [prog_step] in Es.
      destruct (m_rd (c_mu c 0)) eqn:EA; [|discriminate]. injection Es as <- <- <-.
      pose proof (total_ge is_ann _ _ _ Ep) as Ga. cbn in Ga.
      exists (<[i := Wr (HR 0)]> phs).
      pose proof (TI is_wr (Wr (HR 0))) as T1. pose proof (TI is_ann (Wr (HR 0))) as T2.
      pose proof (TI is_rd (Wr (HR 0))) as T3. pose proof (TI inner (Wr (HR 0))) as T4. cbn in T1, T2, T3, T4.
      assert (Hs : sl = c_sh c) by (symmetry; apply LZ; lia).
      eapply inv_upd; eauto; cbn [ph_ok t_cur t_done pend calls_of]; auto.
      + exists op, body. auto.
      + unfold cur_res; cbn [t_cur]. rewrite Nat.eqb_refl. rewrite seqrun_bind. cbn. now rewrite Q.
      + constructor; rewrite ?mu_set_same; cbn [m_rd m_wr m_ann]; try lia.
        * rewrite ltb_true by lia. auto.
        * rewrite Ma. rewrite !ltb_true by lia. auto.
      + subst sl. exists (call op (c_sh c)).2. split_and!.
        * apply legal_snoc. exact L.
        * lia.
        * intros h op1 p [= <-] [= <- <-]. rewrite seqrun_bind. cbn. now rewrite Q.
        * auto.
      + destruct IN as [F|[IN1 IN2]]; [left; auto|right]. split; [lia|].
        intros j h Ej. destruct (decide (i = j)) as [<-|N].
        * rewrite list_lookup_insert in Ej by (eapply lookup_lt_Some; eauto). injection Ej as <-.
          rewrite mu_set_other by lia. rewrite IN1 by lia. cbn. f_equal. apply total_is_rd_inner. lia.
        * pose proof (list_lookup_insert phs i (Wr (HR 0)) (lookup_lt_Some _ _ _ Ep)) as Ei.
          pose proof (total_ge2 is_wr _ _ _ _ _ N Ei Ej). cbn in *. lia.
    - (* writer *)
      destruct O as (op & body & O & D). rewrite O.
      pose proof (total_ge is_wr _ _ _ Ep) as Gw. cbn in Gw. specialize (Mx Gw).
      rewrite (thread_step_prog _ _ _ _ _ _ O (wbind_not_ret _)) in Es.
      assert (Hem : match pbind body wend with LockWait 0 _ | RLock 0 _ => [(i, op, (call op (c_sh c)).1)] | _ => [] end = []).
      { inversion D; subst; cbn; auto. }
      replace (match pbind body wend with LockWait 0 _ | RLock 0 _ => [(i, op, (call op (c_sh c)).1)] | _ => [] end) with (@nil event).
      destruct body as [r|u k|m k|m k|m k|m k|m k] eqn:Ebody.
      1:{ cbn [pbind wend prog_step] in Es. unfold wend in Es. cbn [prog_step] in Es.
          destruct (m_wr (c_mu c 0)) eqn:EA; [|discriminate]. injection Es as <- <- <-.
          exists (<[i := Fin]> phs).
          pose proof (TI is_wr Fin) as T1. pose proof (TI is_ann Fin) as T2.
          pose proof (TI is_rd Fin) as T3. pose proof (TI inner Fin) as T4. cbn in T1, T2, T3, T4.
          eapply inv_upd; eauto; cbn [ph_ok t_cur t_done pend calls_of]; eauto.
          - unfold cur_res. cbn [t_cur]. rewrite O. cbn. auto.
          - constructor; rewrite ?mu_set_same; cbn [m_rd m_wr m_ann]; try lia.
            + rewrite ltb_false by lia. auto.
            + rewrite ltb_false by lia. auto.
          - exists sl. rewrite app_nil_r. split_and!; auto; try discriminate.
            + intros _. rewrite <- (LW _ _ _ _ _ Et Ep O). reflexivity.
            + right. left. lia.
          - destruct IN as [F|[IN1 IN2]]; [left; auto|].
            inversion D as [? ? Hq| | | | | |]; subst. destruct Hq as [-> |F].
            + right. split.
              * intros _. rewrite mu_set_other by lia. rewrite (IN2 _ _ Ep). cbn. f_equal.
                symmetry. apply total_is_rd_inner. lia.
              * intros j h Ej. pose proof (total_ge is_wr _ _ _ Ej). cbn in *. lia.
            + left. eexists. split.
              * apply elem_of_list_lookup. exists i. apply list_lookup_insert. eapply lookup_lt_Some; eauto.
              * right. cbn. eauto. }
      all: assert (Hnr : forall r, body <> Ret r) by (rewrite Ebody; discriminate).
      all: rewrite <- Ebody in *; clear Ebody.
      all: destruct (prog_step (c_sh c) (c_mu c) (pbind body wend)) as [[[s1 mu1] p1]|] eqn:Eps; [|discriminate].
      all: injection Es as <- <- <-.
      all: destruct (body_step _ _ _ _ _ _ _ _ _ _ _ D Hnr Eps) as (body' & h' & -> & D' & Q & M0 & MI & _ & _).
      all: exists (<[i := Wr h']> phs);
        pose proof (TI is_wr (Wr h')) as T1; pose proof (TI is_ann (Wr h')) as T2;
        pose proof (TI is_rd (Wr h')) as T3; pose proof (TI inner (Wr h')) as T4; cbn in T1, T2, T3, T4.
      all: eapply inv_upd; eauto; cbn [ph_ok t_cur t_done pend calls_of is_wr]; eauto.
      all: try (unfold cur_res; cbn [t_cur]; rewrite O; rewrite !seqrun_bind, Q; now rewrite app_nil_r).
      all: try (constructor; rewrite ?M0; cbn [m_rd m_wr m_ann]; try lia;
          [rewrite Mw; rewrite !ltb_true by lia; auto | rewrite Ma; rewrite !ltb_true by lia; auto]; fail).
      all: try (exists sl; rewrite app_nil_r; split_and!; auto;
          [lia | intros h1 op1 p [= <-] [= <- <-]; rewrite <- (LW _ _ _ _ _ Et Ep O); rewrite !seqrun_bind, Q; auto]; fail).
      all: (destruct IN as [F|[IN1 IN2]]; [left; auto|right]; split; [lia|];
        intros j h1 Ej; destruct (decide (i = j)) as [<-|N];
        [rewrite list_lookup_insert in Ej by (eapply lookup_lt_Some; eauto); injection Ej as <-; eauto
        |pose proof (list_lookup_insert phs i (Wr h') (lookup_lt_Some _ _ _ Ep)) as Ei;
          pose proof (total_ge2 is_wr _ _ _ _ _ N Ei Ej); cbn in *; lia]).
    - (* reader *)
      destruct O as (op & body & O & D). rewrite O.
      pose proof (total_ge is_rd _ _ _ Ep) as Gr. cbn in Gr.
      assert (Zw : total is_wr phs = 0) by lia.
      rewrite (thread_step_prog _ _ _ _ _ _ O (rbind_not_ret _)) in Es.
      assert (Hem : match pbind body rend with LockWait 0 _ | RLock 0 _ => [(i, op, (call op (c_sh c)).1)] | _ => [] end = []).
      { inversion D; subst; cbn; auto. }
      replace (match pbind body rend with LockWait 0 _ | RLock 0 _ => [(i, op, (call op (c_sh c)).1)] | _ => [] end) with (@nil event).
      destruct body as [r|u k|m k|m k|m k|m k|m k] eqn:Ebody.
      1:{ cbn [pbind rend prog_step] in Es. unfold rend in Es. cbn [prog_step] in Es.
          destruct (m_rd (c_mu c 0)) eqn:EA; [discriminate|]. injection Es as <- <- <-.
          inversion D as [? ? Hq| | | | | |]; subst. injection Hq as ->.
          exists (<[i := Fin]> phs).
          pose proof (TI is_wr Fin) as T1. pose proof (TI is_ann Fin) as T2.
          pose proof (TI is_rd Fin) as T3. pose proof (TI inner Fin) as T4. cbn in T1, T2, T3, T4.
          eapply inv_upd; eauto; cbn [ph_ok t_cur t_done pend calls_of]; eauto.
          - unfold cur_res. cbn [t_cur]. rewrite O. cbn. auto.
          - constructor; rewrite ?mu_set_same; cbn [m_rd m_wr m_ann]; try lia.
            + rewrite Mw. rewrite !ltb_false by lia. auto.
            + rewrite Ma. f_equal. lia.
          - exists sl. rewrite app_nil_r. split_and!; auto; try discriminate.
            right. left. lia.
          - destruct IN as [F|[IN1 IN2]]; [left; auto|]. right. split.
            + intros _. rewrite mu_set_other by lia. rewrite IN1 by auto. f_equal. lia.
            + intros j h Ej. pose proof (total_ge is_wr _ _ _ Ej). cbn in *. lia. }
      all: assert (Hnr : forall r, body <> Ret r) by (rewrite Ebody; discriminate).
      all: rewrite <- Ebody in *; clear Ebody.
      all: destruct (prog_step (c_sh c) (c_mu c) (pbind body rend)) as [[[s1 mu1] p1]|] eqn:Eps; [|discriminate].
      all: injection Es as <- <- <-.
      all: destruct (body_step _ _ _ _ _ _ _ _ _ _ _ D Hnr Eps) as (body' & h' & -> & D' & Q & M0 & _ & MI & MH).
      all: destruct (MH eq_refl _ eq_refl) as [n' ->]; destruct (MI eq_refl) as [-> MI']; clear MI.
      all: exists (<[i := Rd n']> phs);
        pose proof (TI is_wr (Rd n')) as T1; pose proof (TI is_ann (Rd n')) as T2;
        pose proof (TI is_rd (Rd n')) as T3; pose proof (TI inner (Rd n')) as T4; cbn in T1, T2, T3, T4.
      all: eapply inv_upd; eauto; cbn [ph_ok t_cur t_done pend calls_of is_wr]; eauto.
      all: try (unfold cur_res; cbn [t_cur]; rewrite O; rewrite !seqrun_bind, Q; now rewrite app_nil_r).
      all: try (constructor; rewrite ?M0; cbn [m_rd m_wr m_ann]; try lia;
          [rewrite Mw; f_equal; lia | rewrite Ma; f_equal; lia]; fail).
      all: try (exists sl; rewrite app_nil_r; split_and!; auto; try discriminate; right; left; lia).
      all: (destruct IN as [F|[IN1 IN2]]; [left; auto|right]; split;
        [ intros _; pose proof (total_ge inner _ _ _ Ep) as Gi; cbn in Gi;
          destruct (MI' n (total inner phs - n) eq_refl) as (n2 & [= <-] & ->);
          [rewrite IN1 by auto; f_equal; lia | f_equal; lia]
        | intros j h Ej; pose proof (total_ge is_wr _ _ _ Ej); cbn in *; lia]).
    - (* returning *)
      destruct O as (op & r & O). unfold thread_step in Es. rewrite O in Es. injection Es as <- <- <-. rewrite O.
      exists (<[i := Idle]> phs).
      pose proof (TI is_wr Idle) as T1. pose proof (TI is_ann Idle) as T2.
      pose proof (TI is_rd Idle) as T3. pose proof (TI inner Idle) as T4. cbn in T1, T2, T3, T4.
      eapply inv_upd; eauto; cbn [ph_ok t_cur t_done pend calls_of]; eauto.
      + unfold cur_res. rewrite O. cbn. now rewrite !app_nil_r.
      + constructor; cbn [m_rd m_wr m_ann]; try lia.
        * rewrite Mw. f_equal. lia.
        * rewrite Ma. f_equal. lia.
      + exists sl. rewrite app_nil_r. split_and!; auto; try discriminate.
        * intros ?. apply LZ. lia.
        * right. right. auto.
      + destruct IN as [F|[IN1 IN2]]; [left; auto|]. right. split.
        * intros Z. rewrite IN1 by lia. f_equal. lia.
        * intros j h Ej. destruct (decide (i = j)) as [<-|N].
          -- rewrite list_lookup_insert in Ej by (eapply lookup_lt_Some; eauto). discriminate.
          -- rewrite list_lookup_insert_ne in Ej by auto. eauto.
  Qed.
  Fixpoint lin_log (c : conf S R Op) (sched : list nat) : list event :=
    match sched with
    | [] => []
    | i :: sched' =>
        match conf_step impl c i with
        | Some c' => emit c i ++ lin_log c' sched'
        | None => []
        end
    end.
  Lemma lin_log_prefix c s1 s2 : lin_log c s1 `prefix_of` lin_log c (s1 ++ s2).
  Proof.
    revert c. induction s1 as [|i s1 IH]; intros c; cbn [lin_log app].
    - apply prefix_nil.
    - destruct (conf_step impl c i); [|done]. now apply prefix_app.
  Qed.
  Lemma inv_init s0 todo : inv s0 [] (conf_init s0 todo) (replicate (length todo) Idle).
  Proof.
    assert (Z : forall f, f Idle = 0 -> total f (replicate (length todo) Idle) = 0).
    { intros f E. induction todo; cbn; auto. lia. }
    constructor; cbn.
    - rewrite replicate_length, fmap_length. auto.
    - intros i t ph Et Ep. apply lookup_replicate in Ep as [-> _].
      rewrite list_lookup_fmap in Et. destruct (todo !! i); [|discriminate]. injection Et as <-. cbn. auto.
    - auto.
    - constructor; rewrite ?(Z is_rd), ?(Z is_wr), ?(Z is_ann) by auto; auto.
    - exists s0. split_and!; [constructor | auto |].
      intros i t op p h _ Ep. apply lookup_replicate in Ep as [? _]. discriminate.
    - right. split.
      + intros _. rewrite Z by auto. auto.
      + intros i h Ep. apply lookup_replicate in Ep as [? _]. discriminate.
  Qed.
  Lemma inv_exec s0 log c phs sched c' :
    inv s0 log c phs -> exec impl c sched = Some c' ->
    exists phs', inv s0 (log ++ lin_log c sched) c' phs'.
  Proof.
    revert log c phs. induction sched as [|i sched IH]; intros log c phs I E; cbn [exec lin_log] in *.
    - injection E as <-. exists phs. now rewrite app_nil_r.
    - destruct (conf_step impl c i) as [c1|] eqn:Es; [|discriminate].
      destruct (inv_step _ _ _ _ _ _ I Es) as [phs1 I1].
      destruct (IH _ _ _ I1 E) as [phs2 I2]. exists phs2. now rewrite app_assoc.
  Qed.
  Lemma inv_reach s0 todo c : reachable impl s0 todo c -> exists log phs, inv s0 log c phs.
  Proof.
    intros [sched E]. destruct (inv_exec _ _ _ _ _ _ (inv_init s0 todo) E) as [phs I]. eauto.
  Qed.
  Lemma inv_ph s0 log c phs i t : inv s0 log c phs -> c_ths c !! i = Some t -> exists ph, phs !! i = Some ph.
  Proof.
    intros I E. apply lookup_lt_Some in E. rewrite <- (i_len _ _ _ _ I) in E.
    now apply lookup_lt_is_Some in E.
  Qed.
  Lemma inv_th s0 log c phs i ph : inv s0 log c phs -> phs !! i = Some ph -> exists t, c_ths c !! i = Some t.
  Proof.
    intros I E. apply lookup_lt_Some in E. rewrite (i_len _ _ _ _ I) in E.
    now apply lookup_lt_is_Some in E.
  Qed.

  Theorem object_linearizable s0 : linearizable impl call s0.
  Proof.
    intros todo. exists (lin_log (conf_init s0 todo)). split; [intros; apply lin_log_prefix|].
    intros sched c E. destruct (inv_exec _ _ _ _ _ _ (inv_init s0 todo) E) as [phs I]. cbn [app] in I.
    split_and!.
    - destruct (i_legal _ _ _ _ I) as (s' & L & Z & _). exists s'. split; auto. intros Q. apply Z.
      destruct (Nat.eq_0_gt_0_cases (total is_wr phs)) as [|P]; auto.
      destruct (total_pos _ _ P) as (i & ph & Ep & Hw). destruct (inv_th _ _ _ _ _ _ I Ep) as [t Et].
      destruct (i_ths _ _ _ _ I _ _ _ Et Ep) as [O _]. destruct ph; cbn in Hw; try lia.
      destruct O as (op & b & O & _). apply (Forall_lookup_1 _ _ _ _ Q) in Et. congruence.
    - intros i t Et. destruct (inv_ph _ _ _ _ _ _ I Et) as [ph Ep].
      destruct (i_ths _ _ _ _ I _ _ _ Et Ep) as [O ->].
      destruct ph; cbn [pend]; rewrite ?app_nil_r; auto; right; unfold cur_res.
      + destruct O as (op & b & -> & _). eauto 6.
      + destruct O as (op & b & -> & _). eauto 6.
      + destruct O as (op & b & ->). eauto 6.
    - apply (i_out _ _ _ _ I).
  Qed.

  (** a goroutine at an access of shared data is in its critical section *)
  Lemma act_phase t ph op u k :
    ph_ok t ph -> t_cur t = Some (op, Act u k) ->
    (exists h, ph = Wr h) \/ (exists n, ph = Rd n) /\ forall s, u s = s.
  Proof.
    intros O E. destruct ph; cbn in O.
    - destruct O as [O|[op' O]]; [congruence|]. rewrite E in O. injection O as <- O.
      destruct (sections op) as [(b & Eb & _)|(b & Eb & _)]; rewrite Eb in O; discriminate.
    - destruct O as (op' & b & O & _). congruence.
    - eauto.
    - right. split; eauto. destruct O as (op' & b & O & D). rewrite E in O. injection O as <- O.
      inversion D; subst; cbn in O; try discriminate. injection O as -> _. auto.
    - destruct O as (op' & r & O). congruence.
  Qed.
  Theorem object_race_free s0 todo c : reachable impl s0 todo c -> ~ race c.
  Proof.
    intros Hr (i & j & t1 & t2 & op1 & op2 & u1 & u2 & k1 & k2 & N & E1 & E2 & C1 & C2 & s & Hs).
    destruct (inv_reach _ _ _ Hr) as (log & phs & I).
    destruct (inv_ph _ _ _ _ _ _ I E1) as [ph1 P1]. destruct (inv_ph _ _ _ _ _ _ I E2) as [ph2 P2].
    destruct (i_ths _ _ _ _ I _ _ _ E1 P1) as [O1 _]. destruct (i_ths _ _ _ _ I _ _ _ E2 P2) as [O2 _].
    pose proof (i_mu _ _ _ _ I) as M. pose proof (mo_one _ _ M). pose proof (mo_excl _ _ M).
    pose proof (total_ge2 is_wr _ _ _ _ _ N P1 P2). pose proof (total_ge is_rd _ _ _ P2).
    destruct (act_phase _ _ _ _ _ O1 C1) as [[h ->]|[_ A]]; [|now rewrite A in Hs].
    destruct (act_phase _ _ _ _ _ O2 C2) as [[h' ->]|[[n ->] _]]; cbn in *; lia.
  Qed.

  Theorem object_progress s0 todo c :
    reachable impl s0 todo c -> ~ returned fatal c -> ~ finished c -> exists i, enabled impl c i.
  Proof.
    intros Hr NF NE. destruct (inv_reach _ _ _ Hr) as (log & phs & I).
    destruct (i_inner _ _ _ _ I) as [|[IN1 IN2]]; [contradiction|].
    pose proof (i_mu _ _ _ _ I) as M. pose proof (mo_one _ _ M) as M1. pose proof (mo_excl _ _ M) as Mx.
    destruct (Nat.eq_0_gt_0_cases (total is_wr phs)) as [Zw|Pw].
    2:{ (* a writer *)
      destruct (total_pos _ _ Pw) as (i & ph & Ep & Hw). destruct (inv_th _ _ _ _ _ _ I Ep) as [t Et].
      destruct (i_ths _ _ _ _ I _ _ _ Et Ep) as [O _]. destruct ph; cbn in Hw; try lia.
      destruct O as (op & b & O & D). exists i.
      destruct b as [r|u k|m k|m k|m k|m k|m k] eqn:Eb;
        [|edestruct (body_enabled _ _ _ _ _ wend (c_sh c) (c_mu c) 0 D) as [x Ex];
           [discriminate | left; eauto | eapply enabled_prog; eauto; cbn [pbind]; discriminate]..].
      eapply enabled_prog; eauto; cbn [pbind wend]; try discriminate.
      unfold wend. cbn [prog_step]. rewrite (mo_wr _ _ M), ltb_true by auto. reflexivity. }
    destruct (Nat.eq_0_gt_0_cases (total is_rd phs)) as [Zr|Pr].
    2:{ (* a reader *)
      destruct (total_pos _ _ Pr) as (i & ph & Ep & Hw). destruct (inv_th _ _ _ _ _ _ I Ep) as [t Et].
      destruct (i_ths _ _ _ _ I _ _ _ Et Ep) as [O _]. destruct ph as [| | |n|]; cbn in Hw; try lia.
      destruct O as (op & b & O & D). exists i.
      pose proof (total_ge inner _ _ _ Ep) as Gi. cbn in Gi.
      destruct b as [r|u k|m k|m k|m k|m k|m k] eqn:Eb;
        [|edestruct (body_enabled _ _ _ _ _ rend (c_sh c) (c_mu c) (total inner phs - n) D) as [x Ex];
           [discriminate | right; split; [auto|]; exists n; split; [auto|]; rewrite IN1 by auto; f_equal; lia
            | eapply enabled_prog; eauto; cbn [pbind]; discriminate]..].
      pose proof (mo_rd _ _ M) as X. destruct (total is_rd phs) as [|n1]; [lia|].
      eapply enabled_prog; eauto; cbn [pbind rend]; try discriminate.
      unfold rend. cbn [prog_step]. rewrite X. reflexivity. }
    destruct (Nat.eq_0_gt_0_cases (total is_ann phs)) as [Za|Pa].
    2:{ destruct (total_pos _ _ Pa) as (i & ph & Ep & Hw). destruct (inv_th _ _ _ _ _ _ I Ep) as [t Et].
      destruct (i_ths _ _ _ _ I _ _ _ Et Ep) as [O _]. destruct ph; cbn in Hw; try lia.
      destruct O as (op & b & O & D & _). exists i. eapply enabled_prog; eauto; try discriminate.
      cbn [prog_step]. rewrite (mo_rd _ _ M), Zr. reflexivity. }
    pose proof (unfinished_thread _ NE) as X.
    destruct X as (i & t & Et & NFt). exists i.
    destruct (inv_ph _ _ _ _ _ _ I Et) as [ph Ep].
    destruct (i_ths _ _ _ _ I _ _ _ Et Ep) as [O _].
    pose proof (total_ge is_wr _ _ _ Ep). pose proof (total_ge is_rd _ _ _ Ep). pose proof (total_ge is_ann _ _ _ Ep).
    destruct ph; cbn in *; try lia.
    - destruct O as [O|[op O]].
      + unfold enabled, conf_step, thread_step. rewrite Et, O.
        destruct (t_todo t) eqn:Eo; [now destruct NFt|]. eauto.
      + destruct (sections op) as [(b & Eb & _)|(b & Eb & _)]; rewrite Eb in O;
          (eapply enabled_prog; eauto; try discriminate);
          unfold locked, rlocked; cbn [prog_step]; rewrite (mo_ann _ _ M), ltb_false by lia; reflexivity.
    - destruct O as (op & r & O). unfold enabled, conf_step, thread_step. rewrite Et, O. eauto.
  Qed.
End obj.

(** ** every execution is finite *)
Section term.
  Context {S R Op : Type} (impl : Op -> prog S R).
  Definition tstep (t' t : thread S R Op) : Prop :=
    exists s mu s' mu', thread_step impl s mu t = Some (s', mu', t').
  Definition pstep1 (p' p : prog S R) : Prop := exists s mu s' mu', prog_step s mu p = Some (s', mu', p').
  Lemma prog_acc (p : prog S R) : Acc pstep1 p.
  Proof.
    induction p as [r|u k IH|m k IH|m k IH|m k IH|m k IH|m k IH]; constructor;
      intros p' (s & mu & s' & mu' & E); cbn in E.
    - discriminate.
    - injection E as _ _ <-. auto.
    - destruct (m_ann _); [discriminate|]. injection E as _ _ <-. auto.
    - destruct (m_rd _); [discriminate|]. injection E as _ _ <-. auto.
    - destruct (m_ann _); [discriminate|]. injection E as _ _ <-.
      constructor. intros p' (s1 & mu1 & s2 & mu2 & E). cbn in E.
      destruct (m_rd _); [|discriminate]. injection E as _ _ <-. auto.
    - destruct (m_rd _); [|discriminate]. injection E as _ _ <-. auto.
    - destruct (m_wr _); [|discriminate]. injection E as _ _ <-. auto.
  Qed.
  Lemma thread_acc (t : thread S R Op) : Acc tstep t.
  Proof.
    destruct t as [cur todo done]. revert cur done. induction todo as [|op todo IH].
    - assert (N : forall done, Acc tstep (Thread None [] done)).
      { intros done. constructor. intros t' (s & mu & s' & mu' & E). discriminate. }
      intros [[op p]|] done; auto. revert done. induction (prog_acc p) as [p _ IHp]. intros done.
      constructor. intros t' (s & mu & s' & mu' & E).
      destruct (match p with Ret r => Some r | _ => None end) as [r|] eqn:Er.
      + destruct p; try discriminate. injection E as <- <- <-. apply N.
      + rewrite (thread_step_prog _ _ _ (Thread (Some (op, p)) _ _) op p eq_refl) in E by (intros r ->; discriminate).
        cbn in E. destruct (prog_step s mu p) as [[[s1 mu1] p1]|] eqn:Ep; [|discriminate].
        injection E as <- <- <-. apply IHp. unfold pstep1. eauto.
    - assert (N : forall done, Acc tstep (Thread None (op :: todo) done)).
      { intros done. constructor. intros t' (s & mu & s' & mu' & E). injection E as <- <- <-. apply IH. }
      intros [[op1 p]|] done; auto. revert done. induction (prog_acc p) as [p _ IHp]. intros done.
      constructor. intros t' (s & mu & s' & mu' & E).
      destruct (match p with Ret r => Some r | _ => None end) as [r|] eqn:Er.
      + destruct p; try discriminate. injection E as <- <- <-. apply N.
      + rewrite (thread_step_prog _ _ _ (Thread (Some (op1, p)) _ _) op1 p eq_refl) in E by (intros r ->; discriminate).
        cbn in E. destruct (prog_step s mu p) as [[[s1 mu1] p1]|] eqn:Ep; [|discriminate].
        injection E as <- <- <-. apply IHp. unfold pstep1. eauto.
  Qed.
  Definition lstep (l' l : list (thread S R Op)) : Prop :=
    exists i t t', l !! i = Some t /\ tstep t' t /\ l' = <[i := t']> l.
  Lemma list_acc l : Acc lstep l.
  Proof.
    induction l as [|t l IH].
    - constructor. intros l' (i & t & t' & E & _). destruct i; discriminate.
    - revert l IH. induction (thread_acc t) as [t _ IHt]. intros l IHl. induction IHl as [l Hl IHl'].
      constructor. intros l' (i & t1 & t' & E & T & ->). destruct i as [|i].
      + injection E as <-. change (<[0 := t']> (t :: l)) with (t' :: l). apply IHt; auto. now constructor.
      + change (<[Datatypes.S i := t']> (t :: l)) with (t :: <[i := t']> l).
        apply IHl'. exists i, t1, t'. auto.
  Qed.
  Definition cstep (c' c : conf S R Op) : Prop := exists i, conf_step impl c i = Some c'.
  Lemma conf_acc c : Acc cstep c.
  Proof.
    destruct c as [s mu l]. revert s mu. induction (list_acc l) as [l _ IH]. intros s mu.
    constructor. intros [s' mu' l'] [i E]. unfold conf_step in E. cbn in E.
    destruct (l !! i) as [t|] eqn:Et; [|discriminate].
    destruct (thread_step impl s mu t) as [[[s1 mu1] t1]|] eqn:Es; [|discriminate].
    injection E as <- <- <-. apply IH. exists i, t, t1. split_and!; auto. unfold tstep. eauto.
  Qed.
  (** With progress, scheduling on from any reachable state ends with P or with
      everything finished. *)
End term.
