(** Objects whose calls use one RWMutex (number 1) and may look first under the read
    lock and then change data under the write lock, as WG.RemoveNode and WG.Unlink do. *)
From Verif.Model Require Import Lock.
From Verif.Spec Require Import LinSpec.
From Verif.Proof Require Import LinP.

(** ** shapes of programs *)
(** from inside the write section to the end of the call *)
Inductive wr {S R} : prog S R -> Prop :=
| wr_act u k : (forall s, wr (k s)) -> wr (Act u k)
| wr_end r : wr (Unlock 1 (Ret r)).
(** from inside the read section, entered n times, to the end of the call *)
Inductive rd {S R} : nat -> prog S R -> Prop :=
| rd_act n u k : (forall s, u s = s) -> (forall s, rd n (k s)) -> rd n (Act u k)
| rd_in n k : rd (1 + n) k -> rd n (RLock 1 k)
| rd_out n k : rd (1 + n) k -> rd (2 + n) (RUnlock 1 k)
| rd_end r : rd 1 (RUnlock 1 (Ret r))
| rd_up k : wr k -> rd 1 (RUnlock 1 (Lock 1 k)).
(** the write section that a read section run in state s goes on to *)
Fixpoint goes_on {S R} (p : prog S R) (s : S) : option (prog S R) :=
  match p with
  | Act u k => goes_on (k s) s
  | RLock _ k => goes_on k s
  | RUnlock _ k => goes_on k s
  | Lock _ k => Some k
  | _ => None
  end.
Lemma rd_same {S R} n (p : prog S R) s : rd n p -> goes_on p s = None -> (seqrun p s).2 = s.
Proof.
  induction 1 as [n u k H1 H2 IH|n k H IH|n k H IH|r|k Hk]; cbn; intros E; auto; [|discriminate].
  rewrite H1. auto.
Qed.

Section one.
  Context {S R Op : Type} (impl : Op -> prog S R) (call : Op -> S -> R * S).
  Notation event := (nat * Op * R)%type.
  (** the calls of each goroutine, the states of the object, and what can come of a state
      by the calls of the other goroutines *)
  Context (ok : nat -> Op -> Prop) (good : S -> Prop) (later : nat -> S -> S -> Prop).
  Context (later_refl : forall i s, later i s s).
  Context (later_trans : forall i s1 s2 s3, later i s1 s2 -> later i s2 s3 -> later i s1 s3).
  Context (call_good : forall i op s, ok i op -> good s ->
             good (call op s).2 /\ forall j, j <> i -> later j s (call op s).2).
  (** the write section [k] does the call in every later state *)
  Definition does (i : nat) (s : S) (op : Op) (k : prog S R) : Prop :=
    forall s', good s' -> later i s s' -> seqrun k s' = call op s'.
  (** a call is nothing, a write section, or a read section that decides whether a
      write section follows *)
  Inductive section (i : nat) (op : Op) : prog S R -> Prop :=
  | sec_pure r : (forall s, good s -> call op s = (r, s)) -> section i op (Ret r)
  | sec_write k : wr k -> (forall s, good s -> seqrun k s = call op s) -> section i op (Lock 1 k)
  | sec_read k : rd 1 k ->
      (forall s, good s -> goes_on k s = None -> seqrun k s = call op s) ->
      (forall s k', good s -> goes_on k s = Some k' -> does i s op k') ->
      section i op (RLock 1 k).
  Context (sections : forall i op, ok i op -> section i op (impl op)).

  Lemma does_later i s s' op k : later i s s' -> does i s op k -> does i s' op k.
  Proof. intros L D s2 G L2. apply D; eauto. Qed.

  Inductive phase := Idle | Start | Want | Ann | Wr | Rd (n : nat) | Fin.
  (** [l]: the logged calls of the goroutine; sh: the shared state; sl: the state
      after the logged calls *)
  Definition ph_ok (i : nat) (sh sl : S) (t : thread S R Op) (l : list (Op * R)) (ph : phase) : Prop :=
    match ph with
    | Idle => t_cur t = None /\ l = t_done t
    | Start => exists op k, ok i op /\ impl op = RLock 1 k /\ t_cur t = Some (op, RLock 1 k) /\ l = t_done t
    | Want => exists op k, ok i op /\ t_cur t = Some (op, Lock 1 k) /\ wr k /\ does i sl op k /\ l = t_done t
    | Ann => exists op k, ok i op /\ t_cur t = Some (op, LockWait 1 k) /\ wr k /\ does i sl op k /\ l = t_done t
    | Wr => exists op p r, t_cur t = Some (op, p) /\ wr p /\ seqrun p sh = (r, sl) /\ l = t_done t ++ [(op, r)]
    | Rd n => exists op p, t_cur t = Some (op, p) /\ 0 < n /\ rd n p /\
              match goes_on p sh with
              | Some k => ok i op /\ does i sl op k /\ l = t_done t
              | None => l = t_done t ++ [(op, (seqrun p sh).1)]
              end
    | Fin => exists op r, t_cur t = Some (op, Ret r) /\ l = t_done t ++ [(op, r)]
    end.
  Definition is_wr (ph : phase) : nat := match ph with Wr => 1 | _ => 0 end.
  Definition is_ann (ph : phase) : nat := match ph with Ann => 1 | _ => 0 end.
  Definition is_rd (ph : phase) : nat := match ph with Rd n => n | _ => 0 end.
  Record mu_ok (mu : mutexes) (phs : list phase) : Prop := {
    mo_rd : m_rd (mu 1) = total is_rd phs;
    mo_wr : m_wr (mu 1) = Nat.ltb 0 (total is_wr phs);
    mo_ann : m_ann (mu 1) = Nat.ltb 0 (total is_wr phs + total is_ann phs);
    mo_one : total is_wr phs + total is_ann phs <= 1;
    mo_excl : 0 < total is_wr phs -> total is_rd phs = 0;
  }.
  Record inv (s0 : S) (log : list event) (sl : S) (c : conf S R Op) (hd : nat -> nat) (phs : list phase) : Prop := {
    i_len : length phs = length (c_ths c);
    i_ths : forall i t ph, c_ths c !! i = Some t -> phs !! i = Some ph ->
              ph_ok i (c_sh c) sl t (calls_of i log) ph /\ Forall (ok i) (t_todo t) /\ hd i = is_rd ph;
    i_out : forall i, length (c_ths c) <= i -> calls_of i log = [];
    i_mu : mu_ok (c_mu c) phs;
    i_legal : legal call s0 log sl;
    i_good : good sl;
    i_sh : total is_wr phs = 0 -> c_sh c = sl;
  }.
  (** Log entry of a step: the call does nothing, or enters its last section.  [hd]
      counts the read locks each goroutine holds. *)
  Definition emit (c : conf S R Op) (hd : nat -> nat) (i : nat) : list event :=
    match c_ths c !! i with
    | Some t =>
        match t_cur t, t_todo t with
        | None, op :: _ => match impl op with Ret r => [(i, op, r)] | _ => [] end
        | Some (op, LockWait _ k), _ => [(i, op, (seqrun k (c_sh c)).1)]
        | Some (op, RLock _ k), _ =>
            match hd i, goes_on k (c_sh c) with 0, None => [(i, op, (seqrun k (c_sh c)).1)] | _, _ => [] end
        | _, _ => []
        end
    | None => []
    end.
  Definition hold_step (c : conf S R Op) (hd : nat -> nat) (i : nat) : nat -> nat :=
    fun j => if Nat.eqb j i then
               match c_ths c !! i with
               | Some t => match t_cur t with
                           | Some (_, RLock _ _) => 1 + hd i
                           | Some (_, RUnlock _ _) => hd i - 1
                           | _ => hd i
                           end
               | None => hd i
               end
             else hd j.
  Lemma hold_other c hd i j : i <> j -> hold_step c hd i j = hd j.
  Proof. intros N. unfold hold_step. destruct (Nat.eqb_spec j i); congruence. Qed.

  Lemma ph_ok_other i sh sl sh' sl' t l ph :
    ph_ok i sh sl t l ph -> later i sl sl' -> (sh' = sh /\ sl' = sl) \/ (is_wr ph = 0 /\ is_rd ph = 0) ->
    ph_ok i sh' sl' t l ph.
  Proof.
    intros O L [[-> ->]|[W D]]; auto. destruct ph; cbn in *; try discriminate; auto.
    - destruct O as (op & k & ? & ? & ? & ? & ?). exists op, k. split_and!; eauto using does_later.
    - destruct O as (op & k & ? & ? & ? & ? & ?). exists op, k. split_and!; eauto using does_later.
    - destruct O as (op & p & _ & ? & _). lia.
  Qed.
  Lemma inv_upd s0 log sl c hd phs i t t' ph ph' sh' mu' ev sl' hd' :
    inv s0 log sl c hd phs -> c_ths c !! i = Some t -> phs !! i = Some ph ->
    ph_ok i sh' sl' t' (calls_of i log ++ calls_of i ev) ph' ->
    Forall (ok i) (t_todo t') ->
    hd' i = is_rd ph' -> (forall j, i <> j -> hd' j = hd j) ->
    (ev = [] \/ exists op r, ev = [(i, op, r)]) ->
    (forall j, j <> i -> later j sl sl') ->
    (sh' = c_sh c /\ sl' = sl) \/ is_wr ph = 1 \/ is_wr ph' = 1 ->
    mu_ok mu' (<[i := ph']> phs) ->
    legal call s0 (log ++ ev) sl' -> good sl' ->
    (total is_wr (<[i := ph']> phs) = 0 -> sh' = sl') ->
    inv s0 (log ++ ev) sl' (Conf sh' mu' (<[i := t']> (c_ths c))) hd' (<[i := ph']> phs).
  Proof.
    intros I Et Ep O' Htodo Hh Hh' Hev Hl Hs Hmu Hleg Hg Hsh.
    pose proof (lookup_lt_Some _ _ _ Et) as Lt.
    assert (Lp : i < length phs) by (rewrite (i_len _ _ _ _ _ _ I); auto).
    constructor; cbn; auto.
    - now rewrite !insert_length, (i_len _ _ _ _ _ _ I).
    - intros j t1 ph1 E1 E2. destruct (decide (i = j)) as [<-|N].
      + rewrite list_lookup_insert in E1 by auto. rewrite list_lookup_insert in E2 by auto.
        injection E1 as <-. injection E2 as <-. split_and!; auto. now rewrite calls_of_app.
      + rewrite list_lookup_insert_ne in E1 by auto.
        assert (E2' := E2). rewrite list_lookup_insert_ne in E2 by auto.
        destruct (i_ths _ _ _ _ _ _ I _ _ _ E1 E2) as (O1 & F1 & H1). split; [|rewrite Hh' by auto; auto].
        rewrite calls_of_app. assert (calls_of j ev = []) as ->.
        { destruct Hev as [-> |(op & r & ->)]; cbn; auto. destruct (Nat.eqb_spec i j); congruence. }
        rewrite app_nil_r. apply (ph_ok_other _ _ _ _ _ _ _ _ O1 (Hl j ltac:(auto))).
        destruct Hs as [Hs|[W|W]]; auto; right.
        * pose proof (i_mu _ _ _ _ _ _ I) as M. pose proof (total_ge2 is_wr _ _ _ _ _ N Ep E2).
          pose proof (total_ge is_rd _ _ _ E2). pose proof (mo_one _ _ M). pose proof (mo_excl _ _ M). lia.
        * pose proof (list_lookup_insert _ _ ph' Lp) as E3.
          pose proof (total_ge2 is_wr _ _ _ _ _ N E3 E2').
          pose proof (total_ge is_rd _ _ _ E2'). pose proof (mo_one _ _ Hmu). pose proof (mo_excl _ _ Hmu). lia.
    - intros j Lj. rewrite insert_length in Lj. rewrite calls_of_app, (i_out _ _ _ _ _ _ I) by auto.
      destruct Hev as [-> |(op & r & ->)]; cbn; auto. destruct (Nat.eqb_spec i j); auto. lia.
  Qed.
  Lemma legal_end s l s1 i op r s2 :
    legal call s l s1 -> call op s1 = (r, s2) -> legal call s (l ++ [(i, op, r)]) s2.
  Proof.
    induction 1 as [s|s j op' r' s1 l s3 E L IH]; cbn [app]; intros E2.
    - econstructor; [exact E2 | constructor].
    - econstructor; eauto.
  Qed.
  Lemma calls_of_one i op r : calls_of i [(i, op, r)] = [(op : Op, r : R)].
  Proof. cbn. now rewrite Nat.eqb_refl. Qed.

  Lemma inv_step s0 log sl c hd phs i c' :
    inv s0 log sl c hd phs -> conf_step impl c i = Some c' ->
    exists sl' phs', inv s0 (log ++ emit c hd i) sl' c' (hold_step c hd i) phs'.
  Proof.
    intros I E. unfold conf_step in E. unfold emit.
    destruct (c_ths c !! i) as [t|] eqn:Et; [|discriminate].
    destruct (phs !! i) as [ph|] eqn:Ep.
    2:{ apply lookup_ge_None in Ep. apply lookup_lt_Some in Et. rewrite (i_len _ _ _ _ _ _ I) in Ep. lia. }
    destruct (thread_step impl (c_sh c) (c_mu c) t) as [[[s' mu'] t']|] eqn:Es; [|discriminate].
    injection E as <-.
    destruct (i_ths _ _ _ _ _ _ I _ _ _ Et Ep) as (O & F & Hhd).
    pose proof (fun j N => hold_other c hd i j N) as HO.
    assert (HH : hold_step c hd i i = match t_cur t with
                   | Some (_, RLock _ _) => 1 + hd i | Some (_, RUnlock _ _) => hd i - 1 | _ => hd i end).
    { unfold hold_step. now rewrite Nat.eqb_refl, Et. }
    pose proof (i_mu _ _ _ _ _ _ I) as M. destruct M as [Mr Mw Ma M1 Mx].
    pose proof (i_legal _ _ _ _ _ _ I) as L. pose proof (i_good _ _ _ _ _ _ I) as G.
    pose proof (i_sh _ _ _ _ _ _ I) as Hsh.
    assert (TI : forall f ph', total f (<[i:=ph']> phs) + f ph = total f phs + f ph').
    { intros. now apply total_insert. }
    destruct ph; cbn [ph_ok] in O.
    - (* a new call *)
      destruct O as [O Hl]. unfold thread_step in Es. rewrite O in *. cbn [is_rd] in Hhd. rewrite Hhd in HH. destruct (t_todo t) as [|op ops] eqn:Eo; [discriminate|].
      injection Es as <- <- <-. inversion F as [|? ? Hop Hops]; subst.
      assert (MU : forall ph', is_wr ph' = 0 -> is_ann ph' = 0 -> is_rd ph' = 0 -> mu_ok (c_mu c) (<[i := ph']> phs)).
      { intros ph' E1 E2 E3. pose proof (TI is_wr ph') as T1. pose proof (TI is_ann ph') as T2.
        pose proof (TI is_rd ph') as T3. cbn in T1, T2, T3.
        replace (total is_wr phs) with (total is_wr (<[i := ph']> phs)) in * by lia.
        replace (total is_ann phs) with (total is_ann (<[i := ph']> phs)) in * by lia.
        replace (total is_rd phs) with (total is_rd (<[i := ph']> phs)) in * by lia.
        now constructor. }
      assert (Wz : forall ph', is_wr ph' = 0 -> total is_wr (<[i := ph']> phs) = 0 -> c_sh c = sl).
      { intros ph' E1 E2. apply Hsh. pose proof (TI is_wr ph') as T1. cbn in T1. lia. }
      pose proof (sections i op Hop) as Hsec. inversion Hsec as [r Hr Hi|k Hk Hr Hi|k Hk Hr Hr2 Hi]; subst.
      + exists sl, (<[i := Fin]> phs). eapply inv_upd; eauto; cbn [ph_ok t_cur t_done].
        * exists op, r. rewrite calls_of_one, Hl. auto.
        * eapply legal_end; eauto.
        * now apply Wz.
      + exists sl, (<[i := Want]> phs). eapply inv_upd; eauto; cbn [ph_ok t_cur t_done calls_of].
        * exists op, k. rewrite app_nil_r. split_and!; auto. intros s' G' _. auto.
        * now rewrite app_nil_r.
        * now apply Wz.
      + exists sl, (<[i := Start]> phs). eapply inv_upd; eauto; cbn [ph_ok t_cur t_done calls_of].
        * exists op, k. rewrite app_nil_r. split_and!; auto.
        * now rewrite app_nil_r.
        * now apply Wz.
    - (* the read lock *)
      destruct O as (op & k & Hop & Hi & O & Hl). unfold thread_step in Es. rewrite O in *. cbn [prog_step] in Es. cbn [is_rd] in Hhd. rewrite Hhd in HH.
      rewrite Hhd.
      destruct (m_ann (c_mu c 1)) eqn:EA; [discriminate|]. injection Es as <- <- <-.
      symmetry in Ma. apply Nat.ltb_ge in Ma. assert (Hs : c_sh c = sl) by (apply Hsh; lia).
      pose proof (sections i op Hop) as Hsec. rewrite Hi in Hsec. inversion Hsec as [|k0 Hk Hr He|k0 Hk Hr Hr2 He]; subst.
      pose proof (TI is_wr (Rd 1)) as T1. pose proof (TI is_ann (Rd 1)) as T2. pose proof (TI is_rd (Rd 1)) as T3.
      cbn in T1, T2, T3.
      assert (MU : mu_ok (mu_set (c_mu c) 1 (MState (1 + m_rd (c_mu c 1)) (m_ann (c_mu c 1)) (m_wr (c_mu c 1))))
                     (<[i := Rd 1]> phs)).
      { constructor; rewrite ?mu_set_same; cbn [m_rd m_wr m_ann]; try lia.
        - rewrite Mw, !ltb_false by lia. auto.
        - rewrite EA, ltb_false by lia. auto. }
      rewrite EA in MU. exists (c_sh c), (<[i := Rd 1]> phs). destruct (goes_on k (c_sh c)) as [k'|] eqn:Eg.
      + eapply inv_upd; eauto; cbn [ph_ok t_cur t_done calls_of].
        * exists op, k. split_and!; auto. rewrite Eg, app_nil_r. split_and!; eauto.
        * now rewrite app_nil_r.
      + eapply inv_upd; eauto; cbn [ph_ok t_cur t_done].
        * exists op, k. split_and!; auto. rewrite Eg, calls_of_one. congruence.
        * eapply legal_end; [exact L|]. rewrite <- Hr by auto.
          rewrite <- (rd_same 1 k (c_sh c)) at 3 by auto. apply surjective_pairing.
    - (* announcing a writer *)
      destruct O as (op & k & Hop & O & Hk & D & Hl). unfold thread_step in Es. rewrite O in *. cbn [prog_step] in Es. cbn [is_rd] in Hhd. rewrite Hhd in HH.
      destruct (m_ann (c_mu c 1)) eqn:EA; [discriminate|]. injection Es as <- <- <-.
      symmetry in Ma. apply Nat.ltb_ge in Ma. assert (Hs : c_sh c = sl) by (apply Hsh; lia).
      pose proof (TI is_wr Ann) as T1. pose proof (TI is_ann Ann) as T2. pose proof (TI is_rd Ann) as T3.
      cbn in T1, T2, T3. exists sl, (<[i := Ann]> phs). eapply inv_upd; eauto; cbn [ph_ok t_cur t_done calls_of].
      + exists op, k. rewrite app_nil_r. split_and!; auto.
      + constructor; rewrite ?mu_set_same; cbn [m_rd m_wr m_ann]; try lia.
        * rewrite Mw, !ltb_false by lia. auto.
        * rewrite ltb_true by lia. auto.
      + now rewrite app_nil_r.
    - (* the write lock *)
      destruct O as (op & k & Hop & O & Hk & D & Hl). unfold thread_step in Es. rewrite O in *. cbn [prog_step] in Es. cbn [is_rd] in Hhd. rewrite Hhd in HH.
      destruct (m_rd (c_mu c 1)) eqn:EA; [|discriminate]. injection Es as <- <- <-.
      pose proof (total_ge is_ann _ _ _ Ep) as TA. cbn in TA.
      assert (Hs : c_sh c = sl) by (apply Hsh; lia).
      pose proof (TI is_wr Wr) as T1. pose proof (TI is_ann Wr) as T2. pose proof (TI is_rd Wr) as T3.
      cbn in T1, T2, T3. rewrite Hs. rewrite (D sl G (later_refl _ _)).
      exists (call op sl).2, (<[i := Wr]> phs).
      eapply inv_upd; eauto; cbn [ph_ok t_cur t_done].
      + exists op, k, (call op sl).1. rewrite calls_of_one. split_and!; auto; [|congruence].
        rewrite (D sl G (later_refl _ _)). apply surjective_pairing.
      + intros j N. now apply (call_good i op sl).
      + constructor; rewrite ?mu_set_same; cbn [m_rd m_wr m_ann]; try lia.
        * rewrite ltb_true by lia. auto.
        * rewrite Ma. rewrite !ltb_true by lia. auto.
      + eapply legal_end; [exact L|]. apply surjective_pairing.
      + now apply (call_good i op sl).
      + lia.
    - (* in the write section *)
      destruct O as (op & p & r & O & Hk & D & Hl). unfold thread_step in Es. rewrite O in *. cbn [is_rd] in Hhd. rewrite Hhd in HH.
      pose proof (total_ge is_wr _ _ _ Ep) as TW. cbn in TW.
      inversion Hk as [u k Hk2 He|r' He]; subst; cbn [prog_step] in Es.
      + injection Es as <- <- <-. exists sl, (<[i := Wr]> phs).
        rewrite (list_insert_id _ _ _ Ep).
        pose proof (inv_upd s0 log sl c hd phs i t (Thread (Some (op, k (c_sh c))) (t_todo t) (t_done t)) Wr Wr (u (c_sh c)) (c_mu c) [] sl (hold_step c hd i) I Et Ep) as X.
        rewrite (list_insert_id _ _ _ Ep) in X. apply X; auto.
        * cbn [calls_of ph_ok t_cur t_done]. exists op, (k (c_sh c)), r. rewrite app_nil_r. split_and!; auto.
        * now constructor.
        * now rewrite app_nil_r.
        * lia.
      + destruct (m_wr (c_mu c 1)) eqn:EA; [|discriminate]. injection Es as <- <- <-.
        cbn [seqrun] in D. injection D as -> Hs.
        pose proof (TI is_wr Fin) as T1. pose proof (TI is_ann Fin) as T2. pose proof (TI is_rd Fin) as T3.
        cbn in T1, T2, T3. exists sl, (<[i := Fin]> phs). eapply inv_upd; eauto; cbn [ph_ok t_cur t_done calls_of].
        * exists op, r. rewrite app_nil_r. auto.
        * constructor; rewrite ?mu_set_same; cbn [m_rd m_wr m_ann]; try lia.
          -- rewrite ltb_false by lia. auto.
          -- rewrite ltb_false by lia. auto.
        * now rewrite app_nil_r.
    - (* in the read section *)
      destruct O as (op & p & O & Hn & Hk & D). unfold thread_step in Es. rewrite O in *. cbn [is_rd] in Hhd. rewrite Hhd in HH. rewrite ?Hhd. clear Hhd.
      pose proof (total_ge is_rd _ _ _ Ep) as TW. cbn in TW.
      assert (Hs : c_sh c = sl) by (apply Hsh; lia).
      inversion Hk as [n' u k Hu Hk2 En He|n' k Hk2 En He|n' k Hk2 En He|r' En He|k Hk2 En He]; subst; cbn [prog_step] in Es.
      + injection Es as <- <- <-. rewrite Hu. exists (c_sh c), (<[i := Rd n]> phs).
        rewrite (list_insert_id _ _ _ Ep).
        pose proof (inv_upd s0 log (c_sh c) c hd phs i t (Thread (Some (op, k (c_sh c))) (t_todo t) (t_done t)) (Rd n) (Rd n) (c_sh c) (c_mu c) [] (c_sh c) (hold_step c hd i) I Et Ep) as X.
        rewrite (list_insert_id _ _ _ Ep) in X. apply X; auto.
        * cbn [calls_of ph_ok t_cur t_done]. exists op, (k (c_sh c)). rewrite app_nil_r. split_and!; auto.
          cbn [goes_on seqrun] in D. now rewrite Hu in D.
        * now constructor.
        * now rewrite app_nil_r.
      + destruct (m_ann (c_mu c 1)) eqn:EA; [discriminate|]. injection Es as <- <- <-.
        symmetry in Ma. apply Nat.ltb_ge in Ma.
        destruct n as [|m]; [lia|].
        pose proof (TI is_wr (Rd (Datatypes.S (Datatypes.S m)))) as T1. pose proof (TI is_ann (Rd (Datatypes.S (Datatypes.S m)))) as T2. pose proof (TI is_rd (Rd (Datatypes.S (Datatypes.S m)))) as T3.
        cbn in T1, T2, T3. exists (c_sh c), (<[i := Rd (Datatypes.S (Datatypes.S m))]> phs). eapply inv_upd; eauto; cbn [ph_ok t_cur t_done calls_of].
        * exists op, k. rewrite app_nil_r. split_and!; auto; lia.
        * constructor; rewrite ?mu_set_same; cbn [m_rd m_wr m_ann]; try lia.
          -- rewrite Mw, !ltb_false by lia. auto.
          -- rewrite ltb_false by lia. auto.
        * now rewrite app_nil_r.
      + destruct (m_rd (c_mu c 1)) eqn:EA; [discriminate|]. injection Es as <- <- <-.
        cbn in D. pose proof (TI is_wr (Rd (Datatypes.S n'))) as T1. pose proof (TI is_ann (Rd (Datatypes.S n'))) as T2. pose proof (TI is_rd (Rd (Datatypes.S n'))) as T3.
        cbn in T1, T2, T3. exists (c_sh c), (<[i := Rd (Datatypes.S n')]> phs). eapply inv_upd; eauto; cbn [ph_ok t_cur t_done calls_of].
        * exists op, k. rewrite app_nil_r. split_and!; auto; lia.
        * constructor; rewrite ?mu_set_same; cbn [m_rd m_wr m_ann]; try lia.
          -- rewrite Mw. f_equal. lia.
          -- rewrite Ma. f_equal. lia.
        * now rewrite app_nil_r.
      + destruct (m_rd (c_mu c 1)) eqn:EA; [discriminate|]. injection Es as <- <- <-.
        cbn in D. pose proof (TI is_wr Fin) as T1. pose proof (TI is_ann Fin) as T2. pose proof (TI is_rd Fin) as T3.
        cbn in T1, T2, T3. exists (c_sh c), (<[i := Fin]> phs). eapply inv_upd; eauto; cbn [ph_ok t_cur t_done calls_of].
        * exists op, r'. rewrite app_nil_r. auto.
        * constructor; rewrite ?mu_set_same; cbn [m_rd m_wr m_ann]; try lia.
          -- rewrite Mw. f_equal. lia.
          -- rewrite Ma. f_equal. lia.
        * now rewrite app_nil_r.
      + destruct (m_rd (c_mu c 1)) eqn:EA; [discriminate|]. injection Es as <- <- <-.
        cbn in D. destruct D as (Hop & D & Hl).
        pose proof (TI is_wr Want) as T1. pose proof (TI is_ann Want) as T2. pose proof (TI is_rd Want) as T3.
        cbn in T1, T2, T3. exists (c_sh c), (<[i := Want]> phs). eapply inv_upd; eauto; cbn [ph_ok t_cur t_done calls_of].
        * exists op, k. rewrite app_nil_r. auto.
        * constructor; rewrite ?mu_set_same; cbn [m_rd m_wr m_ann]; try lia.
          -- rewrite Mw. f_equal. lia.
          -- rewrite Ma. f_equal. lia.
        * now rewrite app_nil_r.
    - (* returning *)
      destruct O as (op & r & O & Hl). unfold thread_step in Es. rewrite O in *. cbn [is_rd] in Hhd. rewrite Hhd in HH. injection Es as <- <- <-.
      pose proof (TI is_wr Idle) as T1. pose proof (TI is_ann Idle) as T2. pose proof (TI is_rd Idle) as T3.
      cbn in T1, T2, T3. exists sl, (<[i := Idle]> phs). eapply inv_upd; eauto; cbn [ph_ok t_cur t_done calls_of].
      + rewrite app_nil_r. auto.
      + constructor; try lia.
        * rewrite Mw. f_equal. lia.
        * rewrite Ma. f_equal. lia.
      + now rewrite app_nil_r.
      + intros. apply Hsh. lia.
  Qed.

  Fixpoint lin_of (c : conf S R Op) (hd : nat -> nat) (sched : list nat) : list event :=
    match sched with
    | [] => []
    | i :: sched' => match conf_step impl c i with None => [] | Some c' => emit c hd i ++ lin_of c' (hold_step c hd i) sched' end
    end.
  Lemma lin_of_prefix c hd s1 s2 : lin_of c hd s1 `prefix_of` lin_of c hd (s1 ++ s2).
  Proof.
    revert c hd. induction s1 as [|i s1 IH]; intros c hd; cbn [lin_of app].
    - apply prefix_nil.
    - destruct (conf_step impl c i); [|done]. now apply prefix_app.
  Qed.
  Lemma inv_init s0 todo : good s0 -> (forall i l, todo !! i = Some l -> Forall (ok i) l) ->
    inv s0 [] s0 (conf_init s0 todo) (fun _ => 0) (replicate (length todo) Idle).
  Proof.
    intros G F.
    assert (Z : forall f, f Idle = 0 -> total f (replicate (length todo) Idle) = 0).
    { intros f E. clear F. induction todo; cbn; auto. lia. }
    constructor; cbn; auto; try constructor.
    - rewrite replicate_length, fmap_length. auto.
    - apply lookup_replicate in H0 as [-> _]. rewrite list_lookup_fmap in H.
      destruct (todo !! i) eqn:E; [|discriminate]. injection H as <-. cbn. auto.
    - apply lookup_replicate in H0 as [-> _]. rewrite list_lookup_fmap in H.
      destruct (todo !! i) eqn:E; [|discriminate]. injection H as <-. cbn. split; eauto.
    - now rewrite (Z is_rd).
    - now rewrite (Z is_wr).
    - now rewrite (Z is_wr), (Z is_ann).
    - rewrite (Z is_wr), (Z is_ann); auto.
    - now rewrite (Z is_rd).
  Qed.
  Lemma inv_exec s0 log sl c hd phs sched c' :
    inv s0 log sl c hd phs -> exec impl c sched = Some c' ->
    exists sl' hd' phs', inv s0 (log ++ lin_of c hd sched) sl' c' hd' phs'.
  Proof.
    revert log sl c hd phs. induction sched as [|i sched IH]; intros log sl c hd phs I E; cbn [exec lin_of] in *.
    - injection E as <-. exists sl, hd, phs. now rewrite app_nil_r.
    - destruct (conf_step impl c i) as [c1|] eqn:Es; [|discriminate].
      destruct (inv_step _ _ _ _ _ _ _ _ I Es) as (sl1 & phs1 & I1).
      destruct (IH _ _ _ _ _ I1 E) as (sl2 & hd2 & phs2 & I2). exists sl2, hd2, phs2. now rewrite app_assoc.
  Qed.
  Theorem sections_linearize s0 todo :
    good s0 -> (forall i l, todo !! i = Some l -> Forall (ok i) l) -> linearization impl call s0 todo.
  Proof.
    intros G F. exists (lin_of (conf_init s0 todo) (fun _ => 0)). split; [intros; apply lin_of_prefix|].
    intros sched c E. destruct (inv_exec _ _ _ _ _ _ _ _ (inv_init s0 todo G F) E) as (sl & hd & phs & I). cbn [app] in I.
    split_and!.
    - exists sl. split; [apply (i_legal _ _ _ _ _ _ I)|]. intros Q. apply (i_sh _ _ _ _ _ _ I).
      destruct (Nat.eq_0_gt_0_cases (total is_wr phs)) as [|P]; auto.
      destruct (total_pos _ _ P) as (i & ph & Ep & Hw).
      destruct (lookup_lt_is_Some_2 (c_ths c) i) as [t Et].
      { rewrite <- (i_len _ _ _ _ _ _ I). by eapply lookup_lt_Some. }
      destruct (i_ths _ _ _ _ _ _ I _ _ _ Et Ep) as [O _]. destruct ph; cbn in Hw; try lia.
      destruct O as (op & b & r & O & _). apply (Forall_lookup_1 _ _ _ _ Q) in Et. congruence.
    - intros i t Et.
      destruct (lookup_lt_is_Some_2 phs i) as [ph Ep].
      { rewrite (i_len _ _ _ _ _ _ I). by eapply lookup_lt_Some. }
      destruct (i_ths _ _ _ _ _ _ I _ _ _ Et Ep) as [O _]. destruct ph; cbn in O.
      + tauto.
      + destruct O as (? & ? & ? & ? & ? & ?). auto.
      + destruct O as (? & ? & ? & ? & ? & ? & ?). auto.
      + destruct O as (? & ? & ? & ? & ? & ? & ?). auto.
      + destruct O as (op & p & r & E1 & _ & _ & E2). right. eauto 6.
      + destruct O as (op & p & E1 & _ & _ & E2). destruct (goes_on p (c_sh c)); [left; tauto|right; eauto 6].
      + destruct O as (op & r & E1 & E2). right. eauto 6.
    - apply (i_out _ _ _ _ _ _ I).
  Qed.
End one.
