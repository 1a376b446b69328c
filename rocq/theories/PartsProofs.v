(** * PartsProofs: proofs about Parts.v *)
From Coq Require Import Permutation.
From Verif Require Import Base Codec Network NetSpec NetworkProofs Ipv8 Ipv8Spec Ipv8Proofs World WorldSpec WorldProofs Compose ComposeProofs.
From Verif Require Import Parts PartsSpec.
Open Scope nat_scope.

Notation ptrace := (list (plabel * list event)).
Lemma parts_events_app a b : parts_events (a ++ b) = parts_events a ++ parts_events b.
Proof. apply flat_map_app. Qed.

Definition waits (e : endpoint) : Prop := exists n q, e = Waiting n q.
Definition sends (e : endpoint) : Prop := exists q, e = Sending q.
Definition listens (e : endpoint) : Prop := exists c s, e = Listening c s /\ is_open e = true.
Definition at_slot (h : nat) (w : world) (k : nat) (P : endpoint -> Prop) : Prop :=
  exists a e, nth_error (w_sockets w) k = Some {| sk_host := h; sk_address := a; sk_end := e |} /\ P e.
Definition kind_ok (h : nat) (w : world) (x : holding) : Prop :=
  match x with
  | Receiver r => at_slot h w r waits
  | Sender s => at_slot h w s sends
  | Value _ r s => at_slot h w r waits /\ at_slot h w s sends
  | Listener r => at_slot h w r listens
  end.
Definition socks (l : list holding) : list nat := flat_map sockets_in l.
Definition started_by (tr : ptrace) (r : nat) : Prop :=
  exists l evs cfg, In (l, evs) tr /\ In (WStart r cfg) evs /\ ((exists s, l = PStart cfg r s) \/ l = PStartReceiver r cfg).

Record pinv (h : nat) (tr : ptrace) (p : program) : Prop := {
  pv_nodup : NoDup (socks (pp_holds p));
  pv_kind : forall x, In x (pp_holds p) -> kind_ok h (pp_world p) x;
  pv_started : forall r, In (Listener r) (pp_holds p) -> started_by tr r;
  pv_made : forall l evs k, In (l, evs) tr -> l <> POther -> made evs k -> In k (socks (pp_holds p)) \/ closed_in (pp_world p) k }.

Lemma parts_world T h p l evs p' : parts_step T h p l evs p' -> wrun T (pp_world p) evs (pp_world p').
Proof. intros S. destruct S; cbn; auto using wrun_one; constructor. Qed.
Lemma parts_run_world T h p tr p' : parts_run T h p tr p' -> wrun T (pp_world p) (parts_events tr) (pp_world p').
Proof.
  intros R. induction R as [p|p tr p1 l evs p2 R IH S]; [constructor|]. rewrite parts_events_app. cbn. rewrite app_nil_r.
  eapply wrun_app; [exact IH|]. eapply parts_world; exact S.
Qed.

Lemma at_slot_kept T h w k P b w' : at_slot h w k P -> wrun T w b w' -> Forall (fun e => ~ touches k e) b ->
  (forall e e', same_end e e' -> P e -> P e') -> at_slot h w' k P.
Proof.
  intros (a & e & H & Pe) R F M. destruct (kept_run _ _ _ _ R _ _ H F) as ([h' a' e'] & H' & A & B & C). cbn in *. subst.
  exists a', e'. split; [exact H'|]. eapply M; eassumption.
Qed.
Lemma waits_same e e' : same_end e e' -> waits e -> waits e'.
Proof. intros S (n & q & ->). destruct e'; cbn in S; try contradiction. unfold waits. eauto. Qed.
Lemma sends_same e e' : same_end e e' -> sends e -> sends e'.
Proof. intros S (q & ->). destruct e'; cbn in S; try contradiction. unfold sends. eauto. Qed.
Lemma listens_same e e' : same_end e e' -> listens e -> listens e'.
Proof. intros S (c & s & -> & O). destruct e'; cbn -[is_open] in S; try contradiction. destruct S as [-> S]. unfold listens. rewrite S in O. eauto. Qed.
Lemma kind_kept T h w b w' x : kind_ok h w x -> wrun T w b w' -> (forall k, In k (sockets_in x) -> Forall (fun e => ~ touches k e) b) -> kind_ok h w' x.
Proof.
  intros K R F. destruct x; cbn in *.
  - eapply at_slot_kept; eauto using waits_same.
  - eapply at_slot_kept; eauto using sends_same.
  - destruct K. split; eapply at_slot_kept; eauto using waits_same, sends_same.
  - eapply at_slot_kept; eauto using listens_same.
Qed.
Lemma at_slot_below h w k P : at_slot h w k P -> k < length (w_sockets w).
Proof. intros (a & e & H & _). apply nth_error_Some. congruence. Qed.
Lemma kind_below h w x k : kind_ok h w x -> In k (sockets_in x) -> k < length (w_sockets w).
Proof.
  destruct x; cbn; [intros K [<-|[]]|intros K [<-|[]]|intros [K1 K2] [<-|[<-|[]]]|intros K [<-|[]]]; eauto using at_slot_below.
Qed.
Lemma in_socks l k : In k (socks l) <-> exists x, In x l /\ In k (sockets_in x).
Proof. unfold socks. apply in_flat_map. Qed.
Lemma socks_app a b : socks (a ++ b) = socks a ++ socks b.
Proof. apply flat_map_app. Qed.
Lemma socks_perm a b : Permutation a b -> Permutation (socks a) (socks b).
Proof. apply Permutation_flat_map. Qed.
Lemma nodup_parts {A} (a b : list A) : NoDup (a ++ b) -> NoDup a /\ NoDup b /\ forall x, In x a -> ~ In x b.
Proof.
  induction a as [|x a IH]; cbn; [intros; split; [constructor|split; [assumption|tauto]]|].
  intros N. inversion N as [|? ? X Y]; subst. destruct (IH Y) as (P & Q & R). split; [|split; [exact Q|]].
  - constructor; [|exact P]. intros I. apply X, in_app_iff. now left.
  - intros y [<-|I]; [|auto]. intros I. apply X, in_app_iff. now right.
Qed.
Lemma nodup_join {A} (a b : list A) : NoDup a -> NoDup b -> (forall x, In x a -> ~ In x b) -> NoDup (a ++ b).
Proof.
  induction a as [|x a IH]; cbn; [auto|]. intros N M D. inversion N; subst. constructor.
  - rewrite in_app_iff. intros [I|I]; [contradiction|]. eapply D; [now left|exact I].
  - apply IH; auto.
Qed.

(** One step of any kind: it takes [taken], touches the sockets of these and new ones only, and puts [given] in their place. *)
Lemma assemble T h tr p l evs w' once pool taken given rest :
  pinv h tr p -> Permutation (pp_holds p) (taken ++ rest) -> wrun T (pp_world p) evs w' ->
  (forall k e, In e evs -> touches k e -> ~ In k (socks rest)) ->
  (forall x, In x given -> kind_ok h w' x) ->
  NoDup (socks given) -> (forall k, In k (socks given) -> In k (socks taken) \/ length (w_sockets (pp_world p)) <= k) ->
  (forall k, In k (socks taken) -> In k (socks given) \/ closed_in w' k) ->
  (forall k, l <> POther -> made evs k -> In k (socks given) \/ closed_in w' k) ->
  (forall r, In (Listener r) given -> In (Listener r) taken \/ started_by [(l, evs)] r) ->
  pinv h (tr ++ [(l, evs)]) {| pp_world := w'; pp_holds := given ++ rest; pp_once := once; pp_pool := pool |}.
Proof.
  intros [N K ST M] PE R TO GK GN GS TC MA LI.
  assert (N' : NoDup (socks taken ++ socks rest)) by (rewrite <- socks_app; eapply Permutation_NoDup; [apply socks_perm; exact PE|exact N]).
  apply nodup_parts in N' as (NT & NR & ND).
  assert (IN : forall x, In x rest -> In x (pp_holds p)) by (intros x I; eapply Permutation_in; [symmetry; exact PE|apply in_app_iff; auto]).
  assert (INT : forall x, In x taken -> In x (pp_holds p)) by (intros x I; eapply Permutation_in; [symmetry; exact PE|apply in_app_iff; auto]).
  constructor; cbn [pp_holds pp_world].
  - rewrite socks_app. apply nodup_join; [exact GN|exact NR|]. intros k I J. destruct (GS k I) as [Q|Q]; [exact (ND k Q J)|].
    apply in_socks in J as (x & X & Y). pose proof (kind_below _ _ _ _ (K x (IN x X)) Y). lia.
  - intros x I. apply in_app_iff in I as [I|I]; [auto|]. eapply kind_kept; [apply K, IN, I|exact R|].
    intros k J. apply Forall_forall. intros e E TE. apply (TO k e E TE). apply in_socks. eauto.
  - intros r I. apply in_app_iff in I as [I|I].
    + destruct (LI r I) as [Q|(l' & evs' & cfg & A & B)]; [|exists l', evs', cfg; split; [apply in_app_iff; now right|exact B]].
      destruct (ST r (INT _ Q)) as (l' & evs' & cfg & A & B). exists l', evs', cfg. split; [apply in_app_iff; now left|exact B].
    + destruct (ST r (IN _ I)) as (l' & evs' & cfg & A & B). exists l', evs', cfg. split; [apply in_app_iff; now left|exact B].
  - intros l' evs' k I NO MD. rewrite socks_app. apply in_app_iff in I as [I|[I|[]]].
    + destruct (M _ _ _ I NO MD) as [Q|(s & H & O)].
      * apply (Permutation_in _ (socks_perm _ _ PE)) in Q. rewrite socks_app in Q. apply in_app_iff in Q as [Q|Q].
        -- destruct (TC k Q); [left; apply in_app_iff|]; auto.
        -- left. apply in_app_iff. auto.
      * right. exact (closed_kept_run _ _ _ _ R _ _ H O).
    + injection I as -> ->. destruct (MA k NO MD); [left; apply in_app_iff|]; auto.
Qed.

Lemma new_slot w h a e k (P : endpoint -> Prop) : k = length (w_sockets w) -> P e -> at_slot h (add_socket w h a e) k P.
Proof. intros -> Pe. exists a, e. split; [|exact Pe]. cbn. rewrite nth_error_app2, Nat.sub_diag by lia. reflexivity. Qed.
Lemma changed_slot h w k s e (P : endpoint -> Prop) : nth_error (w_sockets w) k = Some s -> sk_host s = h -> P e -> at_slot h (set_end w k s e) k P.
Proof. intros H <- Pe. exists (sk_address s), e. split; [|exact Pe]. rewrite (set_end_same _ _ _ _ H). reflexivity. Qed.
Lemma closed_slot w k s : nth_error (w_sockets w) k = Some s -> closed_in (set_end w k s Closed) k.
Proof. intros H. exists (with_end s Closed). split; [now apply set_end_same|reflexivity]. Qed.
Lemma add_inv T w k w' : wstep T w (WAddReceiver k) w' -> exists s n q, nth_error (w_sockets w) k = Some s /\ sk_end s = Waiting n q /\ w' = set_end w k s (Waiting (S n) q).
Proof. intros S. inversion S; subst. eauto 6. Qed.
Lemma start_inv T w k cfg w' : wstep T w (WStart k cfg) w' -> exists s n q, nth_error (w_sockets w) k = Some s /\ sk_end s = Waiting n q /\
  w' = set_end w k s (Listening (listen_config cfg n) (net_init (listen_config cfg n) q)).
Proof. intros S. inversion S; subst. eauto 6. Qed.
Lemma fails_inv T w h a e w' : wstep T w (WBindFails h a e) w' -> w' = w.
Proof. intros S. now inversion S. Qed.
Lemma send_inv T w k p m w' : wstep T w (WSend k p m) w' -> w' = put w m.
Proof. intros S. now inversion S. Qed.
Lemma send_fails_inv T w k p d e w' : wstep T w (WSendFails k p d e) w' -> w' = w.
Proof. intros S. now inversion S. Qed.
Lemma other_slot h w j s e k P : j <> k -> at_slot h w k P -> at_slot h (set_end w j s e) k P.
Proof. intros N (a & e' & H & Q). exists a, e'. split; [|exact Q]. cbn. rewrite nth_error_set_nth. destruct (Nat.eqb_spec j k); [contradiction|exact H]. Qed.
Lemma listens_new cfg n q : listens (Listening (listen_config cfg n) (net_init (listen_config cfg n) q)).
Proof. unfold listens. eexists _, _. split; [reflexivity|]. reflexivity. Qed.
Lemma not_made_fails h a e k : ~ made [WBindFails h a e] k.
Proof. intros (h' & b & b' & [[X|[]]|[X|[]]]); discriminate. Qed.

Ltac no_made := match goal with MD : made _ _ |- _ => exfalso; destruct MD as (? & ? & ? & [MD|MD]); cbn in MD; intuition discriminate end.

Lemma uses_pinv T h tr p l taken evs given rest w' : pinv h tr p ->
  uses h (length (w_sockets (pp_world p))) l taken evs given -> Permutation (pp_holds p) (taken ++ rest) ->
  wrun T (pp_world p) evs w' ->
  pinv h (tr ++ [(l, evs)]) {| pp_world := w'; pp_holds := given ++ rest; pp_once := pp_once p; pp_pool := pp_pool p |}.
Proof.
  intros I U PE R.
  assert (ND : NoDup (socks taken ++ socks rest)) by (rewrite <- socks_app; eapply Permutation_NoDup; [apply socks_perm; exact PE|apply I]).
  apply nodup_parts in ND as (NT & _ & DJ).
  assert (KT : forall x, In x taken -> kind_ok h (pp_world p) x)
    by (intros x X; apply (pv_kind _ _ _ I); eapply Permutation_in; [symmetry; exact PE|apply in_app_iff; auto]).
  assert (TO : forall k e, In e evs -> touches k e -> In k (socks taken)).
  { intros k e E TE. destruct U; cbn in E; try (destruct E as [<-|E]); try (destruct E as [<-|E]); try contradiction; cbn in TE; subst; cbn; auto.
    destruct x as [a|a|c a b|a]; cbn in E; repeat destruct E as [<-|E]; try contradiction; cbn in *; auto. }
  eapply assemble; [exact I|exact PE|exact R|intros k e E TE J; exact (DJ k (TO k e E TE) J)|..]; clear TO.
  - (* kinds *)
    intros x X. destruct U; cbn in X; repeat destruct X as [<-|X]; try contradiction; cbn [kind_ok].
    + apply wrun_cons_inv in R as (w1 & S & R). apply wrun_nil_inv in R. subst. apply bind_receiver_inv in S as (_ & _ & ->). apply new_slot; [reflexivity|now exists 0, []].
    + apply wrun_cons_inv in R as (w1 & S & R). apply wrun_nil_inv in R. subst. apply bind_sender_inv in S as (_ & _ & ->). apply new_slot; [reflexivity|now exists []].
    + apply wrun_nil_inv in R. subst. exact (proj1 (KT _ (or_introl eq_refl))).
    + apply wrun_nil_inv in R. subst. exact (proj2 (KT _ (or_introl eq_refl))).
    + apply wrun_nil_inv in R. subst. split; [exact (KT _ (or_introl eq_refl))|exact (KT _ (or_intror (or_introl eq_refl)))].
    + destruct (KT _ (or_introl eq_refl)) as (a & e & H & _).
      apply wrun_cons_inv in R as (w1 & S & R). apply wrun_nil_inv in R. subst. apply add_inv in S as (s1 & n & q & H1 & E & ->).
      rewrite H in H1. injection H1 as <-. eapply changed_slot; [exact H|reflexivity|]. unfold waits. eauto.
    + destruct (KT _ (or_introl eq_refl)) as ((a & e & H & _) & KS).
      apply wrun_cons_inv in R as (w1 & S & R). apply wrun_nil_inv in R. subst. apply add_inv in S as (s1 & n & q & H1 & E & ->).
      rewrite H in H1. injection H1 as <-. split; [eapply changed_slot; [exact H|reflexivity|]; unfold waits; eauto|].
      apply other_slot; [|exact KS]. intros ->. inversion NT as [|? ? Z _]; subst. apply Z. now left.
    + destruct (KT _ (or_introl eq_refl)) as ((a & e & H & _) & (b & e2 & H2 & _)).
      apply wrun_cons_inv in R as (w1 & S & R). apply start_inv in S as (s1 & n & q & H1 & E & ->). rewrite H in H1. injection H1 as <-.
      apply wrun_cons_inv in R as (w2 & S & R). apply wrun_nil_inv in R. subst. apply close_inv in S as (s2 & _ & _ & ->).
      apply other_slot; [intros ->; inversion NT as [|? ? Z _]; subst; apply Z; now left|]. eapply changed_slot; [exact H|reflexivity|apply listens_new].
    + destruct (KT _ (or_introl eq_refl)) as (a & e & H & _).
      apply wrun_cons_inv in R as (w1 & S & R). apply wrun_nil_inv in R. subst. apply start_inv in S as (s1 & n & q & H1 & E & ->). rewrite H in H1. injection H1 as <-.
      eapply changed_slot; [exact H|reflexivity|apply listens_new].
    + apply wrun_cons_inv in R as (w1 & S & R). apply wrun_nil_inv in R. subst. apply send_inv in S as ->. exact (KT _ (or_introl eq_refl)).
    + apply wrun_cons_inv in R as (w1 & S & R). apply wrun_nil_inv in R. subst. apply send_inv in S as ->. exact (KT _ (or_introl eq_refl)).
    + apply wrun_cons_inv in R as (w1 & S & R). apply wrun_nil_inv in R. subst. apply send_fails_inv in S as ->. exact (KT _ (or_introl eq_refl)).
    + apply wrun_cons_inv in R as (w1 & S & R). apply wrun_nil_inv in R. subst. apply send_fails_inv in S as ->. exact (KT _ (or_introl eq_refl)).
  - (* distinct *)
    destruct U; cbn in *; try exact NT; try (constructor; [tauto|constructor]); try constructor.
  - (* new or taken *)
    intros k K. destruct U; cbn in *; intuition (subst; auto).
  - (* kept or closed *)
    intros k K. destruct U; cbn in *; try (left; tauto).
    + destruct K as [<-|[<-|[]]]; [left; auto|]. right. apply wrun_cons_inv in R as (w1 & _ & R).
      apply wrun_cons_inv in R as (w2 & S & R). apply wrun_nil_inv in R. subst. apply close_inv in S as (s2 & H2 & _ & ->). now apply (closed_slot _ _ s2).
    + right. destruct x as [r|r|cfg r s|r]; cbn in K, R; [| | |exfalso; now apply (H r)].
      * destruct K as [<-|[]]. apply wrun_cons_inv in R as (w2 & S & R). apply wrun_nil_inv in R. subst. apply close_inv in S as (s2 & H2 & _ & ->). now apply (closed_slot _ _ s2).
      * destruct K as [<-|[]]. apply wrun_cons_inv in R as (w2 & S & R). apply wrun_nil_inv in R. subst. apply close_inv in S as (s2 & H2 & _ & ->). now apply (closed_slot _ _ s2).
      * apply wrun_cons_inv in R as (w1 & S1 & R). apply wrun_cons_inv in R as (w2 & S & R). apply wrun_nil_inv in R. subst.
        apply close_inv in S1 as (s1 & H1 & _ & ->). destruct (close_inv _ _ _ _ S) as (s2 & H2 & _ & ->).
        destruct K as [<-|[<-|[]]]; [|now apply (closed_slot _ _ s2)].
        destruct (closed_slot _ _ _ H1) as (y & Y & O). exact (closed_kept_run _ _ _ _ (wrun_one _ _ _ _ S) _ _ Y O).
  - (* made *)
    intros k NO (h' & a & b & MD). destruct U; cbn in MD; try (exfalso; intuition discriminate).
    + left. destruct MD as [[E|[]]|[E|[]]]; [|discriminate]. injection E as -> _ _ _. now left.
    + left. destruct MD as [[E|[]]|[E|[]]]; [discriminate|]. injection E as -> _ _ _. now left.
    + exfalso. destruct x as [r|r|cfg r s|r]; cbn in MD; intuition discriminate.
  - (* listeners *)
    intros r K. destruct U; cbn in K; try (exfalso; intuition discriminate).
    + destruct K as [E|[]]. injection E as ->. right. exists (PStart cfg r s), [WStart r cfg; WClose s], cfg. cbn. split; [auto|]. split; [auto|]. left. now exists s.
    + destruct K as [E|[]]. injection E as ->. right. exists (PStartReceiver r cfg), [WStart r cfg], cfg. cbn. auto.
Qed.

Lemma nothing_changes T h tr p l evs w' once pool : pinv h tr p -> wrun T (pp_world p) evs w' ->
  (forall k e, In e evs -> touches k e -> ~ In k (socks (pp_holds p))) -> (forall k, l <> POther -> made evs k -> closed_in w' k) ->
  pinv h (tr ++ [(l, evs)]) {| pp_world := w'; pp_holds := pp_holds p; pp_once := once; pp_pool := pool |}.
Proof.
  intros I R TO MD. apply (assemble T h tr p l evs w' once pool [] [] (pp_holds p)); auto; cbn; try contradiction; try constructor.
Qed.
Lemma step_pinv T h tr p l evs p' : pinv h tr p -> parts_step T h p l evs p' -> pinv h (tr ++ [(l, evs)]) p'.
Proof.
  intros I S. destruct S as [p l taken evs given rest w' U PE R|p cfg e pool' SU|p cfg pool' evs r w' SU B R|p k l n w' s rest pool' PE S H D|p n E|p e w' EL S].
  - eapply uses_pinv; eassumption.
  - eapply (nothing_changes T); [exact I|constructor|intros k x []|]. intros k _ (h' & a & b & [[]|[]]).
  - assert (ND : forall k, In k (socks (pp_holds p)) -> k < length (w_sockets (pp_world p))).
    { intros k K. apply in_socks in K as (x & X & Y). exact (kind_below _ _ _ _ (pv_kind _ _ _ I x X) Y). }
    destruct B as [a b|e NE|a e NE].
    + apply (assemble T h tr p _ _ w' true pool' [] [Value cfg (length (w_sockets (pp_world p))) (S (length (w_sockets (pp_world p))))] (pp_holds p)); auto.
      * intros k e [<-|[<-|[]]] [].
      * intros x [<-|[]]. apply wrun_cons_inv in R as (w1 & S1 & R). apply wrun_cons_inv in R as (w2 & S2 & R). apply wrun_nil_inv in R. subst.
        apply bind_receiver_inv in S1 as (_ & _ & ->). apply bind_sender_inv in S2 as (_ & _ & ->). split.
        -- assert (X : at_slot h (add_socket (pp_world p) h a (Waiting 0 [])) (length (w_sockets (pp_world p))) waits) by (apply new_slot; [reflexivity|now exists 0, []]).
           destruct X as (a' & e' & X & Q). exists a', e'. split; [|exact Q]. cbn in *. rewrite nth_error_app1; [exact X|]. rewrite app_length. cbn. lia.
        -- apply new_slot; [|now exists []]. cbn. rewrite app_length. cbn. lia.
      * cbn. constructor; [intros [X|[]]; lia|]. constructor; [tauto|constructor].
      * cbn. intros k K. right. lia.
      * cbn. tauto.
      * intros k _ (h' & x & y & MD). left. cbn in *. destruct MD as [[E|[E|[]]]|[E|[E|[]]]]; try discriminate; injection E as -> _ _ _; auto.
      * intros r [X|[]]. discriminate.
    + eapply (nothing_changes T); [exact I|exact R|intros k x [<-|[]] []|]. intros k _ MD. destruct (not_made_fails _ _ _ _ MD).
    + eapply (nothing_changes T); [exact I|exact R| |].
      * intros k x [<-|[<-|[<-|[]]]]; cbn; try tauto. intros <- K. apply ND in K. lia.
      * intros k _ (h' & x & y & MD). cbn in MD. destruct MD as [[E|[E|[E|[]]]]|[E|[E|[E|[]]]]]; try discriminate. injection E as <- _ _ _.
        apply wrun_cons_inv in R as (w1 & S1 & R). apply wrun_cons_inv in R as (w2 & S2 & R). apply wrun_cons_inv in R as (w3 & S3 & R). apply wrun_nil_inv in R. subst.
        apply close_inv in S3 as (s & H & _ & ->). now apply (closed_slot _ _ s).
  - assert (K : kind_ok h (pp_world p) (Listener k)) by (apply (pv_kind _ _ _ I); eapply Permutation_in; [symmetry; exact PE|now left]).
    assert (ND : NoDup (k :: socks rest)) by (eapply Permutation_NoDup; [apply (socks_perm _ _ PE)|apply I]). inversion ND as [|? ? NI _]; subst.
    destruct K as (a & e & H0 & c & m & -> & O). destruct (listener_inv _ _ _ _ _ S) as (s0 & c0 & n0 & n' & H1 & E & ST & EQ).
    rewrite H0 in H1. injection H1 as <-. cbn in E. injection E as <- <-. subst w'. rewrite (set_end_same _ _ _ _ H0) in H. injection H as <-.
    cbn [with_end sk_end].
    apply (assemble T h tr p _ _ _ (pp_once p) pool' [Listener k] (if is_open (Listening c n') then [Listener k] else []) rest); auto.
    + apply wrun_one. exact S.
    + intros k' x [<-|[]] <-. exact NI.
    + intros x X. destruct (is_open (Listening c n')) eqn:OP; [|contradiction]. destruct X as [<-|[]]. eapply changed_slot; [exact H0|reflexivity|].
      unfold listens. eauto.
    + destruct (is_open (Listening c n')); cbn; repeat constructor. tauto.
    + intros k'. destruct (is_open (Listening c n')); cbn; tauto.
    + intros k' [<-|[]]. destruct (is_open (Listening c n')) eqn:OP; [left; now left|]. right. eexists. split; [now apply set_end_same|exact OP].
    + intros k' _ MD. no_made.
    + intros r X. left. destruct (is_open (Listening c n')); [exact X|contradiction].
  - eapply (nothing_changes T); [exact I|constructor|intros k x []|]. intros k _ (h' & a & b & [[]|[]]).
  - eapply (nothing_changes T); [exact I|apply wrun_one; exact S| |congruence].
    intros k x [<-|[]] TE. destruct e; cbn in *; try contradiction; subst; exact EL.
Qed.
Lemma pinv_run T h tr p : parts_run T h program_init tr p -> pinv h tr p.
Proof.
  intros R. remember program_init as p0 eqn:E. induction R as [p|p tr p1 l evs p2 R IH S]; subst.
  - constructor; cbn; [constructor|intros x []|intros r []|intros l evs k []].
  - eapply (step_pinv T); [apply IH; reflexivity|exact S].
Qed.

(** *** What each socket was made for *)
Definition made_receiver (h : nat) (tr : ptrace) (r : nat) : Prop := exists a b l evs, In (l, evs) tr /\ In (WBindReceiver r h a b) evs /\
  (l = PNewReceiver a (Ok r) \/ exists cfg s, l = PNew cfg (Ok (r, s)) /\ a = cf_receiving_address cfg).
Definition made_sender (h : nat) (tr : ptrace) (s : nat) : Prop := exists a b l evs, In (l, evs) tr /\ In (WBindSender s h a b) evs /\
  (l = PNewSender a (Ok s) \/ exists cfg r, l = PNew cfg (Ok (r, s)) /\ a = cf_sending_address cfg).
Definition made_for (h : nat) (tr : ptrace) (x : holding) : Prop :=
  match x with
  | Receiver r | Listener r => made_receiver h tr r
  | Sender s => made_sender h tr s
  | Value _ r s => made_receiver h tr r /\ made_sender h tr s
  end.
Lemma made_for_app h tr y x : made_for h tr x -> made_for h (tr ++ y) x.
Proof.
  assert (A : forall r, made_receiver h tr r -> made_receiver h (tr ++ y) r)
    by (intros r (a & b & l & evs & I & Q); exists a, b, l, evs; split; [apply in_app_iff; auto|exact Q]).
  assert (B : forall r, made_sender h tr r -> made_sender h (tr ++ y) r)
    by (intros r (a & b & l & evs & I & Q); exists a, b, l, evs; split; [apply in_app_iff; auto|exact Q]).
  destruct x; cbn; intuition auto.
Qed.
Lemma made_for_run T h tr p : parts_run T h program_init tr p -> forall x, In x (pp_holds p) -> made_for h tr x.
Proof.
  intros R. remember program_init as p0 eqn:E0. induction R as [p|p tr p1 l evs p2 R IH S]; subst; [intros x []|]. specialize (IH eq_refl). intros x X.
  destruct S as [p l taken evs given rest w' U PE W|p cfg e pool' SU|p cfg pool' evs r w' SU B W|p k l n w' s rest pool' PE S H D|p n E|p e w' EL S]; cbn [pp_holds] in X.
  - assert (IT : forall y, In y taken -> made_for h (tr ++ [(l, evs)]) y)
      by (intros y Y; apply made_for_app, IH; eapply Permutation_in; [symmetry; exact PE|apply in_app_iff; auto]).
    apply in_app_iff in X as [X|X]; [|apply made_for_app, IH; eapply Permutation_in; [symmetry; exact PE|apply in_app_iff; auto]].
    destruct U; cbn in X; repeat destruct X as [<-|X]; try contradiction; cbn [made_for].
    + exists a, b. eexists _, _. split; [apply in_app_iff; right; left; reflexivity|]. split; [now left|now left].
    + exists a, b. eexists _, _. split; [apply in_app_iff; right; left; reflexivity|]. split; [now left|now left].
    + exact (proj1 (IT _ (or_introl eq_refl))).
    + exact (proj2 (IT _ (or_introl eq_refl))).
    + split; [exact (IT _ (or_introl eq_refl))|exact (IT _ (or_intror (or_introl eq_refl)))].
    + exact (IT _ (or_introl eq_refl)).
    + exact (IT _ (or_introl eq_refl)).
    + exact (proj1 (IT _ (or_introl eq_refl))).
    + exact (IT _ (or_introl eq_refl)).
    + exact (IT _ (or_introl eq_refl)).
    + exact (IT _ (or_introl eq_refl)).
    + exact (IT _ (or_introl eq_refl)).
    + exact (IT _ (or_introl eq_refl)).
  - apply made_for_app, IH, X.
  - apply in_app_iff in X as [X|X]; [|apply made_for_app, IH, X].
    destruct B as [a b|e NE|a e NE]; try contradiction. destruct X as [<-|[]]. split.
    + exists (cf_receiving_address cfg), a. eexists _, _. split; [apply in_app_iff; right; left; reflexivity|]. split; [now left|]. right. eauto.
    + exists (cf_sending_address cfg), b. eexists _, _. split; [apply in_app_iff; right; left; reflexivity|]. split; [right; now left|]. right. eauto.
  - apply made_for_app. apply in_app_iff in X as [X|X].
    + destruct (is_open (sk_end s)); [|contradiction]. destruct X as [<-|[]]. apply IH. eapply Permutation_in; [symmetry; exact PE|now left].
    + apply IH. eapply Permutation_in; [symmetry; exact PE|now right].
  - apply made_for_app, IH, X.
  - apply made_for_app, IH, X.
Qed.
Lemma in_parts (e : event) l evs (tr : ptrace) : In (l, evs) tr -> In e evs -> In e (parts_events tr).
Proof. intros A B. unfold parts_events. apply in_flat_map. now exists (l, evs). Qed.
Lemma receiver_made_at T h tr p r a b : parts_run T h program_init tr p -> made_receiver h tr r -> In (WBindReceiver r h a b) (parts_events tr) ->
  receiver_made h tr r a b.
Proof.
  intros R (a' & b' & l & evs & A & B & C) H. pose proof (parts_run_world _ _ _ _ _ R) as W.
  pose proof (bind_unique _ _ _ r _ _ W (in_parts _ _ _ _ A B) H (Nat.eqb_refl r) (Nat.eqb_refl r)) as E. injection E as <- <-.
  split; [eauto 6|]. exact (bound_as_requested _ _ _ r h _ _ W (or_intror H)).
Qed.
Lemma sender_made_at T h tr p r a b : parts_run T h program_init tr p -> made_sender h tr r -> In (WBindSender r h a b) (parts_events tr) ->
  sender_made h tr r a b.
Proof.
  intros R (a' & b' & l & evs & A & B & C) H. pose proof (parts_run_world _ _ _ _ _ R) as W.
  pose proof (bind_unique _ _ _ r _ _ W (in_parts _ _ _ _ A B) H (Nat.eqb_refl r) (Nat.eqb_refl r)) as E. injection E as <- <-.
  split; [eauto 6|]. exact (bound_as_requested _ _ _ r h _ _ W (or_introl H)).
Qed.

(** ** C142 *)
(** C142. However the parts were made, taken apart and put together: no socket is held twice; a receiver, also one inside a value, is a waiting socket with the receivers
    that were added to it, a sender is one that can send, and both are bound as was asked for when they were made. *)
Lemma p_C142_sockets :
  forall (T : topology) (h : nat) (tr : list (plabel * list event)) (p : program),
    parts_run T h program_init tr p ->
    NoDup (flat_map sockets_in (pp_holds p)) /\
    (forall r, In (Receiver r) (pp_holds p) \/ (exists cfg s, In (Value cfg r s) (pp_holds p)) ->
       exists a b q, receiver_made h tr r a b /\
         nth_error (w_sockets (pp_world p)) r = Some {| sk_host := h; sk_address := b; sk_end := Waiting (added r (parts_events tr)) q |}) /\
    (forall s, In (Sender s) (pp_holds p) \/ (exists cfg r, In (Value cfg r s) (pp_holds p)) ->
       exists a b q, sender_made h tr s a b /\
         nth_error (w_sockets (pp_world p)) s = Some {| sk_host := h; sk_address := b; sk_end := Sending q |}).
Proof.
  intros T h tr p R. pose proof (pinv_run _ _ _ _ R) as I. pose proof (parts_run_world _ _ _ _ _ R) as W. destruct (world_inv_run _ _ _ W) as (_ & J & _).
  split; [exact (pv_nodup _ _ _ I)|split].
  - intros r V. assert (A : at_slot h (pp_world p) r waits).
    { destruct V as [V|(cfg & s & V)]; [exact (pv_kind _ _ _ I _ V)|exact (proj1 (pv_kind _ _ _ I _ V))]. }
    assert (M : made_receiver h tr r).
    { destruct V as [V|(cfg & s & V)]; [exact (made_for_run _ _ _ _ R _ V)|exact (proj1 (made_for_run _ _ _ _ R _ V))]. }
    destruct A as (b & e & H & n & q & ->). specialize (J _ _ H). cbn in J. destruct J as (_ & _ & _ & -> & _ & _ & a & B). eauto 6 using receiver_made_at.
  - intros s V. assert (A : at_slot h (pp_world p) s sends).
    { destruct V as [V|(cfg & r & V)]; [exact (pv_kind _ _ _ I _ V)|exact (proj2 (pv_kind _ _ _ I _ V))]. }
    assert (M : made_sender h tr s).
    { destruct V as [V|(cfg & r & V)]; [exact (made_for_run _ _ _ _ R _ V)|exact (proj2 (made_for_run _ _ _ _ R _ V))]. }
    destruct A as (b & e & H & q & ->). specialize (J _ _ H). cbn in J. destruct J as (_ & _ & _ & _ & _ & a & B). eauto 6 using sender_made_at.
Qed.

(** C142. Nothing leaks: a socket bound in any call - also of one that failed - is closed or held by the program. *)
Lemma p_C142_no_leaks :
  forall (T : topology) (h : nat) (tr : list (plabel * list event)) (p : program) (k : nat),
    parts_run T h program_init tr p -> binds tr k ->
    (forall x y, ~ open_at (pp_world p) k x y) \/ exists x, In x (pp_holds p) /\ In k (sockets_in x).
Proof.
  intros T h tr p k R (l & evs & h' & a & b & J & NO & B).
  destruct (pv_made _ _ _ (pinv_run _ _ _ _ R) l evs k J NO) as [Q|(s & H & O)]; [exists h', a, b; exact B| |].
  - right. now apply in_socks.
  - left. intros x y (e & H' & O'). rewrite H in H'. injection H' as ->. cbn -[is_open] in O. congruence.
Qed.

(** C142. A listener runs with the configuration that was handed to the call that started it - the value's at that moment, or the one given to the receiver's [start] -
    whatever the sockets were made with; and every receiver that was added has been called with exactly the datagrams received so far, in order, cut to that buffer size. *)
Lemma p_C142_listeners :
  forall (T : topology) (h : nat) (tr : list (plabel * list event)) (p : program) (r : nat),
    parts_run T h program_init tr p -> In (Listener r) (pp_holds p) ->
    exists (a b : address) (c : net_config) (s : net_state) (cfg : config) (l : plabel) (evs : list event),
      receiver_made h tr r a b /\
      nth_error (w_sockets (pp_world p)) r = Some {| sk_host := h; sk_address := b; sk_end := Listening c s |} /\
      (forall why, ns_pc s <> Stopped why) /\
      In (l, evs) tr /\ ((exists k, l = PStart cfg r k) \/ l = PStartReceiver r cfg) /\
      configured_as c cfg (added r (parts_events tr)) /\
      (forall i, i < added r (parts_events tr) -> between_datagrams s ->
         calls i (trace_at r (parts_events tr)) =
         map (fun d => (firstn (cf_buffersize cfg) (fst d), snd d))
             (firstn (recvs (trace_at r (parts_events tr))) (delivered r (parts_events tr)))).
Proof.
  intros T h tr p r R L. pose proof (pinv_run _ _ _ _ R) as I. pose proof (parts_run_world _ _ _ _ _ R) as W. destruct (world_inv_run _ _ _ W) as (_ & J & _).
  destruct (pv_kind _ _ _ I _ L) as (b & e & H & c & s & -> & O). specialize (J _ _ H). cbn in J. destruct J as (J1 & _ & (a & B) & cfg & J4 & J5 & J6).
  destruct (pv_started _ _ _ I r L) as (l & evs & cfg' & M & S & LB).
  assert (E : cfg' = cfg) by (apply J6; unfold parts_events; apply in_flat_map; exists (l, evs); auto). subst cfg'.
  exists a, b, c, s, cfg, l, evs. split; [exact (receiver_made_at _ _ _ _ _ _ _ R (made_for_run _ _ _ _ R _ L) B)|]. split; [exact H|]. split; [intros why Q; cbn in O; rewrite Q in O; discriminate|].
  split; [exact M|]. split; [exact LB|]. split.
  { rewrite J4. split; [reflexivity|]. split; [reflexivity|]. cbn. destruct (cf_pollinterval _); split; congruence. }
  intros i Hi BD. destruct (p_C48_exactly_once_in_order _ _ _ _ i J1) as [X _]. rewrite J4 in X.
  destruct (X Hi) as (missing & X1 & _ & X2). rewrite (X2 BD), app_nil_r in X1. rewrite <- X1. unfold received. cbn [app].
  now rewrite (arrivals_trace_at _ _ _ r W).
Qed.

(** *** The thread pool *)
Lemma pool_inv T h tr p : parts_run T h program_init tr p ->
  (pp_once p = true <-> calls_new tr) /\ (pp_pool p = None -> ~ rayon_used tr) /\
  (pp_once p = false -> pp_pool p <> None -> rayon_used tr).
Proof.
  intros R. remember program_init as p0 eqn:E. induction R as [p|p tr p1 l evs p2 R IH S]; subst.
  - cbn. split; [|split]; try congruence.
    + split; [discriminate|]. intros (? & ? & ? & []).
    + intros _ [(k & [])|(n & [])].
  - destruct (IH eq_refl) as (A & B & C).
    assert (CN : calls_new (tr ++ [(l, evs)]) <-> calls_new tr \/ exists cfg r, l = PNew cfg r).
    { unfold calls_new. split.
      - intros (cfg & r & ev & X). apply in_app_iff in X as [X|[X|[]]]; [left; eauto|]. injection X as -> ->. right; eauto.
      - intros [(cfg & r & ev & X)|(cfg & r & ->)]; exists cfg, r; eexists; apply in_app_iff; [left; exact X|right; now left]. }
    assert (RU : rayon_used (tr ++ [(l, evs)]) <-> rayon_used tr \/ (exists k, l = PListener k /\ evs = [WListener k LRecv]) \/ exists n, l = PUseRayon n /\ evs = []).
    { unfold rayon_used. split.
      - intros [(k & X)|(n & X)]; apply in_app_iff in X as [X|[X|[]]]; eauto; injection X as -> ->; eauto 6.
      - intros [[(k & X)|(n & X)]|[(k & -> & ->)|(n & -> & ->)]]; [left|right|left|right]; eexists; apply in_app_iff; [left; exact X|left; exact X|right; now left|right; now left]. }
    rewrite CN, RU. clear CN RU IH R.
    destruct S as [p l taken evs given rest w' U PE R|p cfg e pool' SU|p cfg pool' evs r w' SU BB R|p k l n w' s rest pool' PE S H D|p n E|p e w' EL S]; cbn [pp_once pp_pool].
    + assert (N1 : forall cfg r, l <> PNew cfg r) by (destruct U; discriminate).
      assert (N2 : forall k, l <> PListener k) by (destruct U; discriminate). assert (N3 : forall n, l <> PUseRayon n) by (destruct U; discriminate).
      split; [|split].
      * rewrite A. split; [auto|]. intros [X|(cfg & r & X)]; [exact X|]. now apply N1 in X.
      * intros X [Y|[(k & Y & _)|(n & Y & _)]]; [now apply B in Y|now apply N2 in Y|now apply N3 in Y].
      * auto.
    + split; [split; eauto|]. split; [|discriminate]. intros X [Y|[(k & Y & _)|(n & Y & _)]]; try discriminate. revert Y. apply B. inversion SU; subst; congruence.
    + split; [split; eauto|]. split; [|discriminate]. intros X [Y|[(k & Y & _)|(n & Y & _)]]; try discriminate. revert Y. apply B. inversion SU; subst; congruence.
    + split; [|split].
      * rewrite A. split; [auto|]. intros [X|(cfg & r & X)]; [exact X|discriminate].
      * intros X [Y|[(k' & Y & Z)|(n' & Y & _)]]; [|injection Z; intros; inversion D; congruence|discriminate].
        revert Y. apply B. inversion D; congruence.
      * intros O X. destruct D as [->|m|NR]; [right; left; eauto|left; apply C; [exact O|discriminate]|congruence].
    + split; [|split].
      * rewrite A. split; [auto|]. intros [X|(cfg & r & X)]; [exact X|discriminate].
      * discriminate.
      * intros _ _. right. right. eauto.
    + split; [|split].
      * rewrite A. split; [auto|]. intros [X|(cfg & r & X)]; [exact X|discriminate].
      * intros X [Y|[(k & Y & _)|(n & Y & _)]]; [now apply B in Y|discriminate|discriminate].
      * auto.
Qed.

(** C142. Who comes first decides: if a listener of the program received a datagram (or anything else used rayon) before the first [IPv8::new], that call fails, whatever
    its configuration, and nothing is bound. *)
Lemma p_C142_first_datagram_decides :
  forall (T : topology) (h : nat) (tr : list (plabel * list event)) (p p' : program) (cfg : config) (r : outcome (nat * nat)) (evs : list event),
    parts_run T h program_init tr p -> ~ calls_new tr -> rayon_used tr -> parts_step T h p (PNew cfg r) evs p' ->
    r = Err EPoolError /\ evs = [] /\ pp_holds p' = pp_holds p /\ pp_pool p' = pp_pool p /\ pp_world p' = pp_world p.
Proof.
  intros T h tr p p' cfg r evs R NC RU S. destruct (pool_inv _ _ _ _ R) as (A & B & _).
  assert (O : pp_once p = false) by (destruct (pp_once p); [exfalso; apply NC, A; reflexivity|reflexivity]).
  assert (P : pp_pool p <> None) by (intros X; now apply B).
  inversion S as [? ? ? ? ? ? ? U|? ? ? ? SU|? ? ? ? ? ? SU| | |]; subst.
  - inversion U.
  - inversion SU; subst. cbn. auto.
  - exfalso. inversion SU; congruence.
Qed.
Lemma run_split T h p a b p2 : parts_run T h p (a ++ b) p2 -> exists p1, parts_run T h p a p1 /\ parts_run T h p1 b p2.
Proof.
  revert p2. induction b as [|x b IH] using rev_ind; intros p2 R.
  - rewrite app_nil_r in R. exists p2. split; [exact R|constructor].
  - rewrite app_assoc in R. inversion R as [|? ? p3 l evs ? R1 S E E2]; [now destruct (a ++ b)|]. apply app_inj_tail in E2 as [-> <-] || (apply app_inj_tail in E as [-> <-]).
    destruct (IH _ R1) as (p1 & A & B). exists p1. split; [exact A|]. econstructor; eassumption.
Qed.
Lemma run_cons_inv T h p x b p2 : parts_run T h p (x :: b) p2 -> exists p1, parts_step T h p (fst x) (snd x) p1 /\ parts_run T h p1 b p2.
Proof.
  intros R. change (x :: b) with ([x] ++ b) in R. apply run_split in R as (p1 & A & B). exists p1. split; [|exact B].
  inversion A as [|? tr p3 l evs ? R1 S]; subst. destruct tr as [|y tr]; [|now destruct tr].
  match goal with E : _ = [x] |- _ => cbn in E; injection E as <- end. inversion R1; [subst; exact S|now destruct tr].
Qed.
Lemma run_trans T h p a p1 b p2 : parts_run T h p a p1 -> parts_run T h p1 b p2 -> parts_run T h p (a ++ b) p2.
Proof.
  intros A B. revert A. induction B as [p1|p1 tr p3 l evs p4 B IH S]; intros A; [now rewrite app_nil_r|]. rewrite app_assoc. econstructor; [exact (IH A)|exact S].
Qed.
Lemma run_cons T h p l evs p1 b p2 : parts_step T h p l evs p1 -> parts_run T h p1 b p2 -> parts_run T h p ((l, evs) :: b) p2.
Proof. intros S R. apply (run_trans T h p [(l, evs)] p1 b p2); [|exact R]. apply (parts_snoc _ _ _ [] p); [constructor|exact S]. Qed.
Lemma pool_step T h p l evs p' n : parts_step T h p l evs p' -> pp_pool p = Some n -> pp_pool p' = Some n.
Proof. intros S E. inversion S as [|? ? ? ? SU|? ? ? ? ? ? SU| ? ? ? ? ? ? ? ? ? ? ? D| |]; subst; cbn; auto; try (inversion SU; congruence); try (inversion D; congruence); congruence. Qed.
Lemma pool_forever T h p tr p' n : parts_run T h p tr p' -> pp_pool p = Some n -> pp_pool p' = Some n.
Proof. intros R E. induction R; [exact E|]. eapply pool_step; eauto. Qed.
(** C142. Otherwise that call gives the program its pool, with the threads of its configuration, or fails for lack of threads; and the pool stays as it is whatever happens
    later. *)
Lemma p_C142_thread_count :
  forall (T : topology) (h : nat) (before after : list (plabel * list event)) (p : program) (cfg : config) (r : outcome (nat * nat)) (evs : list event),
    parts_run T h program_init (before ++ (PNew cfg r, evs) :: after) p -> ~ calls_new before -> r <> Err EPoolError ->
    ~ rayon_used before /\ pp_pool p = Some (cf_threadcount cfg).
Proof.
  intros T h before after p cfg r evs R NC NE. apply run_split in R as (p1 & R1 & R). apply run_cons_inv in R as (p2 & S & R2). cbn in S.
  destruct (pool_inv _ _ _ _ R1) as (A & B & _).
  assert (O : pp_once p1 = false) by (destruct (pp_once p1); [exfalso; apply NC, A; reflexivity|reflexivity]).
  inversion S as [? ? ? ? ? ? ? U|? ? ? ? SU|? ? ? ? ? ? SU| | |]; subst.
  - inversion U.
  - inversion SU; congruence.
  - rewrite O in SU. inversion SU; subst. split; [apply B; congruence|]. eapply pool_forever; [exact R2|reflexivity].
Qed.
(** C142. A later call never fails because of the pool. *)
Lemma p_C142_later_calls :
  forall (T : topology) (h : nat) (tr : list (plabel * list event)) (p p' : program) (cfg : config) (r : outcome (nat * nat)) (evs : list event),
    parts_run T h program_init tr p -> calls_new tr -> parts_step T h p (PNew cfg r) evs p' -> r <> Err EPoolError /\ pp_pool p' = pp_pool p.
Proof.
  intros T h tr p p' cfg r evs R NC S. destruct (pool_inv _ _ _ _ R) as (A & _). apply A in NC.
  inversion S as [? ? ? ? ? ? ? U|? ? ? ? SU|? ? ? ? ? ? SU BB| | |]; subst.
  - inversion U.
  - exfalso. rewrite NC in SU. inversion SU.
  - rewrite NC in SU. inversion SU; subst. split; [|reflexivity]. inversion BB; congruence.
Qed.

Lemma take_one {A} (x : A) l : In x l -> exists rest, Permutation l (x :: rest).
Proof. intros I. apply in_split in I as (a & b & ->). exists (a ++ b). symmetry. apply Permutation_middle. Qed.

(** C142. So a stranger can decide it: as long as [IPv8::new] has not been called and nothing has used rayon, a listener that polls is all it takes: one datagram to its address, from
    anywhere and of any content, makes the first [IPv8::new] of the program fail, whatever its configuration; without one it can succeed. *)
Lemma p_C142_one_datagram :
  forall (T : topology) (h : nat) (tr : list (plabel * list event)) (p : program) (k : nat) (c : net_config) (n : net_state) (s : socket) (m : message)
         (threads : nat),
    parts_run T h program_init tr p -> ~ calls_new tr -> ~ rayon_used tr -> In (Listener k) (pp_holds p) ->
    nth_error (w_sockets (pp_world p)) k = Some s -> sk_end s = Listening c n -> ns_pc n = Polling -> accepts T s m ->
    (exists p', parts_run T h p [(POther, [WInject m]); (POther, [WDeliver k m]); (PListener k, [WListener k (LPoll 1)]);
                                 (PListener k, [WListener k LRecv])] p' /\ pp_pool p' = Some threads /\
       forall cfg r evs p'', parts_step T h p' (PNew cfg r) evs p'' -> r = Err EPoolError) /\
    (forall cfg pool, set_up cfg (pp_once p) (pp_pool p) (Ok tt) pool <-> pool = Some (cf_threadcount cfg)).
Proof.
  intros T h tr p k c n s m threads R NC NR L H E PC AC. destruct (pool_inv _ _ _ _ R) as (A & B & C).
  assert (O : pp_once p = false) by (destruct (pp_once p); [exfalso; apply NC, A; reflexivity|reflexivity]).
  assert (P : pp_pool p = None) by (destruct (pp_pool p) eqn:P; [exfalso; apply NR, C; [exact O|congruence]|reflexivity]).
  split; [|intros cfg pool; rewrite O, P; split; [intros SU; inversion SU; subst; reflexivity|intros ->; constructor]].
  destruct (take_one _ _ L) as (rest & PE).
  set (w1 := put (pp_world p) m).
  set (n1 := {| ns_queue := ns_queue n ++ [datagram_of m]; ns_edge := true; ns_buffer := ns_buffer n; ns_pc := Polling |}).
  set (w2 := set_end w1 k s (Listening c n1)).
  assert (H2 : nth_error (w_sockets w2) k = Some (with_end s (Listening c n1))) by (apply set_end_same; exact H).
  set (n2 := {| ns_queue := ns_queue n1; ns_edge := false; ns_buffer := ns_buffer n1; ns_pc := Handling 1 |}).
  set (w3 := set_end w2 k (with_end s (Listening c n1)) (Listening c n2)).
  assert (H3 : nth_error (w_sockets w3) k = Some (with_end (with_end s (Listening c n1)) (Listening c n2))) by (apply set_end_same; exact H2).
  assert (Q : exists data src q, ns_queue n2 = (data, src) :: q).
  { cbn. destruct (ns_queue n) as [|[d0 a0] q0]; eexists _, _, _; reflexivity. }
  destruct Q as (data & src & q & Q).
  set (n3 := let '(buffer, recv_size) := recv_into data (ns_buffer n2) in
       {| ns_queue := q; ns_edge := ns_edge n2; ns_buffer := buffer; ns_pc := Dispatching 0 (firstn recv_size buffer) src (seq 0 (nc_receivers c)) [] false |}).
  assert (OP3 : is_open (Listening c n3) = true) by (unfold n3; destruct (recv_into data (ns_buffer n2)); reflexivity).
  set (w4 := set_end w3 k (with_end (with_end s (Listening c n1)) (Listening c n2)) (Listening c n3)).
  assert (R4 : exists p', parts_run T h p [(POther, [WInject m]); (POther, [WDeliver k m]); (PListener k, [WListener k (LPoll 1)]);
                                 (PListener k, [WListener k LRecv])] p' /\ pp_pool p' = Some threads).
  { eexists. split. eapply run_cons; [apply parts_other; [exact I|apply wstep_inject]|]. fold w1.
    eapply run_cons; [apply (parts_other T h _ (WDeliver k m) w2); [exact I|]|].
    { cbn [pp_world]. replace w2 with (set_end w1 k s (arrive (sk_end s) (datagram_of m))).
      - apply wstep_deliver; [exact H|rewrite E; cbn; now rewrite PC|cbn; apply in_app_iff; right; now left|exact AC].
      - unfold w2. rewrite E. cbn [arrive]. unfold n1. now rewrite PC. }
    eapply run_cons; [apply (parts_listener T h _ k (LPoll 1) threads w3 (with_end (with_end s (Listening c n1)) (Listening c n2)) rest None)|].
    { cbn [pp_holds]. exact PE. }
    { cbn [pp_world]. eapply wstep_listener; [exact H2|reflexivity| |discriminate]. apply step_poll_ready; reflexivity. }
    { exact H3. }
    { cbn [pp_pool]. rewrite P. constructor. discriminate. }
    eapply run_cons; [apply (parts_listener T h _ k LRecv threads w4 (with_end (with_end (with_end s (Listening c n1)) (Listening c n2)) (Listening c n3)) rest (Some threads))|].
    { cbn [pp_holds with_end sk_end is_open ns_pc n2 app]. reflexivity. }
    { cbn [pp_world]. eapply wstep_listener; [exact H3|reflexivity| |discriminate]. unfold n3. eapply step_recv; [reflexivity|exact Q]. }
    { apply set_end_same. exact H3. }
    { cbn [pp_pool]. constructor. reflexivity. }
    constructor. reflexivity. }
  destruct R4 as (p' & R4 & P4). exists p'. split; [exact R4|]. split; [exact P4|]. intros cfg r evs p'' S.
  pose proof (run_trans _ _ _ _ _ _ _ R R4) as R5. eapply (p_C142_first_datagram_decides _ _ _ _ _ cfg r evs R5); [| |exact S].
  - intros (cfg0 & r0 & ev0 & X). apply in_app_iff in X as [X|X]; [apply NC; unfold calls_new; eauto|].
    cbn in X. intuition discriminate.
  - left. exists k. apply in_app_iff. right. cbn. auto 6.
Qed.

(** C142. Nothing stands in the way of a call: every receiver and value can be started with every configuration, everything held can be dropped, every value taken apart and every
    receiver put together with every sender. *)
Lemma p_C142_calls_work :
  forall (T : topology) (h : nat) (tr : list (plabel * list event)) (p : program),
    parts_run T h program_init tr p ->
    (forall r cfg, In (Receiver r) (pp_holds p) -> exists evs p', parts_step T h p (PStartReceiver r cfg) evs p' /\ In (Listener r) (pp_holds p')) /\
    (forall cfg r s, In (Value cfg r s) (pp_holds p) -> exists evs p', parts_step T h p (PStart cfg r s) evs p' /\ In (Listener r) (pp_holds p')) /\
    (forall cfg r s, In (Value cfg r s) (pp_holds p) -> exists p', parts_step T h p (PTakeApart cfg r s) [] p' /\
       In (Receiver r) (pp_holds p') /\ In (Sender s) (pp_holds p') /\ pp_world p' = pp_world p) /\
    (forall cfg r s, In (Receiver r) (pp_holds p) -> In (Sender s) (pp_holds p) -> exists p', parts_step T h p (PPutTogether cfg r s) [] p' /\
       In (Value cfg r s) (pp_holds p') /\ pp_world p' = pp_world p) /\
    (forall x, In x (pp_holds p) -> (forall r, x <> Listener r) -> exists p', parts_step T h p (PDrop x) (drop_events x) p' /\
       forall k, In k (sockets_in x) -> forall h' a, ~ open_at (pp_world p') k h' a).
Proof.
  intros T h tr p R. pose proof (pinv_run _ _ _ _ R) as I. pose proof (pv_kind _ _ _ I) as K. split; [|split; [|split; [|split]]].
  - intros r cfg L. destruct (take_one _ _ L) as (rest & PE). destruct (K _ L) as (a & e & H & n & q & ->). eexists _, _. split.
    + eapply parts_uses; [apply uses_start_receiver|exact PE|]. apply wrun_one. eapply wstep_start; [exact H|reflexivity].
    + now left.
  - intros cfg r s L. destruct (take_one _ _ L) as (rest & PE). destruct (K _ L) as [(a & e & H & n & q & ->) (b & e2 & H2 & q2 & ->)].
    assert (NE : r <> s) by (intros ->; congruence). eexists _, _. split.
    + eapply parts_uses; [apply uses_start|exact PE|]. eapply wrun_cons; [eapply wstep_start; [exact H|reflexivity]|]. apply wrun_one. eapply wstep_close.
      * cbn. rewrite nth_error_set_nth. destruct (Nat.eqb_spec r s); [contradiction|exact H2].
      * reflexivity.
    + now left.
  - intros cfg r s L. destruct (take_one _ _ L) as (rest & PE). eexists. split; [eapply parts_uses; [apply uses_take_apart|exact PE|constructor]|]. cbn. auto.
  - intros cfg r s L L2. destruct (take_one _ _ L) as (rest & PE). apply (Permutation_in _ PE) in L2 as L3. destruct L3 as [L3|L3]; [discriminate|].
    destruct (take_one _ _ L3) as (rest2 & PE2). eexists. split; [eapply parts_uses; [apply uses_put_together| |constructor]|cbn; auto].
    cbn [app]. rewrite PE. now rewrite PE2.
  - intros x L NL. destruct (take_one _ _ L) as (rest & PE). pose proof (K _ L) as KX.
    assert (W : exists w', wrun T (pp_world p) (drop_events x) w').
    { destruct x as [r|s|cfg r s|r]; cbn [drop_events].
      - destruct KX as (a & e & H & n & q & ->). eexists. apply wrun_one. eapply wstep_close; [exact H|reflexivity].
      - destruct KX as (a & e & H & q & ->). eexists. apply wrun_one. eapply wstep_close; [exact H|reflexivity].
      - destruct KX as [(a & e & H & n & q & ->) (b & e2 & H2 & q2 & ->)]. assert (NE : r <> s) by (intros ->; congruence).
        eexists. eapply wrun_cons; [eapply wstep_close; [exact H|reflexivity]|]. apply wrun_one. eapply wstep_close.
        + cbn. rewrite nth_error_set_nth. destruct (Nat.eqb_spec r s); [contradiction|exact H2].
        + reflexivity.
      - now destruct (NL r). }
    destruct W as (w' & W). eexists. split; [eapply parts_uses; [apply uses_drop; exact NL|exact PE|exact W]|].
    assert (R2 : parts_run T h program_init (tr ++ [(PDrop x, drop_events x)]) {| pp_world := w'; pp_holds := [] ++ rest; pp_once := pp_once p; pp_pool := pp_pool p |}).
    { econstructor; [exact R|]. eapply parts_uses; [apply uses_drop; exact NL|exact PE|exact W]. }
    intros k IK h' a (e & H & O). cbn [pp_world] in H. cbn [app] in R2.
    assert (CL : closed_in w' k).
    { destruct x as [r|s|cfg r s|r]; cbn in IK, W; [| | |now destruct (NL r)].
      - destruct IK as [<-|[]]. apply wrun_cons_inv in W as (w2 & S & W). apply wrun_nil_inv in W. subst. apply close_inv in S as (s2 & H2 & _ & ->). now apply (closed_slot _ _ s2).
      - destruct IK as [<-|[]]. apply wrun_cons_inv in W as (w2 & S & W). apply wrun_nil_inv in W. subst. apply close_inv in S as (s2 & H2 & _ & ->). now apply (closed_slot _ _ s2).
      - apply wrun_cons_inv in W as (w1 & S1 & W). apply wrun_cons_inv in W as (w2 & S & W). apply wrun_nil_inv in W. subst.
        apply close_inv in S1 as (s1 & H1 & _ & ->). destruct (close_inv _ _ _ _ S) as (s2 & H2 & _ & ->).
        destruct IK as [<-|[<-|[]]]; [|now apply (closed_slot _ _ s2)].
        destruct (closed_slot _ _ _ H1) as (y & Y & Q). exact (closed_kept_run _ _ _ _ (wrun_one _ _ _ _ S) _ _ Y Q). }
    destruct CL as (y & Y & Q). rewrite H in Y. injection Y as <-. cbn -[is_open] in Q. congruence.
Qed.

(** C142. How to send while listening: [IPv8::start] closes the sending socket (C64); but a value that is taken apart first can have its receiver started, with the same outcome for
    the listener, and its sender goes on sending for as long as it is held, whatever the listener and everybody else do. *)
Lemma p_C142_keep_the_sender :
  forall (T : topology) (h : nat) (tr : list (plabel * list event)) (p : program) (cfg : config) (r s : nat),
    parts_run T h program_init tr p -> In (Value cfg r s) (pp_holds p) ->
    exists p1 p2,
      parts_run T h p [(PTakeApart cfg r s, []); (PStartReceiver r cfg, [WStart r cfg])] p1 /\
      In (Listener r) (pp_holds p1) /\ In (Sender s) (pp_holds p1) /\
      nth_error (w_sockets (pp_world p1)) s = nth_error (w_sockets (pp_world p)) s /\
      parts_run T h p [(PStart cfg r s, [WStart r cfg; WClose s])] p2 /\ In (Listener r) (pp_holds p2) /\
      (forall h' b, ~ open_at (pp_world p2) s h' b) /\
      nth_error (w_sockets (pp_world p1)) r = nth_error (w_sockets (pp_world p2)) r.
Proof.
  intros T h tr p cfg r s R L. pose proof (pinv_run _ _ _ _ R) as I. destruct (take_one _ _ L) as (rest & PE).
  destruct (pv_kind _ _ _ I _ L) as [(a & e & H & n & q & ->) (b & e2 & H2 & q2 & ->)]. assert (NE : r <> s) by (intros ->; congruence).
  eexists _, _. split; [|split; [|split; [|split; [|split; [|split; [|split]]]]]].
  - eapply run_cons; [eapply parts_uses; [apply uses_take_apart|exact PE|constructor]|]. eapply run_cons; [|constructor].
    apply (parts_uses T h _ _ [Receiver r] [WStart r cfg] [Listener r] (Sender s :: rest)); [apply uses_start_receiver|reflexivity|]. apply wrun_one. eapply wstep_start; [exact H|reflexivity].
  - now left.
  - right. now left.
  - cbn. rewrite nth_error_set_nth. destruct (Nat.eqb_spec r s); [contradiction|reflexivity].
  - eapply run_cons; [|constructor]. eapply parts_uses; [apply uses_start|exact PE|].
    eapply wrun_cons; [eapply wstep_start; [exact H|reflexivity]|]. apply wrun_one. eapply wstep_close.
    + cbn. rewrite nth_error_set_nth. destruct (Nat.eqb_spec r s); [contradiction|exact H2].
    + reflexivity.
  - now left.
  - intros h' x (y & Y & O). cbn [pp_world] in Y. rewrite (set_end_same _ _ {| sk_host := h; sk_address := b; sk_end := Sending q2 |} _) in Y.
    + injection Y as _ _ <-. discriminate.
    + cbn. rewrite nth_error_set_nth. destruct (Nat.eqb_spec r s); [contradiction|exact H2].
  - cbn [pp_world]. symmetry. cbn. rewrite nth_error_set_nth. destruct (Nat.eqb_spec s r); [congruence|reflexivity].
Qed.
(** C142. A sender that is held can send at any time, and so can the one inside a value. *)
Lemma p_C142_senders_send :
  forall (T : topology) (h : nat) (tr : list (plabel * list event)) (p : program) (s : nat) (b : address) (pk : packet) (m : message),
    parts_run T h program_init tr p -> In (Sender s) (pp_holds p) \/ (exists cfg r, In (Value cfg r s) (pp_holds p)) ->
    open_at (pp_world p) s h b -> sendable T h b pk m ->
    exists p', parts_step T h p (PSend s) [WSend s pk m] p' /\ In m (w_sent (pp_world p')) /\ Permutation (pp_holds p) (pp_holds p').
Proof.
  intros T h tr p s b pk m R V (e0 & H0 & _) ((os & n & NS) & A1 & A2 & A3 & A4). pose proof (pinv_run _ _ _ _ R) as I.
  assert (A : at_slot h (pp_world p) s sends).
  { destruct V as [V|(cfg & r & V)]; [exact (pv_kind _ _ _ I _ V)|exact (proj2 (pv_kind _ _ _ I _ V))]. }
  destruct A as (b1 & e & H & q & ->). rewrite H0 in H. injection H as <- ->.
  assert (S : wstep T (pp_world p) (WSend s pk m) (put (pp_world p) m)).
  { eapply wstep_send; [exact H0|reflexivity|exact NS|exact A1|exact A2|exact A3|exact A4]. }
  destruct V as [V|(cfg & r & V)]; destruct (take_one _ _ V) as (rest & PE); (eexists; split; [|split]).
  - eapply parts_uses; [apply uses_send|exact PE|apply wrun_one; exact S].
  - cbn. apply in_app_iff. right. now left.
  - exact PE.
  - eapply parts_uses; [apply uses_send_value|exact PE|apply wrun_one; exact S].
  - cbn. apply in_app_iff. right. now left.
  - exact PE.
Qed.

(** ** A concrete program on host 1 *)
Ltac norm_parts := match goal with |- parts_run ?T ?h ?p ?tr ?p2 => let p' := eval cbv in p in change (parts_run T h p' tr p2) end.
Tactic Notation "parts_use" tactic3(u) "leaving" constr(rest) := norm_parts; eapply run_cons;
  [eapply (parts_uses _ _ _ _ _ _ _ rest); [u|cbn; try reflexivity; apply perm_swap|]|].
Ltac free_address := repeat split; [discriminate|cbn; intros ? S; repeat (destruct S as [<-|S]; [intros _ _; reflexivity|]); destruct S].

Definition stranger : message := {| m_origin := 0; m_from := v4 10 0 0 1 5555; m_to := v4 10 0 0 2 9001; m_data := [] |}.
(** a receiver of its own, with one [Receiver], is started ... *)
Definition ex_own : ptrace :=
  [(PNewReceiver (v4 0 0 0 0 9001) (Ok 0), [WBindReceiver 0 1 (v4 0 0 0 0 9001) (v4 0 0 0 0 9001)]);
   (PAddReceiver 0, [WAddReceiver 0]);
   (PStartReceiver 0 small_config, [WStart 0 small_config])].
(** ... an empty datagram arrives ... *)
Definition ex_datagram : ptrace :=
  [(POther, [WInject stranger]); (POther, [WDeliver 0 stranger]); (PListener 0, [WListener 0 (LPoll 1)]); (PListener 0, [WListener 0 LRecv])].
(** ... or does not, and there is a value. *)
Definition ex_value : ptrace :=
  [(PNew small_config (Ok (1, 2)), [WBindReceiver 1 1 (v4 0 0 0 0 9000) (v4 0 0 0 0 9000); WBindSender 2 1 (v4 0 0 0 0 8000) (v4 0 0 0 0 8000)])].
(** It is taken apart and its receiver is started with another buffer size. *)
Definition big_buffer : config := {|
  cf_queuesize := 100; cf_buffersize := 2048; cf_pollinterval := None; cf_threadcount := 3; cf_default_hosts := [];
  cf_sending_address := v4 0 0 0 0 1; cf_receiving_address := v4 0 0 0 0 2 |}.
Definition ex_apart : ptrace := [(PTakeApart small_config 1 2, []); (PStartReceiver 1 big_buffer, [WStart 1 big_buffer])].
Definition to_host_0 : message := {| m_origin := 1; m_from := v4 10 0 0 2 8000; m_to := v4 10 0 0 1 8000; m_data := [x03] |}.

Lemma ex_steps : exists p, parts_run two_hosts 1 program_init ex_own p /\ pp_holds p = [Listener 0] /\ pp_pool p = None /\
  (exists c s, nth_error (w_sockets (pp_world p)) 0 = Some {| sk_host := 1; sk_address := v4 0 0 0 0 9001; sk_end := Listening c s |} /\ ns_pc s = Polling) /\
  (exists p', parts_run two_hosts 1 p ex_datagram p' /\ parts_step two_hosts 1 p' (PNew small_config (Err EPoolError)) []
     {| pp_world := pp_world p'; pp_holds := pp_holds p'; pp_once := true; pp_pool := Some 8 |}) /\
  exists p', parts_run two_hosts 1 p ex_value p' /\ pp_holds p' = [Value small_config 1 2; Listener 0] /\ open_at (pp_world p') 2 1 (v4 0 0 0 0 8000) /\
  exists p'', parts_run two_hosts 1 p' ex_apart p'' /\ pp_holds p'' = [Listener 1; Sender 2; Listener 0].
Proof.
  eexists. split; [|split; [|split; [|split; [|split]]]].
  - unfold ex_own.
    parts_use (apply uses_new_receiver) leaving (@nil holding).
    { apply wrun_one. match goal with |- wstep _ ?w _ _ => apply (wstep_bind_receiver two_hosts w 1) end. free_address. }
    parts_use (apply uses_add_receiver) leaving (@nil holding).
    { apply wrun_one. eapply wstep_add_receiver; reflexivity. }
    parts_use (apply uses_start_receiver) leaving (@nil holding).
    { apply wrun_one. eapply wstep_start; reflexivity. }
    norm_parts. constructor.
  - reflexivity.
  - reflexivity.
  - eexists _, _. split; reflexivity.
  - unfold ex_datagram. eexists. split.
    + norm_parts. eapply run_cons; [apply parts_other; [exact I|apply wstep_inject]|].
      norm_parts. eapply run_cons; [apply parts_other; [exact I|]|].
      { eapply wstep_deliver; [reflexivity|reflexivity|left; reflexivity|]. split; [reflexivity|]. split; [reflexivity|right; reflexivity]. }
      norm_parts. eapply run_cons.
      { eapply (parts_listener _ _ _ 0 _ 8 _ _ []); [reflexivity|eapply wstep_listener; [reflexivity|reflexivity|apply step_poll_ready; reflexivity|discriminate]|
          reflexivity|apply dispatches_nothing; discriminate]. }
      norm_parts. eapply run_cons.
      { eapply (parts_listener _ _ _ 0 _ 8 _ _ []); [reflexivity|eapply wstep_listener; [reflexivity|reflexivity|eapply step_recv; reflexivity|discriminate]|
          reflexivity|now apply dispatches_first]. }
      norm_parts. constructor.
    + apply parts_new_no_pool. apply set_up_fails.
  - unfold ex_value. eexists. split; [|split; [|split]].
    + norm_parts. eapply run_cons; [|constructor]. eapply parts_new; [apply set_up_builds|apply bind_both_ok|].
      eapply wrun_cons. { match goal with |- wstep _ ?w _ _ => apply (wstep_bind_receiver two_hosts w 1) end. free_address. }
      eapply wrun_cons; [|constructor]. match goal with |- wstep _ ?w _ _ => apply (wstep_bind_sender two_hosts w 1) end. free_address.
    + reflexivity.
    + eexists. split; reflexivity.
    + eexists. split; [|].
      * unfold ex_apart. parts_use (apply uses_take_apart) leaving [Listener 0]. { constructor. }
        norm_parts. eapply run_cons; [|].
        { eapply (parts_uses _ _ _ _ _ _ _ [Sender 2; Listener 0]); [apply uses_start_receiver|reflexivity|]. apply wrun_one. eapply wstep_start; reflexivity. }
        norm_parts. constructor.
      * reflexivity.
Qed.

Lemma ex_own_no_new : ~ calls_new ex_own.
Proof. intros (cfg & r & evs & [I|[I|[I|[]]]]); discriminate. Qed.
Lemma ex_own_no_rayon : ~ rayon_used ex_own.
Proof. intros [(k & [I|[I|[I|[]]]])|(n & [I|[I|[I|[]]]])]; discriminate. Qed.
(** one empty datagram, and [new] fails *)
Example ex_C142_one_datagram :
  exists p c n s, parts_run two_hosts 1 program_init ex_own p /\ ~ calls_new ex_own /\ ~ rayon_used ex_own /\ In (Listener 0) (pp_holds p) /\
    nth_error (w_sockets (pp_world p)) 0 = Some s /\ sk_end s = Listening c n /\ ns_pc n = Polling /\ accepts two_hosts s stranger.
Proof.
  destruct ex_steps as (p & R & A & _ & (c & n & E & P) & _). eexists p, c, n, _. split; [exact R|]. split; [exact ex_own_no_new|].
  split; [exact ex_own_no_rayon|]. split; [rewrite A; now left|]. split; [exact E|]. split; [reflexivity|]. split; [exact P|].
  split; [reflexivity|]. split; [reflexivity|right; reflexivity].
Qed.
Example ex_C142_new_fails :
  exists p p', parts_run two_hosts 1 program_init (ex_own ++ ex_datagram) p /\ ~ calls_new (ex_own ++ ex_datagram) /\ rayon_used (ex_own ++ ex_datagram) /\
    parts_step two_hosts 1 p (PNew small_config (Err EPoolError)) [] p'.
Proof.
  destruct ex_steps as (p & R & _ & _ & _ & (p' & R' & S) & _). exists p'. eexists. split; [exact (run_trans _ _ _ _ _ _ _ R R')|].
  split; [intros (cfg & r & evs & I); cbn in I; repeat destruct I as [I|I]; try discriminate I; exact I|]. split; [left; exists 0; cbn; tauto|exact S].
Qed.
(** a value beside a receiver of its own; its sender can send *)
Example ex_C142_value :
  exists p, parts_run two_hosts 1 program_init (ex_own ++ ex_value) p /\ ~ calls_new ex_own /\ calls_new (ex_own ++ ex_value) /\
    pp_holds p = [Value small_config 1 2; Listener 0] /\ binds (ex_own ++ ex_value) 2 /\ open_at (pp_world p) 2 1 (v4 0 0 0 0 8000) /\
    sendable two_hosts 1 (v4 0 0 0 0 8000) (Packet [x03]) to_host_0.
Proof.
  destruct ex_steps as (p & R & _ & _ & _ & _ & p' & R' & A & O & _). exists p'. split; [exact (run_trans _ _ _ _ _ _ _ R R')|]. split; [exact ex_own_no_new|].
  split; [eexists _, _, _; cbn; tauto|]. split; [exact A|]. split; [|split; [exact O|]].
  - eexists _, _, _, _, _. split; [cbn; do 3 right; left; reflexivity|]. split; [discriminate|right; cbn; tauto].
  - split; [exists (fun _ _ => Ok 1), 1; reflexivity|]. split; [reflexivity|]. split; [reflexivity|]. split; [right; reflexivity|right; split; reflexivity].
Qed.
(** ... and after it was taken apart there are two listeners, with different buffer sizes, and a sender *)
Example ex_C142_apart :
  exists p, parts_run two_hosts 1 program_init ((ex_own ++ ex_value) ++ ex_apart) p /\ pp_holds p = [Listener 1; Sender 2; Listener 0].
Proof.
  destruct ex_steps as (p & R & _ & _ & _ & _ & p' & R' & _ & _ & p'' & R'' & A). exists p''. split; [|exact A].
  exact (run_trans _ _ _ _ _ _ _ (run_trans _ _ _ _ _ _ _ R R') R'').
Qed.
