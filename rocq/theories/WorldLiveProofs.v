(** * WorldLiveProofs: C109 *)
From Verif Require Import Base Codec Network NetSpec NetworkProofs LivenessSpec LivenessProofs LivenessFacts Ipv8 Ipv8Spec Ipv8Proofs World WorldSpec
  WorldProofs WorldLiveSpec.
Open Scope nat_scope.

Lemma events_upto_S ev n : events_upto ev (S n) = events_upto ev n ++ [ev n].
Proof. unfold events_upto. now rewrite seq_S, map_app. Qed.

Lemma world_prefix T st ev : infinite_world T st ev -> forall n, wrun T world_init (events_upto ev n) (st n).
Proof.
  intros [H0 HS] n. induction n as [|n IH].
  - rewrite H0. constructor.
  - rewrite events_upto_S. econstructor; [exact IH|apply HS].
Qed.

Lemma in_events_upto ev n e : In e (events_upto ev n) <-> exists i, i < n /\ ev i = e.
Proof.
  unfold events_upto. rewrite in_map_iff. split.
  - intros (i & E & H). apply in_seq in H. exists i. split; [lia|exact E].
  - intros (i & H & E). exists i. split; [exact E|apply in_seq; lia].
Qed.

(** what event [e] is at socket [k] *)
Definition label_at (k : nat) (e : event) : option label :=
  match e with
  | WDeliver j m => if k =? j then Some (LArrive (datagram_of m)) else None
  | WListener j l => if k =? j then Some l else None
  | _ => None
  end.
Lemma trace_at_one k e : trace_at k [e] = match label_at k e with Some l => [l] | None => [] end.
Proof. destruct e; cbn; try reflexivity; now destruct (_ =? _). Qed.

Lemma label_arrival k e l : label_at k e = Some l -> (exists m, e = WDeliver k m /\ l = LArrive (datagram_of m)) \/ e = WListener k l.
Proof.
  destruct e; cbn; try discriminate; destruct (Nat.eqb_spec k k0) as [->|]; try discriminate; intros E; injection E as <-; eauto.
Qed.

Section one_socket.
  Context (T : topology) (st : nat -> world) (ev : nat -> event) (k : nat) (cfg : config) (n0 : nat).
  Context (RUN : infinite_world T st ev) (START : ev n0 = WStart k cfg) (NC : never_closed k ev)
          (NF : never_fails_at k ev) (GO : deliveries_go_on k ev) (FA : fair_at k st ev) (PP : prompt_poll_at k st ev).
  Let c : net_config := listen_config cfg (added k (events_upto ev n0)).
  Let q0 : list datagram := delivered k (events_upto ev n0).

  Lemma live_start : listening_in (st (S n0)) k c (net_init c q0) /\ trace_at k (events_upto ev (S n0)) = map LArrive q0.
  Proof.
    pose proof (proj2 RUN n0) as S. rewrite START in S.
    inversion S as [| | | |w k' s n q cfg' H E| | | | | |]; subst.
    destruct (world_inv_run _ _ _ (world_prefix _ _ _ RUN n0)) as (_ & J & _). specialize (J k s H).
    unfold slot_inv in J. rewrite E in J. destruct J as (Jq & Jt & _ & Jn & _).
    split.
    - assert (L : k < length (w_sockets (st n0))) by (apply nth_error_Some; congruence).
      unfold listening_in. eexists. split; [cbn [w_sockets set_end]; rewrite nth_error_set_nth, Nat.eqb_refl; apply Nat.ltb_lt in L;
        rewrite L; reflexivity|]. cbn. subst c q0. now rewrite Jn, Jq.
    - rewrite events_upto_S, trace_at_app, START. cbn. rewrite app_nil_r, Jt, Jq. reflexivity.
  Qed.

  Lemma live_step n s : listening_in (st n) k c s ->
    exists s', listening_in (st (S n)) k c s' /\
      match label_at k (ev n) with Some l => step c s l s' | None => s' = s end.
  Proof.
    intros (sk & H & E). pose proof (proj2 RUN n) as S.
    destruct (slot_kept _ _ _ _ _ _ S H) as (sk' & H').
    destruct (slot_step _ _ _ _ _ _ S H') as [(s1 & H1 & C)|(L & _)].
    2:{ exfalso. assert (k < length (w_sockets (st n))) by (apply nth_error_Some; congruence). lia. }
    rewrite H in H1. injection H1 as <-.
    inversion C as [e x Ab Ee|x y z Ew Ee|x y z cfg' Ew Ee|x O Ee|x m O I A Ee|x c' y l y' Ec St Na Ee]; subst; try congruence.
    - exists s. split; [exists sk'; auto|]. destruct (ev n); cbn in *; try reflexivity; now rewrite Ab.
    - eexists. split; [exists (with_end sk (arrive (sk_end sk) (datagram_of m))); split; [exact H'|rewrite E; reflexivity]|].
      cbn. rewrite Nat.eqb_refl. constructor.
    - rewrite E in Ec. injection Ec as <- <-. exists y'. split; [eexists; split; [exact H'|reflexivity]|].
      cbn. rewrite Nat.eqb_refl. exact St.
  Qed.

  (** the state of the listener; only of interest after the start *)
  Definition state_at (n : nat) : net_state :=
    match nth_error (w_sockets (st n)) k with
    | Some sk => match sk_end sk with Listening _ s => s | _ => net_init c [] end
    | None => net_init c []
    end.
  Lemma state_at_is n s : listening_in (st n) k c s -> state_at n = s.
  Proof. intros (sk & H & E). unfold state_at. now rewrite H, E. Qed.

  Lemma live n : S n0 <= n -> listening_in (st n) k c (state_at n).
  Proof.
    induction 1 as [|n H IH].
    - rewrite (state_at_is _ _ (proj1 live_start)). apply live_start.
    - destruct (live_step _ _ IH) as (s' & L & _). now rewrite (state_at_is _ _ L).
  Qed.
  Lemma live_step' n : S n0 <= n ->
    match label_at k (ev n) with Some l => step c (state_at n) l (state_at (S n)) | None => state_at (S n) = state_at n end.
  Proof.
    intros H. destruct (live_step _ _ (live n H)) as (s' & L & M). now rewrite <- (state_at_is _ _ L) in M.
  Qed.

  Lemma live_trace n : trace_at k (events_upto ev (S n0 + n)) = map LArrive q0 ++ labels_from (fun i => label_at k (ev i)) (S n0) n.
  Proof.
    induction n as [|n IH].
    - rewrite Nat.add_0_r, app_nil_r. apply live_start.
    - rewrite Nat.add_succ_r, events_upto_S, trace_at_app, IH, trace_at_one, labels_from_S. symmetry. apply app_assoc.
  Qed.

  Lemma live_served n i d r : nth_error (delivered k (events_upto ev n)) i = Some d -> r < nc_receivers c ->
    exists m, nth_error (calls r (trace_at k (events_upto ev m))) i = Some (packet_of c d).
  Proof.
    intros Hd Hr.
    assert (P : forall a b, a <= b -> exists x, delivered k (events_upto ev b) = delivered k (events_upto ev a) ++ x).
    { induction 1 as [|b H [x IH]]; [exists []; now rewrite app_nil_r|].
      rewrite events_upto_S, delivered_app, IH, <- app_assoc. eauto. }
    destruct (P n (S n0 + n) ltac:(lia)) as [x Ex].
    assert (D : delivered k (events_upto ev (S n0 + n)) = q0 ++ arrivals (labels_from (fun i => label_at k (ev i)) (S n0) n)).
    { rewrite <- (arrivals_trace_at _ _ _ k (world_prefix _ _ _ RUN (S n0 + n))), live_trace, arrivals_app. f_equal.
      clear. induction q0 as [|a q IH]; cbn; [reflexivity|now f_equal]. }
    destruct (observed_served c q0 (S n0) state_at (fun i => label_at k (ev i))) with (n := n) (k := i) (d := d) (r := r) as (m & Hm).
    - apply state_at_is, live_start.
    - exact live_step'.
    - intros j l E F. destruct (label_arrival k _ _ E) as [(m & _ & ->)|X]; [exact F|exact (NF _ _ X F)].
    - intros j. destruct (GO j) as (m & x' & H & E). exists m, (datagram_of x'). split; [exact H|]. rewrite E. cbn. now rewrite Nat.eqb_refl.
    - intros j. destruct (FA (S n0 + j)) as (m & H & F). exists m. split; [lia|]. destruct F as [F|(l & E)].
      + left. apply F, live. lia.
      + right. exists l. rewrite E. cbn. rewrite Nat.eqb_refl. split; [reflexivity|].
        assert (NA : forall d, l <> LArrive d) by (pose proof (proj2 RUN m) as S; rewrite E in S; inversion S; assumption).
        intros A. destruct l; cbn in A; try contradiction. now apply (NA d0).
    - intros j Hj Ed E. destruct (label_arrival k _ _ E) as [(m & _ & X)|X]; [discriminate|].
      revert X. apply (PP _ c (state_at j)); [apply live; lia|exact Ed].
    - rewrite <- D, Ex, nth_error_app1; [exact Hd|]. apply nth_error_Some. congruence.
    - exact Hr.
    - exists (S n0 + m). rewrite live_trace, calls_app.
      replace (calls r (map LArrive q0)) with (@nil (list byte * address)); [exact Hm|].
      clear. induction q0 as [|a q IH]; cbn; auto.
  Qed.
End one_socket.

(** C109. While the network goes on delivering to a listener, nothing delivered to it waits for ever, whatever happens at other
    sockets and on other hosts: the i-th datagram delivered to it, before or after the start, is at some time the
    i-th packet of every receiver. *)
Lemma p_C109_no_delivery_waits_forever :
  forall (T : topology) (st : nat -> world) (ev : nat -> event) (k n0 : nat) (cfg : config),
    infinite_world T st ev -> ev n0 = WStart k cfg -> never_closed k ev -> never_fails_at k ev -> deliveries_go_on k ev ->
    fair_at k st ev -> prompt_poll_at k st ev ->
    forall (n i : nat) (data : list byte) (src : address) (r : nat),
      nth_error (delivered k (events_upto ev n)) i = Some (data, src) -> r < added k (events_upto ev n0) ->
      exists m, nth_error (calls r (trace_at k (events_upto ev m))) i = Some (firstn (cf_buffersize cfg) data, src).
Proof.
  intros T st ev k n0 cfg RUN ST NC NF GO FA PP n i data src r H R.
  change (firstn (cf_buffersize cfg) data, src) with (packet_of (listen_config cfg (added k (events_upto ev n0))) (data, src)).
  eapply live_served; eauto.
Qed.

Lemma in_calls_upto k r ev i x b m : nth_error (calls r (trace_at k (events_upto ev m))) i = Some x ->
  length (calls r (trace_at k (events_upto ev b))) <= i ->
  exists n, b <= n /\ ev n = WListener k (LCall r (fst x) (snd x)).
Proof.
  induction m as [|m IH]; intros H L; [destruct i; discriminate|].
  rewrite events_upto_S, trace_at_app, calls_app, trace_at_one in H.
  destruct (Nat.lt_ge_cases i (length (calls r (trace_at k (events_upto ev m))))) as [Lt|Ge].
  - rewrite nth_error_app1 in H by exact Lt. now apply IH.
  - rewrite nth_error_app2 in H by exact Ge. exists m.
    assert (Hb : b <= m).
    { destruct (Nat.le_gt_cases b m) as [|G]; [assumption|]. exfalso.
      assert (P : forall a b, a <= b -> exists y, events_upto ev b = events_upto ev a ++ y).
      { clear. induction 1 as [|b H [y IH]]; [exists []; now rewrite app_nil_r|].
        rewrite events_upto_S, IH, <- app_assoc. eauto. }
      destruct (P (S m) b G) as [y Ey]. rewrite Ey, trace_at_app, calls_app, events_upto_S, trace_at_app, calls_app, trace_at_one, !app_length in L.
      assert (nth_error (calls r match label_at k (ev m) with Some l => [l] | None => [] end)
                (i - length (calls r (trace_at k (events_upto ev m)))) <> None) as N by congruence.
      apply nth_error_Some in N. lia. }
    split; [exact Hb|]. destruct (label_at k (ev m)) as [l|] eqn:E; [|destruct (_ - _); discriminate].
    assert (Y : exists pkt src, l = LCall r pkt src /\ (pkt, src) = x).
    { destruct l; cbn in H; try (destruct (_ - _); discriminate).
      destruct (Nat.eqb_spec r r0) as [->|]; [|destruct (_ - _); discriminate].
      destruct (_ - _) as [|z]; cbn in H; [|destruct z; discriminate]. injection H as <-. eauto. }
    destruct Y as (pkt & src & -> & <-). destruct (label_arrival k _ _ E) as [(y & _ & Y)|Y]; [discriminate|exact Y].
Qed.

(** C109. A packet that a sender sends and that the network brings to a listener is handed to every receiver after that:
    exactly its bytes, if they fit the buffer, with the source address of the datagram. *)
Lemma p_C109_sent_and_delivered_is_received :
  forall (T : topology) (st : nat -> world) (ev : nat -> event) (k n0 : nat) (cfg : config),
    infinite_world T st ev -> ev n0 = WStart k cfg -> never_closed k ev -> never_fails_at k ev -> deliveries_go_on k ev ->
    fair_at k st ev -> prompt_poll_at k st ev ->
    forall (i a b : nat) (p : packet) (m : message) (r : nat),
      ev a = WSend i p m -> ev b = WDeliver k m -> length (packet_bytes p) <= cf_buffersize cfg ->
      r < added k (events_upto ev n0) ->
      exists n, b < n /\ ev n = WListener k (LCall r (packet_bytes p) (m_from m)).
Proof.
  intros T st ev k n0 cfg RUN ST NC NF GO FA PP i a b p m r Ea Eb Le Hr.
  set (c := listen_config cfg (added k (events_upto ev n0))).
  assert (D : m_data m = packet_bytes p).
  { pose proof (proj2 RUN a) as S. rewrite Ea in S. inversion S as [| | | | | |w k' s q os z p' m' H1 H2 H3| | | |]; subst.
    rewrite p_C63_send_is_exact in H3. now injection H3. }
  set (j := length (delivered k (events_upto ev b))).
  assert (Hj : nth_error (delivered k (events_upto ev (S b))) j = Some (datagram_of m)).
  { rewrite events_upto_S, delivered_app, nth_error_app2, Nat.sub_diag, Eb by lia. cbn. now rewrite Nat.eqb_refl. }
  destruct (p_C109_no_delivery_waits_forever T st ev k n0 cfg RUN ST NC NF GO FA PP _ _ _ _ r Hj Hr) as (x & Hx).
  assert (L : length (calls r (trace_at k (events_upto ev b))) <= j).
  { pose proof (world_prefix _ _ _ RUN b) as R.
    destruct (Nat.le_gt_cases b n0) as [B|B].
    - destruct (live_start T st ev k cfg n0 RUN ST) as [_ Q].
      assert (P : forall a b, a <= b -> exists y, events_upto ev b = events_upto ev a ++ y).
      { clear. induction 1 as [|b H [y IH]]; [exists []; now rewrite app_nil_r|].
        rewrite events_upto_S, IH, <- app_assoc. eauto. }
      destruct (P b (S n0) ltac:(lia)) as [y Ey]. apply (f_equal (calls r)) in Q. rewrite Ey, trace_at_app, calls_app in Q.
      replace (calls r (map LArrive (delivered k (events_upto ev n0)))) with (@nil (list byte * address)) in Q
        by (generalize (delivered k (events_upto ev n0)) as l; induction l as [|z l IH]; cbn; auto).
      apply app_eq_nil in Q as [-> _]. cbn. lia.
    - destruct (p_C85_each_listener_alone T _ _ k cfg (listen_config cfg (added k (events_upto ev b))) R) as [A (s & Rs & _)].
      + apply in_events_upto. eauto.
      + rewrite in_events_upto. intros (y & _ & E). exact (NC _ E).
      + apply configured_listen_config.
      + set (c' := listen_config cfg (added k (events_upto ev b))) in *.
        destruct (p_C48_exactly_once_in_order _ _ _ _ r Rs) as [X Y].
        destruct (Nat.lt_ge_cases r (nc_receivers c')) as [Lt|Ge].
        * destruct (X Lt) as (miss & E & _). apply (f_equal (@length _)) in E. rewrite map_length, app_length in E.
          unfold received in E. rewrite firstn_length in E. cbn [app] in E. rewrite A in E. unfold j. lia.
        * rewrite (Y Ge). cbn. lia. }
  destruct (in_calls_upto _ _ _ _ _ _ _ Hx L) as (n & Hn & En). exists n.
  assert (n <> b) by (intros ->; congruence). split; [lia|].
  rewrite En, D, firstn_all2 by exact Le. reflexivity.
Qed.

(** ** An infinite execution of two hosts

    A sender of [two_hosts] sends a packet once; the network brings a copy before the listener is started, and from then on one in every turn
    of the listener, so that one is always waiting. Between the turns somebody fails to bind a socket. *)
Definition ex_message (p : packet) : message := {|
  m_origin := 0; m_from := v4 10 0 0 1 8000; m_to := v4 10 0 0 2 9000; m_data := packet_bytes p |}.
Section example.
  Context (cfg : config) (p : packet) (FITS : length (packet_bytes p) <= cf_buffersize cfg).
  Let c1 : net_config := listen_config cfg 1.
  Let mg : message := ex_message p.
  Let data : list byte := packet_bytes p.
  Let dg : datagram := (data, v4 10 0 0 1 8000).
  Let fresh : list byte := repeat x00 (cf_buffersize cfg).
  Let used : list byte := fst (recv_into data fresh).

  Definition ex_world (e : endpoint) (sent : list message) : world := {|
    w_sockets := [{| sk_host := 0; sk_address := v4 0 0 0 0 8000; sk_end := Sending [] |};
                  {| sk_host := 1; sk_address := v4 0 0 0 0 9000; sk_end := e |}];
    w_sent := sent |}.
  Definition ex_loop (m : nat) : net_state :=
    let buf := if m <? 4 then fresh else used in
    let from := v4 10 0 0 1 8000 in
    match m mod 8 with
    | 0 | 1 => {| ns_queue := [dg]; ns_edge := m <? 2; ns_buffer := buf; ns_pc := Polling |}
    | 2 => {| ns_queue := [dg; dg]; ns_edge := true; ns_buffer := buf; ns_pc := Polling |}
    | 3 => {| ns_queue := [dg; dg]; ns_edge := false; ns_buffer := buf; ns_pc := Handling 1 |}
    | 4 => {| ns_queue := [dg]; ns_edge := false; ns_buffer := buf; ns_pc := Dispatching 0 data from [0] [] false |}
    | 5 => {| ns_queue := [dg]; ns_edge := false; ns_buffer := buf; ns_pc := Dispatching 0 data from [] [0] false |}
    | 6 => {| ns_queue := [dg]; ns_edge := false; ns_buffer := buf; ns_pc := Dispatching 0 data from [] [] false |}
    | _ => {| ns_queue := [dg]; ns_edge := false; ns_buffer := buf; ns_pc := Handling 0 |}
    end.
  Definition ex_wst (n : nat) : world :=
    match n with
    | 0 => world_init
    | 1 => add_socket world_init 0 (v4 0 0 0 0 8000) (Sending [])
    | 2 => ex_world (Waiting 0 []) []
    | 3 => ex_world (Waiting 0 []) [mg]
    | 4 => ex_world (Waiting 0 [dg]) [mg]
    | 5 => ex_world (Waiting 1 [dg]) [mg]
    | S (S (S (S (S (S m))))) => ex_world (Listening c1 (ex_loop m)) [mg]
    end.
  Definition ex_wev (n : nat) : event :=
    match n with
    | 0 => WBindSender 0 0 (v4 0 0 0 0 8000) (v4 0 0 0 0 8000)
    | 1 => WBindReceiver 1 1 (v4 0 0 0 0 9000) (v4 0 0 0 0 9000)
    | 2 => WSend 0 p mg
    | 3 => WDeliver 1 mg
    | 4 => WAddReceiver 1
    | 5 => WStart 1 cfg
    | S (S (S (S (S (S m))))) =>
        match m mod 8 with
        | 0 => WBindFails 0 (v4 0 0 0 0 8000) EIo
        | 1 => WDeliver 1 mg
        | 2 => WListener 1 (LPoll 1)
        | 3 => WListener 1 LRecv
        | 4 => WListener 1 (LCall 0 data (v4 10 0 0 1 8000))
        | 5 => WListener 1 (LReturn 0)
        | 6 => WListener 1 LScopeEnd
        | _ => WListener 1 LNext
        end
    end.

  Lemma mod8 q j : j < 8 -> (8 * q + j) mod 8 = j.
  Proof. intros Hj. symmetry. apply (Nat.mod_unique _ _ q); lia. Qed.
  Lemma ex_recv buf : buf = fresh \/ buf = used -> recv_into data buf = (used, length data) /\ firstn (length data) used = data.
  Proof.
    assert (Lf : length fresh = cf_buffersize cfg) by apply repeat_length.
    assert (U : used = data ++ skipn (length data) fresh).
    { unfold used, recv_into. cbn [fst]. fold data in FITS. rewrite Lf, Nat.min_l by exact FITS. now rewrite firstn_all. }
    assert (Lu : length used = cf_buffersize cfg) by (rewrite U, app_length, skipn_length, Lf; fold data in FITS; lia).
    intros H. split.
    - unfold recv_into. fold data in FITS. destruct H as [->| ->].
      + rewrite Lf, Nat.min_l by exact FITS. now rewrite firstn_all, <- U.
      + rewrite Lu, Nat.min_l by exact FITS. rewrite firstn_all. f_equal. rewrite U at 1. rewrite skipn_app, skipn_all, Nat.sub_diag. cbn.
        symmetry. exact U.
    - rewrite U, firstn_app, Nat.sub_diag, firstn_all. cbn. apply app_nil_r.
  Qed.
  Lemma ex_loop_at q j : j < 8 -> 4 <= 8 * q + j -> ex_loop (8 * q + j) = ex_loop (8 + j).
  Proof.
    intros Hj L. unfold ex_loop. rewrite (mod8 q j Hj).
    replace ((8 + j) mod 8) with j by (symmetry; apply (mod8 1 j Hj)).
    replace (8 * q + j <? 4) with false by (symmetry; apply Nat.ltb_ge; lia).
    replace (8 * q + j <? 2) with false by (symmetry; apply Nat.ltb_ge; lia).
    replace (8 + j <? 4) with false by (symmetry; apply Nat.ltb_ge; lia).
    replace (8 + j <? 2) with false by (symmetry; apply Nat.ltb_ge; lia). reflexivity.
  Qed.
  Lemma ex_listener_step l n n' : step c1 n l n' -> (forall d, l <> LArrive d) ->
    wstep two_hosts (ex_world (Listening c1 n) [mg]) (WListener 1 l) (ex_world (Listening c1 n') [mg]).
  Proof.
    intros S N. exact (wstep_listener two_hosts (ex_world (Listening c1 n) [mg]) 1 _ c1 n l n' eq_refl eq_refl S N).
  Qed.
  Lemma ex_deliver_step n n' : ns_pc n = Polling -> n' = {| ns_queue := ns_queue n ++ [dg]; ns_edge := true; ns_buffer := ns_buffer n; ns_pc := ns_pc n |} ->
    wstep two_hosts (ex_world (Listening c1 n) [mg]) (WDeliver 1 mg) (ex_world (Listening c1 n') [mg]).
  Proof.
    intros P ->. refine (wstep_deliver two_hosts (ex_world (Listening c1 n) [mg]) 1 _ mg eq_refl _ _ _).
    - cbn. now rewrite P.
    - now left.
    - split; [reflexivity|]. split; [reflexivity|right; reflexivity].
  Qed.
  Lemma ex_recv_step buf : buf = fresh \/ buf = used ->
    step c1 {| ns_queue := [dg; dg]; ns_edge := false; ns_buffer := buf; ns_pc := Handling 1 |} LRecv
      {| ns_queue := [dg]; ns_edge := false; ns_buffer := used; ns_pc := Dispatching 0 data (v4 10 0 0 1 8000) [0] [] false |}.
  Proof.
    intros H. destruct (ex_recv buf H) as [E1 E2].
    pose proof (step_recv c1 {| ns_queue := [dg; dg]; ns_edge := false; ns_buffer := buf; ns_pc := Handling 1 |}
      0 data (v4 10 0 0 1 8000) [dg] eq_refl eq_refl) as S.
    cbn [ns_buffer ns_edge] in S. rewrite E1, E2 in S. exact S.
  Qed.
  Lemma ex_loop_step m : wstep two_hosts (ex_wst (6 + m)) (ex_wev (6 + m)) (ex_wst (S (6 + m))).
  Proof.
    change (ex_wst (6 + m)) with (ex_world (Listening c1 (ex_loop m)) [mg]).
    change (ex_wst (S (6 + m))) with (ex_world (Listening c1 (ex_loop (S m))) [mg]).
    assert (Q : exists q j, j < 8 /\ m = 8 * q + j).
    { exists (m / 8), (m mod 8). split; [apply Nat.mod_upper_bound; lia|apply Nat.div_mod; lia]. }
    destruct Q as (q & j & Hj & ->).
    assert (Ev : ex_wev (6 + (8 * q + j)) = ex_wev (6 + j)).
    { cbn [Nat.add ex_wev]. rewrite (mod8 q j Hj), Nat.mod_small by exact Hj. reflexivity. }
    rewrite Ev. clear Ev.
    (* one turn of the listener, the first one or a later one *)
    assert (X : exists a b, ex_loop (8 * q + j) = a /\ ex_loop (S (8 * q + j)) = b /\
              ((a = ex_loop j /\ b = ex_loop (S j)) \/ (a = ex_loop (8 + j) /\ b = ex_loop (8 + S j)))).
    { exists (ex_loop (8 * q + j)), (ex_loop (S (8 * q + j))). split; [reflexivity|]. split; [reflexivity|].
      destruct q as [|q]; [left; split; reflexivity|right]. split; [apply ex_loop_at; lia|].
      replace (S (8 * S q + j)) with (8 * S q + S j) by lia.
      destruct (Nat.eq_dec j 7) as [->|].
      - replace (8 * S q + 8) with (8 * S (S q) + 0) by lia. rewrite ex_loop_at by lia. reflexivity.
      - apply ex_loop_at; lia. }
    destruct X as (a & b & -> & -> & [[-> ->]|[-> ->]]).
    all: destruct j as [|[|[|[|[|[|[|[|j]]]]]]]]; [..|lia].
    all: match goal with
      | |- wstep _ _ (ex_wev (6 + 0)) _ => apply wstep_bind_fails
      | |- wstep _ _ (ex_wev (6 + 1)) _ => apply ex_deliver_step; reflexivity
      | _ => apply ex_listener_step; [|discriminate]
      end.
    1,7: exact (step_poll_ready c1 {| ns_queue := [dg; dg]; ns_edge := true; ns_buffer := _; ns_pc := Polling |} eq_refl eq_refl).
    1: exact (ex_recv_step fresh (or_introl eq_refl)).
    5: exact (ex_recv_step used (or_intror eq_refl)).
    1,5: exact (step_call c1 {| ns_queue := [dg]; ns_edge := false; ns_buffer := _; ns_pc := Dispatching 0 data (v4 10 0 0 1 8000) [0] [] false |}
               0 data (v4 10 0 0 1 8000) [] 0 [] [] false eq_refl).
    1,4: exact (step_return c1 {| ns_queue := [dg]; ns_edge := false; ns_buffer := _; ns_pc := Dispatching 0 data (v4 10 0 0 1 8000) [] [0] false |}
               0 data (v4 10 0 0 1 8000) [] [] 0 [] false eq_refl).
    1,3: exact (step_scope_end c1 {| ns_queue := [dg]; ns_edge := false; ns_buffer := _; ns_pc := Dispatching 0 data (v4 10 0 0 1 8000) [] [] false |}
               0 data (v4 10 0 0 1 8000) eq_refl).
    all: exact (step_next c1 {| ns_queue := [dg]; ns_edge := false; ns_buffer := _; ns_pc := Handling 0 |} eq_refl).
  Qed.
  Lemma ex_infinite_world : infinite_world two_hosts ex_wst ex_wev.
  Proof.
    split; [reflexivity|]. intros n.
    destruct n as [|[|[|[|[|[|m]]]]]]; [..|apply ex_loop_step].
    - apply (wstep_bind_sender two_hosts world_init 0). repeat split; [discriminate|]. intros s [].
    - apply (wstep_bind_receiver two_hosts (ex_wst 1) 1). repeat split; [discriminate|]. intros s [<-|[]]. discriminate.
    - eapply (wstep_send two_hosts (ex_wst 2) 0 _ [] (fun _ _ => Ok 2) 2); try reflexivity; [right; reflexivity|left; split; reflexivity].
    - refine (wstep_deliver two_hosts (ex_wst 3) 1 {| sk_host := 1; sk_address := v4 0 0 0 0 9000; sk_end := Waiting 0 [] |} mg eq_refl eq_refl _ _);
        [now left|]. split; [reflexivity|]. split; [reflexivity|right; reflexivity].
    - exact (wstep_add_receiver two_hosts (ex_wst 4) 1 _ 0 [dg] eq_refl eq_refl).
    - exact (wstep_start two_hosts (ex_wst 5) 1 _ 1 [dg] cfg eq_refl eq_refl).
  Qed.
  Lemma ex_conditions : infinite_world two_hosts ex_wst ex_wev /\ ex_wev 5 = WStart 1 cfg /\ never_closed 1 ex_wev /\ never_fails_at 1 ex_wev /\
    deliveries_go_on 1 ex_wev /\ fair_at 1 ex_wst ex_wev /\ prompt_poll_at 1 ex_wst ex_wev /\
    added 1 (events_upto ex_wev 5) = 1 /\ ex_wev 2 = WSend 0 p mg /\ ex_wev 3 = WDeliver 1 mg.
  Proof.
    assert (D : forall m, ex_wev (6 + (8 * m + 1)) = WDeliver 1 mg)
      by (intros m; cbn [Nat.add ex_wev]; rewrite mod8 by lia; reflexivity).
    split; [exact ex_infinite_world|]. split; [reflexivity|].
    split. { intros [|[|[|[|[|[|m]]]]]]; try discriminate; cbn [ex_wev]; destruct (m mod 8) as [|[|[|[|[|[|[|]]]]]]]; discriminate. }
    split. { intros [|[|[|[|[|[|m]]]]]] l; try discriminate; cbn [ex_wev]; destruct (m mod 8) as [|[|[|[|[|[|[|]]]]]]]; intros E; inversion E; subst; cbn; auto. }
    split. { intros n. exists (6 + (8 * n + 1)), mg. split; [lia|]. exact (D n). }
    split. { intros n. exists (6 + (8 * n + 2)). split; [lia|]. right. exists (LPoll 1). cbn [Nat.add ex_wev]. rewrite mod8 by lia. reflexivity. }
    split. { intros [|[|[|[|[|[|m]]]]]] c s _ _; try discriminate; cbn [ex_wev]; destruct (m mod 8) as [|[|[|[|[|[|[|]]]]]]]; discriminate. }
    repeat split; reflexivity.
  Qed.
End example.

(** the hypotheses of C109 are met by this execution, with a packet sent and delivered before the start *)
Example ex_C109_run :
  let p := Packet [x01; x02] in
  let st := ex_wst small_config p in
  let ev := ex_wev small_config p in
  infinite_world two_hosts st ev /\ ev 5 = WStart 1 small_config /\ never_closed 1 ev /\ never_fails_at 1 ev /\
  deliveries_go_on 1 ev /\ fair_at 1 st ev /\ prompt_poll_at 1 st ev /\
  added 1 (events_upto ev 5) = 1 /\ ev 2 = WSend 0 p (ex_message p) /\ ev 3 = WDeliver 1 (ex_message p) /\
  delivered 1 (events_upto ev 8) = [([x01; x02], v4 10 0 0 1 8000); ([x01; x02], v4 10 0 0 1 8000)] /\
  length (packet_bytes p) <= cf_buffersize small_config.
Proof.
  intros p st ev. assert (F : length (packet_bytes p) <= cf_buffersize small_config) by (cbn; lia).
  pose proof (ex_conditions small_config p F) as H. fold st ev in H.
  destruct H as (H1 & H2 & H3 & H4 & H5 & H6 & H7 & H8 & H9 & H10). repeat (split; [assumption|]). split; [reflexivity|exact F].
Qed.
