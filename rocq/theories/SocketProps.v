From Coq Require Import ZArith List Bool Lia.
From Verif Require Import CInt IpModel IpSpec IpProofs SocketModel SocketSpec SocketProofs.
Import ListNotations.
Local Open Scope Z_scope.

(** A provider asked for an address, a port, perhaps a device, and a backlog: the
    socket is made, the injector is called, the socket is bound to exactly that address
    and port in network order, then to the device, and listens with the backlog, a
    negative one meaning as many as possible; or the first step that fails is the last
    one, the socket is closed and the result is negative. *)
Theorem C67_provider4 : forall (k : kernel) (le : bool) address port interface backlog functionp h rc evs,
  is_u32 address -> is_u16 port ->
  ipc4_stream_provider_base k le address port interface backlog functionp h = (rc, evs) ->
  exists nm dev, names4 nm address port /\ (forall fd, on_device interface fd (dev fd)) /\
    made (Socket AF_INET SOCK_STREAM)
      (fun fd => injected functionp fd ++ [Bind fd nm] ++ dev fd ++ [Listen fd (if backlog <? 0 then 2147483647 else backlog)]) evs rc.
Proof.
  intros k le a p i b f h rc evs Ha Hp E. exists (name4 le a p), (devices i). split; [apply name4_spec; assumption|].
  split; [apply devices_spec|]. pose proof (p4 k le a p i b f h) as T. rewrite E in T. exact T.
Qed.
Print Assumptions C67_provider4.

(** A consumer: bound to the near address and port, connected to the far ones. *)
Theorem C67_consumer4 : forall (k : kernel) (le : bool) address port address0 port0 interface functionp h rc evs,
  is_u32 address -> is_u16 port -> is_u32 address0 -> is_u16 port0 ->
  ipc4_stream_consumer_base k le address port address0 port0 interface functionp h = (rc, evs) ->
  exists near far dev, names4 near address0 port0 /\ names4 far address port /\ (forall fd, on_device interface fd (dev fd)) /\
    made (Socket AF_INET SOCK_STREAM)
      (fun fd => injected functionp fd ++ [Bind fd near] ++ dev fd ++ [Connect fd far]) evs rc.
Proof.
  intros k le a p a0 p0 i f h rc evs Ha Hp Ha0 Hp0 E. eexists (name4 le a0 p0), _, (devices i). split; [apply name4_spec; assumption|].
  split; [apply connect4_spec; eassumption|]. split; [apply devices_spec|]. pose proof (c4 k le a p a0 p0 i f h) as T. rewrite E in T. exact T.
Qed.
Print Assumptions C67_consumer4.

Theorem C67_peer4 : forall (k : kernel) (le : bool) address port interface functionp h rc evs,
  is_u32 address -> is_u16 port ->
  ipc4_datagram_peer_base k le address port interface functionp h = (rc, evs) ->
  exists nm dev, names4 nm address port /\ (forall fd, on_device interface fd (dev fd)) /\
    made (Socket AF_INET SOCK_DGRAM) (fun fd => injected functionp fd ++ [Bind fd nm] ++ dev fd) evs rc.
Proof.
  intros k le a p i f h rc evs Ha Hp E. exists (name4 le a p), (devices i). split; [apply name4_spec; assumption|].
  split; [apply devices_spec|]. pose proof (d4 k le a p i f h) as T. rewrite E in T. eapply made_ext; [|exact T].
  intros fd. cbn [app]. rewrite app_nil_r. reflexivity.
Qed.
Print Assumptions C67_peer4.

(** The same for IPv6; here the backlog is at most that of the system. *)
Theorem C67_provider6 : forall (k : kernel) (le : bool) somaxconn address port interface backlog functionp h rc evs,
  address6 address -> is_u16 port ->
  ipc6_stream_provider_base k le somaxconn address port interface backlog functionp h = (rc, evs) ->
  exists nm dev, names6 nm address port /\ (forall fd, on_device interface fd (dev fd)) /\
    made (Socket AF_INET6 SOCK_STREAM)
      (fun fd => injected functionp fd ++ [Bind fd nm] ++ dev fd ++ [Listen fd (if backlog <? 0 then somaxconn else Z.min somaxconn backlog)]) evs rc.
Proof.
  intros k le mx a p i b f h rc evs Ha Hp E. exists (name6 le a p), (devices i). split; [apply name6_spec; assumption|].
  split; [apply devices_spec|]. pose proof (p6 k le mx a p i b f h) as T. rewrite E in T. rewrite limited_spec in T. exact T.
Qed.
Print Assumptions C67_provider6.

Theorem C67_consumer6 : forall (k : kernel) (le : bool) address port address0 port0 interface functionp h rc evs,
  address6 address -> is_u16 port -> address6 address0 -> is_u16 port0 ->
  ipc6_stream_consumer_base k le address port address0 port0 interface functionp h = (rc, evs) ->
  exists near far dev, names6 near address0 port0 /\ names6 far address port /\ (forall fd, on_device interface fd (dev fd)) /\
    made (Socket AF_INET6 SOCK_STREAM)
      (fun fd => injected functionp fd ++ [Bind fd near] ++ dev fd ++ [Connect fd far]) evs rc.
Proof.
  intros k le a p a0 p0 i f h rc evs Ha Hp Ha0 Hp0 E. eexists (name6 le a0 p0), _, (devices i). split; [apply name6_spec; assumption|].
  split; [apply connect6_spec; eassumption|]. split; [apply devices_spec|]. pose proof (c6 k le a p a0 p0 i f h) as T. rewrite E in T. exact T.
Qed.
Print Assumptions C67_consumer6.

Theorem C67_peer6 : forall (k : kernel) (le : bool) address port interface functionp h rc evs,
  address6 address -> is_u16 port ->
  ipc6_datagram_peer_base k le address port interface functionp h = (rc, evs) ->
  exists nm dev, names6 nm address port /\ (forall fd, on_device interface fd (dev fd)) /\
    made (Socket AF_INET6 SOCK_DGRAM) (fun fd => injected functionp fd ++ [Bind fd nm] ++ dev fd) evs rc.
Proof.
  intros k le a p i f h rc evs Ha Hp E. exists (name6 le a p), (devices i). split; [apply name6_spec; assumption|].
  split; [apply devices_spec|]. pose proof (d6 k le a p i f h) as T. rewrite E in T. eapply made_ext; [|exact T].
  intros fd. cbn [app]. rewrite app_nil_r. reflexivity.
Qed.
Print Assumptions C67_peer6.

(** Local sockets whose paths have at most 108 octets; an empty path is not bound. *)
Theorem C67_provider_local : forall (k : kernel) somaxconn kd path backlog functionp h rc evs,
  (length path <= 108)%nat ->
  ipcl_provider_base k somaxconn kd (Some path) backlog functionp h = (rc, evs) ->
  exists nm, namesl nm path /\
    made (Socket AF_UNIX kd)
      (fun fd => injected functionp fd ++ (match path with [] => [] | _ => [Bind fd nm] end) ++
        [Listen fd (if backlog <? 0 then somaxconn else Z.min somaxconn backlog)]) evs rc.
Proof.
  intros k mx kd p b f h rc evs Hp E. exists (Local (strncpy 108 p)). split; [unfold namesl; rewrite strncpy_short by exact Hp; reflexivity|].
  pose proof (pl k mx kd p b f h) as T. rewrite E, limited_spec in T. destruct p; exact T.
Qed.
Print Assumptions C67_provider_local.

Theorem C67_consumer_local : forall (k : kernel) kd path path0 functionp h rc evs,
  (length path <= 108)%nat -> (length path0 <= 108)%nat ->
  ipcl_consumer_base k kd path (Some path0) functionp h = (rc, evs) ->
  exists near far, namesl near path0 /\ namesl far path /\
    made (Socket AF_UNIX kd)
      (fun fd => injected functionp fd ++ (match path0 with [] => [] | _ => [Bind fd near] end) ++ [Connect fd far]) evs rc.
Proof.
  intros k kd p p0 f h rc evs Hp Hp0 E. exists (Local (strncpy 108 p0)), (Local (strncpy 108 p)).
  unfold namesl. rewrite !strncpy_short by assumption. split; [reflexivity|]. split; [reflexivity|].
  pose proof (cl k kd p p0 f h) as T. rewrite E in T. unfold locals in T. rewrite !strncpy_short in T by assumption. destruct p0; exact T.
Qed.
Print Assumptions C67_consumer_local.

Theorem C67_peer_local : forall (k : kernel) path functionp h rc evs,
  (length path <= 108)%nat ->
  ipcl_datagram_peer_base k (Some path) functionp h = (rc, evs) ->
  exists nm, namesl nm path /\
    made (Socket AF_UNIX SOCK_DGRAM) (fun fd => injected functionp fd ++ (match path with [] => [] | _ => [Bind fd nm] end)) evs rc.
Proof.
  intros k p f h rc evs Hp E. exists (Local (strncpy 108 p)). split; [unfold namesl; rewrite strncpy_short by exact Hp; reflexivity|].
  pose proof (dl k p f h) as T. rewrite E in T. eapply made_ext; [|exact T].
  intros fd. destruct p; reflexivity.
Qed.
Print Assumptions C67_peer_local.

(** A longer path is cut short without notice: two paths make one and the same name. *)
Theorem C67_path_refuted : exists p q, p <> q /\ ~ In 0 p /\ ~ In 0 q /\ length p = 109%nat /\ length q = 109%nat /\
  forall k f h, ipcl_datagram_peer_base k (Some p) f h = ipcl_datagram_peer_base k (Some q) f h.
Proof.
  exists (repeat 97 108 ++ [97]), (repeat 97 108 ++ [98]).
  split; [intros E; apply app_inv_head in E; discriminate E|].
  split; [intros H; apply in_app_or in H; destruct H as [H|H]; [apply repeat_spec in H; discriminate H|destruct H as [H|[]]; discriminate H]|].
  split; [intros H; apply in_app_or in H; destruct H as [H|H]; [apply repeat_spec in H; discriminate H|destruct H as [H|[]]; discriminate H]|].
  split; [reflexivity|]. split; [reflexivity|]. intros k f h. unfold ipcl_datagram_peer_base.
  replace (sourcel k) with (fun fd p => sourcel k fd p) by reflexivity.
  assert (S : forall fd, sourcel k fd (Some (repeat 97 108 ++ [97])) = sourcel k fd (Some (repeat 97 108 ++ [98]))) by (intros; reflexivity).
  unfold seq. destruct (libc k (Socket AF_UNIX SOCK_DGRAM) h) as [fd e1]. cbv beta. rewrite S. reflexivity.
Qed.
Print Assumptions C67_path_refuted.

(** Whatever is asked for and whatever fails, no descriptor leaks. *)
Theorem C67_descriptors : forall (k : kernel) (le : bool) somaxconn, fresh k ->
  (forall a p i b f, no_leak (ipc4_stream_provider_base k le a p i b f)) /\
  (forall a p a0 p0 i f, no_leak (ipc4_stream_consumer_base k le a p a0 p0 i f)) /\
  (forall a p i f, no_leak (ipc4_datagram_peer_base k le a p i f)) /\
  (forall a p i b f, no_leak (ipc6_stream_provider_base k le somaxconn a p i b f)) /\
  (forall a p a0 p0 i f, no_leak (ipc6_stream_consumer_base k le a p a0 p0 i f)) /\
  (forall a p i f, no_leak (ipc6_datagram_peer_base k le a p i f)) /\
  (forall kd p b f, no_leak (ipcl_provider_base k somaxconn kd p b f)) /\
  (forall kd p p0 f, no_leak (ipcl_consumer_base k kd p p0 f)) /\
  (forall p f, no_leak (ipcl_datagram_peer_base k p f)).
Proof.
  intros k le mx F. repeat split.
  - intros a p i b f h rc evs E. pose proof (p4 k le a p i b f h) as T. rewrite E in T. leak k T E.
  - intros a p a0 p0 i f h rc evs E. pose proof (c4 k le a p a0 p0 i f h) as T. rewrite E in T. leak k T E.
  - intros a p i f h rc evs E. pose proof (d4 k le a p i f h) as T. rewrite E in T. leak k T E.
  - intros a p i b f h rc evs E. pose proof (p6 k le mx a p i b f h) as T. rewrite E in T. leak k T E.
  - intros a p a0 p0 i f h rc evs E. pose proof (c6 k le a p a0 p0 i f h) as T. rewrite E in T. leak k T E.
  - intros a p i f h rc evs E. pose proof (d6 k le a p i f h) as T. rewrite E in T. leak k T E.
  - intros kd [p|] b f h rc evs E; [pose proof (pl k mx kd p b f h) as T; rewrite E in T; leak k T E|].
    pose proof (pl0 k mx kd b f h) as T. rewrite E in T. apply (null_descriptors k AF_UNIX kd f evs rc h F T).
  - intros kd p [p0|] f h rc evs E; [pose proof (cl k kd p p0 f h) as T; rewrite E in T; leak k T E|].
    pose proof (cl0 k kd p f h) as T. rewrite E in T. apply (null_descriptors k AF_UNIX kd f evs rc h F T).
  - intros [p|] f h rc evs E; [pose proof (dl k p f h) as T; rewrite E in T; leak k T E|].
    pose proof (dl0 k f h) as T. rewrite E in T. apply (null_descriptors k AF_UNIX SOCK_DGRAM f evs rc h F T).
Qed.
Print Assumptions C67_descriptors.

(** Closing is one call, and whether the kernel did it can be told from the result. *)
Theorem C67_close : forall (k : kernel) fd h rc evs, close_ k fd h = (rc, evs) ->
  exists r, evs = [(Close fd, r)] /\ (0 <= r -> rc = fd) /\ (r < 0 -> rc = -2).
Proof.
  intros k fd h rc evs E. exists (k h (Close fd)). cbv [close_ libc sys seq ret] in E. cbn in E. revert E.
  destruct (Z.ltb_spec (k h (Close fd)) 0) as [L|L]; [cbn|destruct (Z.ltb_spec (k h (Close fd)) 0); [lia|]];
    intros [= <- <-]; (split; [reflexivity|lia]).
Qed.
Print Assumptions C67_close.

(** A kernel that gives the descriptors 3, 4, 5 ... and fails the listening: it is
    fresh; an IPv4 provider on port 80 of 10.0.0.1 binds it, fails to listen, and
    closes; a peer succeeds. *)
Definition some_kernel : kernel := fun h c =>
  match c with
  | Socket _ _ => 3 + fold_right Z.max 0 (descriptors [] h)
  | Listen _ _ => -98
  | _ => 0
  end.
Example C67_example : fresh some_kernel /\
  ipc4_stream_provider_base some_kernel true 167772161 80 (Some [108; 111]) (-1) true [] =
    (-1, [(Socket AF_INET SOCK_STREAM, 3); (Inject 3, 0); (Bind 3 (Inet (Inet4 [10; 0; 0; 1] [0; 80])), 0);
          (Device 3 [108; 111; 0; 0; 0; 0; 0; 0; 0; 0; 0; 0; 0; 0; 0; 0], 0); (Listen 3 2147483647, -98); (Close 3, 0)]) /\
  ipc4_datagram_peer_base some_kernel false 167772161 80 None false [] =
    (3, [(Socket AF_INET SOCK_DGRAM, 3); (Bind 3 (Inet (Inet4 [10; 0; 0; 1] [0; 80])), 0)]).
Proof.
  split; [|split; reflexivity]. intros h f d _ H. cbn [some_kernel] in H.
  assert (B : forall l x, In x l -> x <= fold_right Z.max 0 l).
  { induction l as [|y l IH]; intros x Hx; [destruct Hx|]. cbn [fold_right]. destruct Hx as [->|Hx]; [lia|]. specialize (IH x Hx). lia. }
  apply B in H. lia.
Qed.
Print Assumptions C67_example.
