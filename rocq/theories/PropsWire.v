(** C58: the bytes of serialised objects. *)
From Coq Require Import String NArith ZArith List Bool Arith Lia.
From Verif Require Import Bytes Types GenModel ChainModel StrModel SetModel PackModel PackSpec NewFacts WpackModel MpackModel MpackSpec MpackFacts
  MpackFacts2 MpackFacts3 MpackFacts4 PropsPack.
Import ListNotations.
Local Open Scope string_scope.
Local Open Scope list_scope.
Local Open Scope N_scope.

(** Reading accepts exactly the MessagePack format (MpackSpec); bytes after the first
    object are ignored. *)
Theorem C58_reads_the_format : forall data n, bytes data -> (decode data = Ok n <-> exists p t, data = p ++ t /\ msgpack p n).
Proof. exact decode_iff. Qed.

(** Whatever the bytes: reading ends, touches nothing outside of them, and gives an
    object with no more parts than there are bytes, or the error EINVAL. *)
Theorem C58_any_bytes : forall data, bytes data ->
  decode data = Er EINVAL \/ exists n, decode data = Ok n /\ (objects n <= length data)%nat.
Proof. exact decode_total. Qed.

(** The format is not ambiguous, and data that was cut short is refused. *)
Theorem C58_one_reading : forall p n p' n' t t', msgpack p n -> msgpack p' n' -> p ++ t = p' ++ t' -> p = p' /\ n = n'.
Proof.
  intros p n p' n' t t' M M' E. pose proof (parse_complete p n t M) as A. rewrite E, (parse_complete p' n' t' M') in A. injection A as <- L.
  split; [|reflexivity]. apply (f_equal (firstn (length p))) in E. rewrite firstn_app, Nat.sub_diag, firstn_all, app_nil_r in E.
  rewrite <- L, firstn_app, Nat.sub_diag, firstn_all, app_nil_r in E. exact E.
Qed.
Theorem C58_cut_short : forall p n q t, bytes p -> msgpack p n -> p = q ++ t -> t <> [] -> decode q = Er EINVAL.
Proof. exact decode_prefix. Qed.

(** What is written is in the format and reads back as the same object. *)
Theorem C58_written : forall n, carriable n -> exists b, encode n = Ok b /\ msgpack b n /\ forall t, decode (b ++ t) = Ok n.
Proof.
  intros n C. exists (enc n). pose proof (enc_ok n C) as M. split; [apply encode_ok; exact C|]. split; [exact M|].
  intros t. unfold decode. rewrite (parse_complete _ _ t M). reflexivity.
Qed.

(** From a chain to bytes and back, through the growing buffer of the writer, whatever
    the pieces in which the bytes are flushed to it. *)
Theorem C58_chain : forall nd tb c, (forall i, generous (nd i) tb) -> chain_built c -> storable c -> roomy c ->
  exists n b c', chain_pack c = Ok n /\ encode n = Ok b /\
  (forall chunks grown, concat chunks = b -> (forall i k, grown i k <> None) -> N.of_nat (length b) < 2 ^ 63 ->
     exists p, flush_all grown 0 wpack_new chunks = Ok p /\ get_data p = Ok b) /\
  bind (decode b) (chain_unpack nd tb) = Ok c' /\ same_chain c c'.
Proof.
  intros nd tb c G CB SO R.
  assert (MO : Forall (fun u => forall l, set_read u = Ok l -> N.of_nat (length l) < two32) (nc_sets c)).
  { destruct R as (_ & _ & R & _). eapply Forall_impl; [|exact R]. intros u (_ & _ & U) l E. exact (proj1 (U l E)). }
  destruct (C22_copy_succeeds nd tb c G CB SO MO) as (c' & E & S). unfold chain_copy in E.
  destruct (chain_pack c) as [n|] eqn:EP; [|discriminate E]. cbn [bind] in E.
  destruct (C58_written n (carry_chain c n CB SO R EP)) as (b & EB & _ & D). specialize (D []). rewrite app_nil_r in D.
  exists n, b, c'. split; [reflexivity|]. split; [exact EB|]. split; [|split; [rewrite D; exact E|exact S]].
  intros chunks grown EC GR L. rewrite <- EC. apply C48_concatenation_partial; [exact GR|rewrite EC; exact L].
Qed.

(** ** Cases *)
Example C58_bytes : encode (NMap [(NStr [97], NArr [NUint 300; NInt (-5); NInt (-200); NBool true; NNil]); (NStr [98], NBin [1; 2])]) =
    Ok [0x82; 0xa1; 97; 0x95; 0xcd; 1; 44; 0xfb; 0xd1; 0xff; 0x38; 0xc3; 0xc0; 0xa1; 98; 0xc4; 2; 1; 2] /\
  decode [0x82; 0xa1; 97; 0x95; 0xcd; 1; 44; 0xfb; 0xd1; 0xff; 0x38; 0xc3; 0xc0; 0xa1; 98; 0xc4; 2; 1; 2; 77] =
    Ok (NMap [(NStr [97], NArr [NUint 300; NInt (-5); NInt (-200); NBool true; NNil]); (NStr [98], NBin [1; 2])]) /\
  decode [0x82; 0xa1; 97; 0x95; 0xcd; 1; 44; 0xfb; 0xd1; 0xff; 0x38; 0xc3; 0xc0; 0xa1; 98; 0xc4; 2; 1] = Er EINVAL /\
  decode [0xdd; 255; 255; 255; 255; 0] = Er EINVAL /\ decode [0xc1] = Er EINVAL /\ decode [0xd4; 1; 1] = Er EINVAL /\ decode [] = Er EINVAL.
Proof. vm_compute. repeat split. Qed.

Example C58_carriable : carriable (NMap [(NStr [97], NArr [NUint 300; NInt (-5); NInt (-200); NBool true; NNil])]).
Proof.
  constructor; [vm_compute; reflexivity|]. constructor; [|constructor]. cbn [fst snd]. split; [constructor; vm_compute; reflexivity|].
  constructor; [vm_compute; reflexivity|].
  constructor; [constructor; vm_compute; reflexivity|].
  constructor; [constructor; lia|]. constructor; [constructor; lia|]. constructor; [constructor|]. constructor; [constructor|constructor].
Qed.

Example C58_roomy : roomy ex_nchain.
Proof.
  assert (nc_sets ex_nchain = [ex_set; ex_set2]) as ES by apply ex_nchain_shape.
  split; [vm_compute; reflexivity|]. rewrite ES. split; [vm_compute; reflexivity|]. split.
  - constructor; [|constructor; [|constructor]]; (split; [vm_compute; auto|split; [vm_compute; reflexivity|]]); intros l E; vm_compute in E; injection E as <-;
      (split; [vm_compute; reflexivity|]); repeat (constructor; [vm_compute; reflexivity|]); constructor.
  - split; [vm_compute; reflexivity|]. apply Forall_forall. intros r Hr. vm_compute in Hr. destruct Hr as [<-|[<-|[]]];
      (split; [vm_compute; reflexivity|]); repeat (constructor; [vm_compute; reflexivity|]); constructor.
Qed.
Example C58_chain_case :
  match bind (chain_pack ex_nchain) encode with
  | Ok b => length b = 393%nat /\
      match bind (decode b) (chain_unpack (fun i j => Some (10 * i + j)%nat) (fun _ => true)) with
      | Ok c' => nc_chain c' = nc_chain ex_nchain
      | Er _ => False
      end
  | Er _ => False
  end.
Proof. vm_compute. repeat split. Qed.

Print Assumptions C58_reads_the_format.
Print Assumptions C58_any_bytes.
Print Assumptions C58_one_reading.
Print Assumptions C58_cut_short.
Print Assumptions C58_written.
Print Assumptions C58_chain.
