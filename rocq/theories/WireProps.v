(** The texts by which the contracts talk (C109): every message that one of them sends to another or to itself is
    read there as what was meant; and what can be asked of them at all (C110). Which texts there are and how they are
    read is in JsonModel.v and WireModel.v, what "is read as" means in WireSpec.v, the grammar of the texts in JsonSpec.v
    and the interface of the contracts in WireApi.v. *)
From Coq Require Import NArith List Bool String.
From Verif Require Import Prelude JsonModel JsonSpec JsonProofs JsonGrammar WireModel WireSpec WireApi WireProofs
  WireApiProofs.
Import ListNotations.
Open Scope string_scope.
Open Scope N_scope.

(** C109. Every value is read back from its text: no account ID, method name, argument or number can break the text
    it is written into. *)
Theorem C109_json : forall v, parse (print v) = Some v.
Proof. exact parse_print. Qed.
Print Assumptions C109_json.
Example C109_json_applies :
  let v := JObj [("a""b\", JArr [JNum 18446744073709551615; JBool false; JNull; JStr ""]); ("", JObj [])] in
  print v = "{""a\""b\\"":[18446744073709551615,false,null,""""],"""":{}}" /\ parse (print v) = Some v /\
  parse " {""a\u0022b\\"" : [ 18446744073709551615, false,null ,""""], """":{ } } " = Some v /\ parse "{""a"":1" = None.
Proof. vm_compute. auto. Qed.

(** C109. The texts that are read are those of the grammar of JSON (JsonSpec.v), and each as what it spells. *)
Theorem C109_texts : forall s v, parse s = Some v <-> document s v.
Proof. exact parse_document. Qed.
Print Assumptions C109_texts.
Example C109_texts_applies :
  let tab := Ascii.ascii_of_nat 9 in let feed := Ascii.ascii_of_nat 10 in
  document (String tab " [ 0 ,""\u0041\n\/"",{ } ,-1.5e+3]") (JArr [JNum 0; JStr ("A" ++ String feed "/"); JObj []; JReal]) /\
  document ("""\u00e9\u20AC\ud83d\uDE00""") (JStr (bytes [195; 169; 226; 130; 172; 240; 159; 152; 128])) /\
  ~ (exists v, document ("""" ++ String tab """") v) /\ ~ (exists v, document "[00]" v) /\
  ~ (exists v, document "[1.]" v) /\ ~ (exists v, document "[+1]" v) /\ ~ (exists v, document """\ud83d""" v).
Proof.
  cbv zeta. do 2 (split; [apply parse_document; reflexivity|]).
  repeat split; intros (v & H); apply parse_document in H; discriminate H.
Qed.

(** C109. An amount, of 64 or 128 bits or any other, is read from a string exactly when it is its decimal numeral,
    perhaps with zeros or one plus in front; and what is written is the numeral without them. *)
Theorem C109_amounts : forall n,
  numeral (decimal n) n /\ wr_dec n = JStr (decimal n) /\
  forall b v, rd_dec b v = Some n <->
    exists d, (v = JStr d \/ v = JStr ("+" ++ d)) /\ d <> "" /\ more_digits 0 d n /\ n < b.
Proof. intros n. split; [exact (amount_numeral n)|]. split; [reflexivity|]. intros b v. exact (amount_read b v n). Qed.
Print Assumptions C109_amounts.
Example C109_amounts_applies :
  wr_dec 10000000000000000000000000 = JStr "10000000000000000000000000" /\
  rd_dec U128_BOUND (JStr "+0070") = Some 70 /\ rd_dec U128_BOUND (JStr "") = None /\
  rd_dec U128_BOUND (JStr "340282366920938463463374607431768211455") = Some 340282366920938463463374607431768211455 /\
  rd_dec U128_BOUND (JStr "340282366920938463463374607431768211456") = None /\ rd_dec U128_BOUND (JNum 5) = None.
Proof. vm_compute. auto 10. Qed.

(** C109. The staking pool factory: whatever text made it act, the new pool is initialised with the owner, the key and
    the fee it was asked for, the factory gets its own callback, and the whitelist is told of the new pool. *)
Theorem C109_pool_factory : forall name text m c s s' ps p,
  pool_factory_reads name text = Some (PoolFactoryCall m) -> PF.ctx_attached c < U128_BOUND ->
  PF.exec c s m = Ok (s', ps) -> In p ps ->
  match p with
  | PF.PCreate a _ x cb =>
      gets pool_reads (pool_factory_calls p) a
        (PoolNew (PF.a_owner_id x) (PF.a_stake_public_key x) (PF.a_reward_fee_fraction x)) /\
      gets pool_factory_reads (pool_factory_callback (PF.ctx_current c) cb) (PF.ctx_current c) (PoolFactoryCall cb)
  | PF.PAddStakingPool w a => gets whitelist_reads (pool_factory_calls p) w (WhitelistCall (WL.AddStakingPool a))
  | PF.PTransfer _ _ => pool_factory_calls p = None
  end.
Proof. exact pool_factory_understood. Qed.
Print Assumptions C109_pool_factory.
Definition pf_ctx : PF.ctx := PF.mkCtx "factory.near" "bob.near" (10 ^ 26) [].
Definition pf0 : PF.factory := PF.mkFactory "whitelist.near" [].
Example C109_pool_factory_applies :
  let m := PF.CreateStakingPool "staker" "bob.near" "KEY" (SM.mkFraction 7 100) in
  pool_factory_reads "create_staking_pool"
    "{""staking_pool_id"": ""staker"", ""owner_id"": ""bob.near"", ""stake_public_key"": ""KEY"",
      ""reward_fee_fraction"": {""denominator"": 100, ""numerator"": 7}}" = Some (PoolFactoryCall m) /\
  match PF.exec pf_ctx pf0 m with
  | Ok (_, [p]) =>
      pool_factory_calls p = Some (mkMessage "staker.factory.near" "new"
        "{""owner_id"":""bob.near"",""stake_public_key"":""KEY"",""reward_fee_fraction"":{""numerator"":7,""denominator"":100}}")
  | _ => False
  end.
Proof. vm_compute. auto. Qed.

(** C109. The lockup factory: the new lockup is initialised with exactly the arguments decided (durations, vesting
    schedule or hash, whitelist, foundation), and the factory gets its own callback. *)
Theorem C109_lockup_factory : forall name text m c s s' ps p,
  lockup_factory_reads name text = Some (LockupFactoryCall m) -> LF.ctx_attached c < U128_BOUND ->
  LF.exec c s m = Ok (s', ps) -> In p ps ->
  match p with
  | LF.PCreate a _ x cb =>
      gets lockup_reads (lockup_factory_calls p) a (LockupNew x) /\
      gets lockup_factory_reads (lockup_factory_callback (LF.ctx_current c) cb) (LF.ctx_current c) (LockupFactoryCall cb)
  | LF.PTransfer _ _ => lockup_factory_calls p = None
  end.
Proof. exact lockup_factory_understood. Qed.
Print Assumptions C109_lockup_factory.
Definition lf_ctx : LF.ctx := LF.mkCtx "lockup.near" "bob.near" (10 ^ 26) [] (fun _ => "0123456789abcdef0123456789abcdef").
Example C109_lockup_factory_applies :
  match lockup_factory_reads "create"
          "{""owner_account_id"":""bob.near"", ""lockup_duration"":""31536000000000000"", ""vesting_schedule"":
            {""VestingSchedule"": {""start_timestamp"":""100"", ""cliff_timestamp"":""200"", ""end_timestamp"":""300""}}}" with
  | Some (LockupFactoryCall m) =>
      match LF.exec lf_ctx (LF.mkFactory "whitelist.near" "foundation.near") m with
      | Ok (_, [p]) =>
          match lockup_factory_calls p with
          | Some x =>
              method x = "new" /\
              args x = "{""owner_account_id"":""bob.near"",""lockup_duration"":""31536000000000000"",""lockup_timestamp"":null,""transfers_information"":{""TransfersEnabled"":{""transfers_timestamp"":""1602614338293769340""}},""vesting_schedule"":{""VestingSchedule"":{""start_timestamp"":""100"",""cliff_timestamp"":""200"",""end_timestamp"":""300""}},""release_duration"":null,""staking_pool_whitelist_account_id"":""whitelist.near"",""foundation_account_id"":""foundation.near""}"
          | None => False
          end
      | _ => False
      end
  | _ => False
  end.
Proof. vm_compute. auto. Qed.

(** C109. The multisig factory: the new multisig gets the members and the number of confirmations asked for, or
    refuses; it refuses nothing that fits its types. *)
Theorem C109_multisig_factory : forall p,
  let m := multisig_factory_calls p in
  to m = MF.p_account p /\ method m = "new" /\
  (Forall member_fits (MF.p_members p) -> MF.p_num_confirmations p < U32_BOUND ->
   multisig2_reads_new (method m) (args m) = Some (MF.p_members p, MF.p_num_confirmations p)) /\
  (forall x, multisig2_reads_new (method m) (args m) = Some x -> x = (MF.p_members p, MF.p_num_confirmations p)).
Proof. exact multisig_factory_understood. Qed.
Print Assumptions C109_multisig_factory.
Example C109_multisig_factory_applies :
  let p := MF.mkPromise "m.factory.near" 0 [M2.AccessKey "K"; M2.Account "bob.near"] 2 0 in
  args (multisig_factory_calls p) =
    "{""members"":[{""public_key"":""K""},{""account_id"":""bob.near""}],""num_confirmations"":2}" /\
  multisig2_reads_new "new" (args (multisig_factory_calls p)) = Some ([M2.AccessKey "K"; M2.Account "bob.near"], 2) /\
  (* the factory takes these and the new multisig does not *)
  multisig2_reads_new "new" (args (multisig_factory_calls (MF.mkPromise "m" 0 [M2.Account "Bob"] 1 0))) = None /\
  multisig2_reads_new "new" (args (multisig_factory_calls (MF.mkPromise "m" 0 [M2.AccessKey "K"] 4294967297 0))) = None.
Proof. vm_compute. auto. Qed.

(** C109. The staking pool: its votes reach the voting contract, and its callback itself. *)
Theorem C109_pool : forall self p,
  match p with
  | SM.PVote v b => gets voting_reads (pool_calls self p) v (VotingCall (VM.Vote b))
  | SM.PStake _ _ true => gets pool_reads (pool_calls self p) self (PoolCall SM.OnStakeAction)
  | _ => pool_calls self p = None
  end.
Proof. exact pool_understood. Qed.
Print Assumptions C109_pool.

(** C109. The lockup: whatever text made it act, with answers that were themselves read from texts, the whitelist,
    the pool and the voting contract read what it wants of them, it reads its own callback as the one scheduled, and
    that callback reads whatever those contracts can answer as what they answered. *)
Theorem C109_lockup : forall name text m c s s' p,
  lockup_reads name text = Some (LockupCall m) -> LM.ctx_balance c < U128_BOUND ->
  Forall (fun r => forall x, r = Some x -> exists t, lockup_reads_answer m t = Some x) (LM.ctx_results c) ->
  LM.exec c s m = Ok (s', Some p) ->
  let self := LM.ctx_current c in
  match LM.p_remote p with
  | LM.RIsWhitelisted w q => gets whitelist_reads (lockup_calls self (LM.p_remote p)) w (IsWhitelisted q)
  | LM.RGetResult v => gets voting_reads (lockup_calls self (LM.p_remote p)) v GetResult
  | LM.RPool q op => gets pool_reads (lockup_calls self (LM.p_remote p)) q (wanted self op)
  | LM.RTransfer _ _ | LM.RAddFullAccessKey _ => lockup_calls self (LM.p_remote p) = None
  end /\
  forall cb g, LM.p_then p = Some (cb, g) ->
  gets lockup_reads (lockup_callback self cb) self (LockupCall cb) /\
  match LM.p_remote p with
  | LM.RIsWhitelisted _ _ => forall b, lockup_reads_answer cb (whitelist_answer b) = Some (LM.ABool b)
  | LM.RGetResult _ => forall o, fits_option U64_BOUND o ->
      lockup_reads_answer cb (voting_answer o) = Some (LM.APollResult o)
  | LM.RPool _ op =>
      if asks_balance op
      then forall n, n < U128_BOUND -> lockup_reads_answer cb (pool_answer n) = Some (LM.ABalance n)
      else forall t, lockup_reads_answer cb t = Some LM.AVoid
  | _ => forall t, lockup_reads_answer cb t = Some LM.AVoid
  end.
Proof. exact lockup_understood. Qed.
Print Assumptions C109_lockup.
Definition l_ctx who results : LM.ctx := LM.mkCtx "lock.near" who 0 60 (10 ^ 27) results (fun _ _ => "").
(** A lockup that asks the whitelist about a pool, is told "true", selects it, and then deposits. *)
Example C109_lockup_applies :
  match LM.new (l_ctx "f.near" []) false "owner.near" 10 None (LM.TransfersEnabled 0) None None "whitelist.near" None,
        lockup_reads "select_staking_pool" "{""staking_pool_account_id"": ""pool.near""}",
        lockup_reads "deposit_and_stake" "{""amount"":""1000000000000000000000000""}" with
  | Ok l, Some (LockupCall m1), Some (LockupCall m2) =>
      match LM.exec (l_ctx "owner.near" []) l m1 with
      | Ok (_, Some (LM.mkPromise w _ (Some (cb, _)))) =>
          lockup_calls "lock.near" w =
            Some (mkMessage "whitelist.near" "is_whitelisted" "{""staking_pool_account_id"":""pool.near""}") /\
          lockup_callback "lock.near" cb =
            Some (mkMessage "lock.near" "on_whitelist_is_whitelisted" "{""staking_pool_account_id"":""pool.near""}") /\
          match LM.exec (l_ctx "lock.near" [lockup_reads_answer cb "true"]) l cb with
          | Ok (l, None) =>
              match LM.exec (l_ctx "owner.near" []) l m2 with
              | Ok (_, Some (LM.mkPromise d _ (Some (cb, _)))) =>
                  lockup_calls "lock.near" d = Some (mkMessage "pool.near" "deposit_and_stake" "") /\
                  lockup_callback "lock.near" cb =
                    Some (mkMessage "lock.near" "on_staking_pool_deposit_and_stake" "{""amount"":""1000000000000000000000000""}")
              | _ => False
              end
          | _ => False
          end
      | _ => False
      end
  | _, _, _ => False
  end.
Proof. vm_compute. auto. Qed.

(** C109. The token: the receiver of a transfer with a call reads the sender, the amount and the note; the token reads
    its own callback, and every amount that the receiver can give back. (A caller's account ID is always valid.) *)
Theorem C109_wnear : forall c t t' ps v p m msg,
  is_valid_account_id (WN.ctx_predecessor c) = true -> WN.exec c t m = Ok (t', ps, v) -> In p ps ->
  match p with
  | WN.PTransferCall s r a _ =>
      s = WN.ctx_predecessor c /\ m = WN.FtTransferCall r a /\
      gets reads_on_transfer (wnear_calls msg p) r (s, a, msg) /\
      gets wnear_reads (wnear_callback (WN.ctx_current c) p) (WN.ctx_current c) (WN.FtResolveTransfer s r a)
  | WN.PTransfer _ _ => wnear_calls msg p = None
  end.
Proof. exact wnear_understood. Qed.
Print Assumptions C109_wnear.
Theorem C109_wnear_answer : forall n, n < U128_BOUND -> wnear_reads_answer (print (wr_dec n)) = WN.Unused n.
Proof. exact wnear_answer_read. Qed.
Print Assumptions C109_wnear_answer.
Example C109_wnear_applies :
  let t := WN.mkToken [("alice.near", 9); ("dex.near", 0)] 9 0 in
  match wnear_reads "ft_transfer_call" "{""receiver_id"":""dex.near"",""amount"":""4"",""msg"":""say \""hi\""""}" with
  | Some m =>
      match WN.exec (WN.mkCtx "wrap.near" "alice.near" 1 (10 ^ 14) None) t m with
      | Ok (_, [p], _) =>
          wnear_calls "say ""hi""" p = Some (mkMessage "dex.near" "ft_on_transfer"
            "{""sender_id"":""alice.near"",""amount"":""4"",""msg"":""say \""hi\""""}") /\
          wnear_reads_answer """1""" = WN.Unused 1 /\ wnear_reads_answer "1" = WN.Undecodable
      | _ => False
      end
  | _ => False
  end.
Proof. vm_compute. auto. Qed.

(** C110. Every contract speaks its interface (WireApi.v): whatever text gives the arguments of a request that fits the
    types, in any order, with any white space and with other fields, is read by the method of that name as that
    request; and nothing else is. *)
Theorem C110_pool : speaks pool_reads pool_api pool_possible.
Proof. exact pool_speaks. Qed.
Print Assumptions C110_pool.
Theorem C110_whitelist : speaks whitelist_reads whitelist_api (fun _ => True).
Proof. exact whitelist_speaks. Qed.
Print Assumptions C110_whitelist.
Theorem C110_voting : speaks voting_reads voting_api (fun _ => True).
Proof. exact voting_speaks. Qed.
Print Assumptions C110_voting.
Theorem C110_pool_factory : speaks pool_factory_reads pool_factory_api pool_factory_possible.
Proof. exact pool_factory_speaks. Qed.
Print Assumptions C110_pool_factory.
Theorem C110_lockup : speaks lockup_reads lockup_api lockup_possible.
Proof. exact lockup_speaks. Qed.
Print Assumptions C110_lockup.
Theorem C110_lockup_factory : speaks lockup_factory_reads lockup_factory_api lockup_factory_possible.
Proof. exact lockup_factory_speaks. Qed.
Print Assumptions C110_lockup_factory.
Theorem C110_multisig_factory :
  speaks multisig_factory_reads (fun q => let '(n, ms, k) := q in ("create", ("name", JStr n) :: members_api ms k))
    (fun q => snd q < U64_BOUND).
Proof. exact multisig_factory_speaks. Qed.
Print Assumptions C110_multisig_factory.
Theorem C110_multisig_new :
  speaks multisig_reads_new (fun k => ("new", [("num_confirmations", JNum k)])) (fun k => k < U32_BOUND).
Proof. exact multisig_new_speaks. Qed.
Print Assumptions C110_multisig_new.
Theorem C110_multisig : speaks multisig_reads multisig_api multisig_fits.
Proof. exact multisig_speaks. Qed.
Print Assumptions C110_multisig.
Theorem C110_multisig2_new :
  speaks multisig2_reads_new (fun q => ("new", members_api (fst q) (snd q)))
    (fun q => Forall member_fits (fst q) /\ snd q < U32_BOUND).
Proof. exact multisig2_new_speaks. Qed.
Print Assumptions C110_multisig2_new.
Theorem C110_multisig2 : speaks multisig2_reads multisig2_api multisig2_fits.
Proof. exact multisig2_speaks. Qed.
Print Assumptions C110_multisig2.
Theorem C110_wnear : forall memo note, speaks wnear_reads (wnear_api memo note) wnear_possible.
Proof. exact wnear_speaks. Qed.
Print Assumptions C110_wnear.
Example C110_gives :
  let text := "{ ""is_vote"" : true,""why"":[1, null] ,""voting_account_id"":""vote.near"" }" in
  gives text (snd (pool_api (PoolCall (SM.Vote "vote.near" true)))) /\
  pool_reads "vote" text = Some (PoolCall (SM.Vote "vote.near" true)) /\
  gives "{}" (snd (lockup_api (LockupCall (LM.TerminateVesting None)))) /\
  lockup_reads "terminate_vesting" "{}" = Some (LockupCall (LM.TerminateVesting None)).
Proof.
  cbv zeta. split; [right; eexists; split; [apply parse_document; reflexivity|]|].
  - intros k v [[= <- <-]|[[= <- <-]|[]]]; left; [eexists [_; _], []|eexists [], [_; _]];
      (split; [reflexivity|]; split; cbn; intuition discriminate).
  - split; [reflexivity|]. split; [right; eexists; split; [apply parse_document; reflexivity|]|reflexivity].
    intros k v [[= <- <-]|[]]. right. split; [reflexivity|]. intros [].
Qed.

(** C110. And what [get_request] answers, put as the argument [request] of [add_request] or [add_request_and_confirm],
    asks for the same request again. *)
Theorem C110_resubmit : forall name text r,
  multisig_reads name text = Some (M1.CAddRequest r) \/ multisig_reads name text = Some (M1.CAddRequestAndConfirm r) ->
  let again := object [("request", wr_request1 r)] in
  multisig_reads "add_request" again = Some (M1.CAddRequest r) /\
  multisig_reads "add_request_and_confirm" again = Some (M1.CAddRequestAndConfirm r).
Proof. exact resubmitted1. Qed.
Print Assumptions C110_resubmit.
Theorem C110_resubmit2 : forall name text r,
  multisig2_reads name text = Some (M2.CAddRequest r) \/ multisig2_reads name text = Some (M2.CAddRequestAndConfirm r) ->
  let again := object [("request", wr_request2 r)] in
  multisig2_reads "add_request" again = Some (M2.CAddRequest r) /\
  multisig2_reads "add_request_and_confirm" again = Some (M2.CAddRequestAndConfirm r).
Proof. exact resubmitted2. Qed.
Print Assumptions C110_resubmit2.
Example C110_applies :
  let r := M1.mkRequest "lock.near"
    [M1.FunctionCall "transfer" "{""amount"":""10"",""receiver_id"":""friend.near""}" 0 50000000000000;
     M1.AddKey "ed25519:K" (Some (M1.mkPermission (Some 5) "x.near" ["ping"]))] in
  request1_fits r /\
  multisig_reads "add_request" (object [("request", wr_request1 r)]) = Some (M1.CAddRequest r) /\
  object [("request", wr_request1 (M1.mkRequest "bob.near" [M1.Transfer 5]))] =
    "{""request"":{""receiver_id"":""bob.near"",""actions"":[{""type"":""Transfer"",""amount"":""5""}]}}" /\
  multisig_reads "confirm" "{""request_id"": 4294967295}" = Some (M1.CConfirm 4294967295) /\
  multisig_reads "confirm" "{""request_id"": 4294967296}" = None /\
  multisig_reads "confirm" "{""request_id"": 1, ""request_id"": 2}" = None /\
  lockup_reads "transfer" "{""amount"":""10"",""receiver_id"":""friend.near""}" =
    Some (LockupCall (LM.Transfer 10 "friend.near")) /\
  lockup_reads "transfer" "{""amount"":10,""receiver_id"":""friend.near""}" = None.
Proof. cbv zeta. split; [repeat constructor; reflexivity|]. vm_compute. repeat split. Qed.
