(** Model of the built-in memory maps: /repo/xlink/group.c:206-224 and 394-967,
    commodore.c:49-89 and 146-179, foenix.c:198-294, and the options that choose
    them, main.c:196-415. *)
From Coq Require Import ZArith List Bool String Ascii.
From Verif Require Import Base AssignModel ImageModel.
Import ListNotations.
Open Scope Z_scope.

(** The bytes of a string literal. *)
Definition str (s : string) : list Z := map (fun c => Z.of_nat (nat_of_ascii c)) (list_ascii_of_string s).

(** group.c:350-364 pool_Create, with the overlay UINT32_MAX of all calls but one. *)
Definition pool_ (image loc bank size : Z) : pool := Pool image UINT32_MAX loc bank size false.
(** group.c:290-308 group_Create(name, total) and the assignments to its array of
    pools; [ks] are positions in the list of pools.  An assignment beyond the end of
    the array, or a pool that is never assigned, is UB. *)
Definition group_ (name : string) (total : nat) (ks : list nat) : res group :=
  if Nat.eqb (List.length ks) total then Ok (Group (str name) ks) else UB.
Fixpoint groups_ (gs : list (res group)) : res (list group) :=
  match gs with
  | [] => Ok []
  | g :: r => let! x := g in let! l := groups_ r in Ok (x :: l)
  end.
Definition machine (ps : list pool) (gs : list (res group)) : res config :=
  let! l := groups_ gs in Ok (Config ps l).

(** group.c:206-224 group_InitCommonGameboy; the pools are from position [k] on. *)
Definition commonGameboyPools : list pool :=
  [pool_ (-1) 32768 0 8192; pool_ (-1) 49152 0 8192; pool_ (-1) 65408 0 127].
Definition commonGameboyGroups (k : nat) : list (res group) :=
  [group_ "VRAM" 1 [k]; group_ "BSS" 1 [S k]; group_ "HRAM" 1 [S (S k)]].
(** group.c:394-421 group_SetupGameboy. *)
Definition group_SetupGameboy : res config :=
  machine (map (fun i => pool_ (i * 16384) (if i =? 0 then 0 else 16384) i 16384) (zseq 0 256) ++ commonGameboyPools)
    ([group_ "HOME" 1 [0%nat]; group_ "CODE" 256 (seq 0 256); group_ "DATA" 256 (seq 0 256)] ++ commonGameboyGroups 256).
(** group.c:423-448 group_SetupSmallGameboy. *)
Definition group_SetupSmallGameboy : res config :=
  machine (pool_ 0 0 0 32768 :: commonGameboyPools)
    ([group_ "HOME" 1 [0%nat]; group_ "CODE" 1 [0%nat]; group_ "DATA" 1 [0%nat]] ++ commonGameboyGroups 1).
(** group.c:450-483 group_SetupAmiga. *)
Definition group_SetupAmiga : res config :=
  machine [pool_ 2097152 0 0 1073741823; pool_ 0 0 0 2097151; pool_ (-1) 0 0 1073741823; pool_ (-1) 0 0 1073741823]
    [group_ "CODE" 1 [0%nat]; group_ "CODE_C" 1 [1%nat]; group_ "DATA" 1 [0%nat]; group_ "DATA_C" 1 [1%nat];
     group_ "BSS" 1 [2%nat]; group_ "BSS_C" 1 [3%nat]].
(** group.c:485-502 group_SetupSegaMegaDrive. *)
Definition group_SetupSegaMegaDrive : res config :=
  machine [pool_ 0 0 0 4194304; pool_ 0 16711680 0 65536]
    [group_ "CODE" 1 [0%nat]; group_ "DATA" 1 [0%nat]; group_ "BSS" 1 [1%nat]].
(** group.c:504-531 group_SetupSegaMasterSystem. *)
Definition group_SetupSegaMasterSystem (size : Z) : res config :=
  machine [pool_ 0 0 0 1024; pool_ 1024 1024 0 (size - 16 - 1024); pool_ (-1) 49152 0 8184]
    [group_ "CODE" 2 [0%nat; 1%nat]; group_ "HOME" 1 [0%nat]; group_ "DATA" 2 [0%nat; 1%nat]; group_ "BSS" 1 [2%nat]].
(** group.c:533-570 group_SetupSegaMasterSystemBanked. *)
Definition group_SetupSegaMasterSystemBanked : res config :=
  machine ([pool_ 0 0 0 1024; pool_ 1024 1024 0 (16384 - 1024); pool_ 16384 16384 1 16368] ++
           map (fun i => pool_ (i * 16384) 32768 i 16384) (zseq 2 62) ++ [pool_ (-1) 49152 0 8184])
    [group_ "HOME" 1 [0%nat]; group_ "CODE" 65 (seq 0 65); group_ "DATA" 65 (seq 0 65); group_ "BSS" 1 [65%nat]].
(** group.c:572-618 group_SetupHC8XXROM. *)
Definition group_SetupHC8XXROM : res config :=
  machine [pool_ 0 0 1 16384; pool_ (-1) 0 128 16384]
    [group_ "HOME" 1 [0%nat]; group_ "CODE" 1 [0%nat]; group_ "DATA" 1 [0%nat]; group_ "BSS" 1 [1%nat]].
(** group.c:620-663 group_SetupHC8XXSmall. *)
Definition group_SetupHC8XXSmall : res config :=
  machine [pool_ 0 0 129 16384; pool_ 0 16384 130 49152]
    [group_ "HOME" 1 [0%nat]; group_ "CODE" 2 [0%nat; 1%nat]; group_ "DATA" 2 [0%nat; 1%nat]; group_ "BSS" 2 [0%nat; 1%nat];
     group_ "CODE_S" 1 [1%nat]; group_ "DATA_S" 1 [1%nat]; group_ "BSS_S" 1 [1%nat]].
(** group.c:665-710 group_SetupHC8XXSmallHarvard. *)
Definition group_SetupHC8XXSmallHarvard : res config :=
  machine [pool_ 0 0 129 16384; pool_ 0 16384 130 49152; pool_ 0 0 133 16384; pool_ 0 16384 134 49152]
    [group_ "HOME" 1 [0%nat]; group_ "CODE" 2 [0%nat; 1%nat]; group_ "DATA" 2 [2%nat; 3%nat]; group_ "BSS" 2 [2%nat; 3%nat];
     group_ "CODE_S" 1 [1%nat]; group_ "DATA_S" 1 [3%nat]; group_ "BSS_S" 1 [3%nat]].
(** banks[i], i < codeBanks, of the four functions that follow. *)
Definition codeBanks (firstCodeBank : Z) : Z := (256 - firstCodeBank) / 2.
Definition bankPools (firstCodeBank : Z) : list pool :=
  map (fun i => pool_ 0 32768 (i * 2 + firstCodeBank) 32768) (zseq 0 (Z.to_nat (codeBanks firstCodeBank))).
(** group.c:712-770 group_SetupHC8XXMedium. *)
Definition group_SetupHC8XXMedium : res config :=
  let n := Z.to_nat (codeBanks 131) in
  machine ([pool_ 0 0 129 16384; pool_ 0 16384 130 32768] ++ bankPools 131)
    [group_ "HOME" 2 [0%nat; 1%nat]; group_ "CODE" (2 + n) (seq 0 (2 + n)); group_ "DATA" 2 [0%nat; 1%nat];
     group_ "BSS" 2 [0%nat; 1%nat]; group_ "CODE_S" 1 [1%nat]; group_ "DATA_S" 1 [1%nat]; group_ "BSS_S" 1 [1%nat]].
(** group.c:772-833 group_SetupHC8XXMediumHarvard; the arguments of line 780 are as
    they are there. *)
Definition group_SetupHC8XXMediumHarvard : res config :=
  let n := Z.to_nat (codeBanks 135) in
  machine ([pool_ 0 0 129 16384; pool_ 0 16384 130 16384] ++ bankPools 135 ++
           [Pool 0 0 UINT32_MAX 131 16384 false; pool_ 0 16384 132 49152])
    [group_ "HOME" 2 [0%nat; 1%nat]; group_ "CODE" (2 + n) (seq 0 (2 + n)); group_ "DATA" 2 [(2 + n)%nat; (3 + n)%nat];
     group_ "BSS" 2 [(2 + n)%nat; (3 + n)%nat]; group_ "CODE_S" 1 [1%nat]; group_ "DATA_S" 1 [(3 + n)%nat];
     group_ "BSS_S" 1 [(3 + n)%nat]].
(** group.c:835-899 group_SetupHC8XXLarge. *)
Definition group_SetupHC8XXLarge : res config :=
  let n := Z.to_nat (codeBanks 131) in
  machine ([pool_ 0 0 129 16384; pool_ 0 16384 130 16384] ++ bankPools 131)
    [group_ "HOME" 2 [0%nat; 1%nat]; group_ "CODE" (2 + n) (seq 0 (2 + n)); group_ "DATA" (2 + n) (seq 0 (2 + n));
     group_ "BSS" (2 + n) (seq 0 (2 + n)); group_ "CODE_S" 1 [1%nat]; group_ "DATA_S" 1 [1%nat]; group_ "BSS_S" 1 [1%nat]].
(** group.c:947-967 group_SetupCoCo. *)
Definition group_SetupCoCo : res config :=
  machine [pool_ 0 1536 0 (32768 - 1536)] [group_ "CODE" 1 [0%nat]; group_ "DATA" 1 [0%nat]; group_ "BSS" 1 [0%nat]].

(** commodore.c:49-69 setupUnbankedCommodore: the group BSS has room for one pool. *)
Definition setupUnbankedCommodore (baseAddress size : Z) : res config :=
  machine [pool_ 0 baseAddress 0 size; Pool (-1) UINT32_MAX 512 0 baseAddress true;
           Pool (-1) UINT32_MAX (baseAddress + size) 0 (65536 - baseAddress - size) true]
    [group_ "CODE" 1 [0%nat]; group_ "DATA" 1 [0%nat]; group_ "BSS" 1 [0%nat; 1%nat; 2%nat]].
(** commodore.c:71-90 setupCommodore128ROM. *)
Definition setupCommodore128ROM (baseAddress size : Z) : res config :=
  machine [pool_ 0 baseAddress 0 size; Pool (-1) UINT32_MAX 0 0 65536 true]
    [group_ "CODE" 1 [0%nat]; group_ "DATA" 1 [0%nat]; group_ "BSS" 1 [1%nat]].
(** foenix.c:198-257 foenix_SetupFoenixA2560XGroups. *)
Definition foenix_SetupFoenixA2560XGroups : res config :=
  machine [pool_ 65536 65536 0 (4194304 - 65536); pool_ 8388608 8388608 0 4194304; pool_ 12582912 12582912 0 4194304;
           pool_ 33554432 33554432 0 67108864]
    [group_ "CODE" 1 [0%nat]; group_ "DATA" 2 [0%nat; 3%nat]; group_ "BSS" 2 [0%nat; 3%nat]; group_ "DATA_VA" 1 [1%nat];
     group_ "BSS_VA" 1 [1%nat]; group_ "DATA_VB" 1 [2%nat]; group_ "BSS_VB" 1 [2%nat]; group_ "DATA_D" 1 [3%nat];
     group_ "BSS_D" 1 [3%nat]].
(** foenix.c:259-294 foenix_SetupFoenixF256JrSmallGroups. *)
Definition foenix_SetupFoenixF256JrSmallGroups : res config :=
  machine [pool_ 0 0 0 49152; pool_ 57344 57344 0 8192; pool_ (-1) 16 0 240]
    [group_ "HOME" 1 [1%nat]; group_ "CODE" 2 [0%nat; 1%nat]; group_ "DATA" 1 [0%nat]; group_ "BSS" 1 [0%nat];
     group_ "ZP" 1 [2%nat]].

(** main.c:321-415 handleMemoryConfigurationOption: the map for -c<name>.  "ms48" is
    the name of the only map that the older option -t (main.c:196-319) has and -c has
    not. *)
Definition machines : list (string * res config) :=
  [("amiga"%string, group_SetupAmiga);
   ("c64"%string, setupUnbankedCommodore 2062 (40960 - 2062));
   ("c128"%string, setupUnbankedCommodore 7182 (61440 - 7182));
   ("c128f"%string, setupCommodore128ROM 32768 32768);
   ("c128fl"%string, setupCommodore128ROM 32768 16384);
   ("c128fh"%string, setupCommodore128ROM 49152 16384);
   ("c264"%string, setupUnbankedCommodore 4110 (64768 - 4110));
   ("ngb"%string, group_SetupGameboy);
   ("ngbs"%string, group_SetupSmallGameboy);
   ("smd"%string, group_SetupSegaMegaDrive);
   ("sms8"%string, group_SetupSegaMasterSystem 8192);
   ("sms16"%string, group_SetupSegaMasterSystem 16384);
   ("sms32"%string, group_SetupSegaMasterSystem 32768);
   ("ms48"%string, group_SetupSegaMasterSystem 49152);
   ("smsb"%string, group_SetupSegaMasterSystemBanked);
   ("hc800b"%string, group_SetupHC8XXROM);
   ("hc8s"%string, group_SetupHC8XXSmall);
   ("hc8sh"%string, group_SetupHC8XXSmallHarvard);
   ("hc8m"%string, group_SetupHC8XXMedium);
   ("hc8mh"%string, group_SetupHC8XXMediumHarvard);
   ("hc8l"%string, group_SetupHC8XXLarge);
   ("fxa2560x"%string, foenix_SetupFoenixA2560XGroups);
   ("fxf256jrs"%string, foenix_SetupFoenixF256JrSmallGroups);
   ("coco"%string, group_SetupCoCo);
   ("mega65"%string, setupUnbankedCommodore 8210 (63232 - 8210))].
Fixpoint findMachine (l : list (string * res config)) (name : string) : res config :=
  match l with
  | [] => Err
  | (n, m) :: r => if String.eqb n name then m else findMachine r name
  end.
(** main.c:412-414: an unknown name is an error. *)
Definition memory_configuration (name : string) : res config := findMachine machines name.
