(** What a memory map should guarantee, independent of the model. *)
From Coq Require Import String ZArith List Bool.
From Verif Require Import Base AssignModel LinkModel ImageSpec.
Import ListNotations.
Open Scope string_scope.
Open Scope list_scope.
Open Scope Z_scope.

(** No two sections that were placed in the same bank share an address. *)
Definition no_overlap (out : list section) : Prop :=
  forall i j a b x, i <> j -> nth_error out i = Some a -> nth_error out j = Some b ->
    s_used a = true -> s_used b = true -> s_group a <> None -> s_group b <> None -> s_cpuBank a = s_cpuBank b ->
    s_cpuByteLocation a <= x < s_cpuByteLocation a + s_size a ->
    s_cpuByteLocation b <= x < s_cpuByteLocation b + s_size b -> False.

(** The HC800 has banks of 16 KiB of memory; a section [o] bytes into bank [b] is in
    memory at 16384 * b + o. *)
Definition hc800_memory (s : section) : Z := 16384 * s_cpuBank s + s_imageLocation s.
Definition hc800_no_overlap (out : list section) : Prop :=
  forall i j a b x, i <> j -> nth_error out i = Some a -> nth_error out j = Some b ->
    s_used a = true -> s_used b = true -> s_group a <> None -> s_group b <> None ->
    hc800_memory a <= x < hc800_memory a + s_size a ->
    hc800_memory b <= x < hc800_memory b + s_size b -> False.

(** The memory a group may use: the addresses from [low] to [high] in the banks from
    [first] to [last].  What lies at address x of bank b is at x + per * b + offset in
    the image, if [file] is [Some (per, offset)], and not in the image otherwise. *)
Record region := Region { first : Z; last : Z; low : Z; high : Z; file : option (Z * Z) }.
Definition in_region (r : region) (s : section) : Prop :=
  first r <= s_cpuBank s <= last r /\ low r <= s_cpuByteLocation s /\ s_cpuByteLocation s + s_size s <= high r + 1 /\
  match file r with
  | Some (per, offset) => s_imageLocation s = s_cpuByteLocation s + per * s_cpuBank s + offset
  | None => s_imageLocation s = -1
  end.

(** The machines, as their manuals and doc/Linker*.md describe them, apart from the
    departures proved in MachineProps.  $FFFF is left out of the Game Boy's high RAM: it
    is the interrupt enable register. *)
Definition gameboy_ram : list (string * list region) :=
  [("VRAM", [Region 0 0 32768 40959 None]); ("BSS", [Region 0 0 49152 57343 None]); ("HRAM", [Region 0 0 65408 65534 None])].
Definition gameboy_rom : list region := [Region 0 0 0 16383 (Some (0, 0)); Region 1 255 16384 32767 (Some (16384, -16384))].
Definition small_rom : list region := [Region 0 0 0 32767 (Some (0, 0))].
(** The header takes the last 16 bytes of the image. *)
Definition sms (size : Z) : list (string * list region) :=
  let rom := [Region 0 0 0 1023 (Some (0, 0)); Region 0 0 1024 (size - 17) (Some (0, 0))] in
  [("HOME", [Region 0 0 0 1023 (Some (0, 0))]); ("CODE", rom); ("DATA", rom); ("BSS", [Region 0 0 49152 57335 None])].
(** In images larger than 32 KiB it takes the last 16 bytes of bank 1. *)
Definition sms_banked : list region :=
  [Region 0 0 0 1023 (Some (0, 0)); Region 0 0 1024 16383 (Some (0, 0)); Region 1 1 16384 32751 (Some (0, 0));
   Region 2 63 32768 49151 (Some (16384, -32768))].
Definition c128_rom (from to : Z) : list (string * list region) :=
  [("CODE", [Region 0 0 from to (Some (0, - from))]); ("DATA", [Region 0 0 from to (Some (0, - from))]); ("BSS", [Region 0 0 0 65535 None])].
Definition machine_regions : list (string * list (string * list region)) :=
  [("ngb", [("HOME", [Region 0 0 0 16383 (Some (0, 0))]); ("CODE", gameboy_rom); ("DATA", gameboy_rom)] ++ gameboy_ram);
   ("ngbs", [("HOME", small_rom); ("CODE", small_rom); ("DATA", small_rom)] ++ gameboy_ram);
   ("amiga", [("CODE", [Region 0 0 0 1073741822 (Some (0, 2097152))]); ("DATA", [Region 0 0 0 1073741822 (Some (0, 2097152))]);
              ("BSS", [Region 0 0 0 1073741822 None]); ("CODE_C", [Region 0 0 0 2097150 (Some (0, 0))]);
              ("DATA_C", [Region 0 0 0 2097150 (Some (0, 0))]); ("BSS_C", [Region 0 0 0 1073741822 None])]);
   ("smd", [("CODE", [Region 0 0 0 4194303 (Some (0, 0))]); ("DATA", [Region 0 0 0 4194303 (Some (0, 0))]);
            ("BSS", [Region 0 0 16711680 16777215 (Some (0, -16711680))])]);
   ("sms8", sms 8192); ("sms16", sms 16384); ("sms32", sms 32768); ("ms48", sms 49152);
   ("smsb", [("HOME", [Region 0 0 0 1023 (Some (0, 0))]); ("CODE", sms_banked); ("DATA", sms_banked); ("BSS", [Region 0 0 49152 57335 None])]);
   ("c128f", c128_rom 32768 65535); ("c128fl", c128_rom 32768 49151); ("c128fh", c128_rom 49152 65535);
   ("hc800b", [("HOME", [Region 1 1 0 16383 (Some (0, 0))]); ("CODE", [Region 1 1 0 16383 (Some (0, 0))]);
               ("DATA", [Region 1 1 0 16383 (Some (0, 0))]); ("BSS", [Region 128 128 0 16383 None])]);
   ("hc8s", let all := [Region 129 129 0 16383 (Some (0, 0)); Region 130 130 16384 65535 (Some (0, -16384))] in
            let shared := [Region 130 130 16384 65535 (Some (0, -16384))] in
            [("HOME", [Region 129 129 0 16383 (Some (0, 0))]); ("CODE", all); ("DATA", all); ("BSS", all);
             ("CODE_S", shared); ("DATA_S", shared); ("BSS_S", shared)]);
   ("hc8sh", let data := [Region 133 133 0 16383 (Some (0, 0)); Region 134 134 16384 65535 (Some (0, -16384))] in
             let shared := [Region 134 134 16384 65535 (Some (0, -16384))] in
             [("HOME", [Region 129 129 0 16383 (Some (0, 0))]);
              ("CODE", [Region 129 129 0 16383 (Some (0, 0)); Region 130 130 16384 65535 (Some (0, -16384))]);
              ("DATA", data); ("BSS", data);
              ("CODE_S", [Region 130 130 16384 65535 (Some (0, -16384))]); ("DATA_S", shared); ("BSS_S", shared)]);
   ("hc8l", let home := [Region 129 129 0 16383 (Some (0, 0)); Region 130 130 16384 32767 (Some (0, -16384))] in
            let all := home ++ map (fun i => Region (131 + 2 * i) (131 + 2 * i) 32768 65535 (Some (0, -32768))) (zseq 0 62) in
            let shared := [Region 130 130 16384 32767 (Some (0, -16384))] in
            [("HOME", home); ("CODE", all); ("DATA", all); ("BSS", all); ("CODE_S", shared); ("DATA_S", shared); ("BSS_S", shared)]);
   ("fxa2560x", let sysram := Region 0 0 65536 4194303 (Some (0, 0)) in let vicky_a := Region 0 0 8388608 12582911 (Some (0, 0)) in
                let vicky_b := Region 0 0 12582912 16777215 (Some (0, 0)) in let sdram := Region 0 0 33554432 100663295 (Some (0, 0)) in
                [("CODE", [sysram]); ("DATA", [sysram; sdram]); ("BSS", [sysram; sdram]); ("DATA_VA", [vicky_a]); ("BSS_VA", [vicky_a]);
                 ("DATA_VB", [vicky_b]); ("BSS_VB", [vicky_b]); ("DATA_D", [sdram]); ("BSS_D", [sdram])]);
   ("fxf256jrs", let low_ := Region 0 0 0 49151 (Some (0, 0)) in let high_ := Region 0 0 57344 65535 (Some (0, 0)) in
                 [("HOME", [high_]); ("CODE", [low_; high_]); ("DATA", [low_]); ("BSS", [low_]); ("ZP", [Region 0 0 16 255 None])]);
   ("coco", let ram := [Region 0 0 1536 32767 (Some (0, -1536))] in [("CODE", ram); ("DATA", ram); ("BSS", ram)])].
