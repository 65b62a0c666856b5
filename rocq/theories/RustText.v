(** * RustText: the functions of src/*.rs as terms of [Rust.expr].

    Generated by tools/transcribe.py from the sources; do not edit. *)

From Coq Require Import String.
From Verif Require Import Base Rust.
Open Scope list_scope.
Open Scope Z_scope.
Open Scope string_scope.

Definition text : list (string * fn) := [
  (* src/fastcdc.rs:13 [const MASK_S] *)
  ("MASK_S", {|
    fn_params := [];
    fn_body :=
      Block [Lit U64 942311585546240] |});

  (* src/fastcdc.rs:15 [const MASK_L] *)
  ("MASK_L", {|
    fn_params := [];
    fn_body :=
      Block [Lit U64 238594078998528] |});

  (* src/bup.rs:5 [const BLOBBITS] *)
  ("BLOBBITS", {|
    fn_params := [];
    fn_body :=
      Block [Lit U8 13] |});

  (* src/bup.rs:6 [const BLOBSIZE] *)
  ("BLOBSIZE", {|
    fn_params := [];
    fn_body :=
      Block [Bin Shl (Lit U32 1) (Cast U32 (Call "BLOBBITS" []))] |});

  (* src/bup.rs:8 [const WINDOW_BITS] *)
  ("WINDOW_BITS", {|
    fn_params := [];
    fn_body :=
      Block [Lit U8 6] |});

  (* src/bup.rs:9 [const WINDOW_SIZE] *)
  ("WINDOW_SIZE", {|
    fn_params := [];
    fn_body :=
      Block [Bin Shl (Lit Usize 1) (Cast Usize (Call "WINDOW_BITS" []))] |});

  (* src/bup.rs:11 [const ROLLSUM_CHAR_OFFSET] *)
  ("ROLLSUM_CHAR_OFFSET", {|
    fn_params := [];
    fn_body :=
      Block [Lit Usize 31] |});

  (* src/zstd.rs:29 [const RSYNC_LENGTH] *)
  ("RSYNC_LENGTH", {|
    fn_params := [];
    fn_body :=
      Block [Lit Usize 32] |});

  (* src/zstd.rs:30 [const PRIME_8_BYTES] *)
  ("PRIME_8_BYTES", {|
    fn_params := [];
    fn_body :=
      Block [Wrapping (Lit U64 14923729446382167139)] |});

  (* src/zstd.rs:31 [const ROLL_HASH_CHAR_OFFSET] *)
  ("ROLL_HASH_CHAR_OFFSET", {|
    fn_params := [];
    fn_body :=
      Block [Wrapping (Lit U64 10)] |});

  (* src/ram.rs:53 [#[derive(Default)] for RamState] *)
  ("RamState::default", {|
    fn_params := [];
    fn_body :=
      Block [StructLit "RamState" ["i"; "max_val"] [("i", Lit U64 0); ("max_val", Lit U8 0)]] |});

  (* src/gear.rs:34 [#[derive(Default)] for GearState32] *)
  ("GearState32::default", {|
    fn_params := [];
    fn_body :=
      Block [StructLit "GearState32" ["fp"] [("fp", Wrapping (Lit U32 0))]] |});

  (* src/gzip.rs:120 [#[derive(Default)] for GzipRsyncableState] *)
  ("GzipRsyncableState::default", {|
    fn_params := [];
    fn_body :=
      Block [StructLit "GzipRsyncableState" ["accum"] [("accum", Wrapping (Lit U64 0))]] |});

  (* src/gzip.rs:134 [#[derive(Default)] for GzipRsyncableSearchState] *)
  ("GzipRsyncableSearchState::default", {|
    fn_params := [];
    fn_body :=
      Block [StructLit "GzipRsyncableSearchState" ["offset"; "state"] [("offset", Lit Usize 0); ("state", Call "GzipRsyncableState::default" [])]] |});

  (* src/fastcdc.rs:119 [#[derive(Default)] for FastCdcIncr] *)
  ("FastCdcIncr::default", {|
    fn_params := [];
    fn_body :=
      Block [StructLit "FastCdcIncr" ["params"; "state"] [("params", Call "FastCdc::default" []); ("state", Call "FastCdcState::default" [])]] |});

  (* src/fastcdc.rs:125 [#[derive(Default)] for FastCdcState] *)
  ("FastCdcState::default", {|
    fn_params := [];
    fn_body :=
      Block [StructLit "FastCdcState" ["l"; "fp"] [("l", Lit U64 0); ("fp", Wrapping (Lit U64 0))]] |});

  (* src/buzhash.rs:173 [#[derive(Default)] for BuzHashSearchState] *)
  ("BuzHashSearchState::default", {|
    fn_params := [];
    fn_body :=
      Block [StructLit "BuzHashSearchState" ["offset"; "state"] [("offset", Lit Usize 0); ("state", Call "BuzHashState::default" [])]] |});

  (* src/buzhash.rs:186 [#[derive(Default)] for BuzHashState] *)
  ("BuzHashState::default", {|
    fn_params := [];
    fn_body :=
      Block [StructLit "BuzHashState" ["h"] [("h", Lit U32 0)]] |});

  (* src/zpaq.rs:184 [#[derive(Default)] for ZpaqSearchState] *)
  ("ZpaqSearchState::default", {|
    fn_params := [];
    fn_body :=
      Block [StructLit "ZpaqSearchState" ["state"; "idx"] [("state", Call "ZpaqHash::default" []); ("idx", Lit U64 0)]] |});

  (* src/zstd.rs:85 [#[derive(Default)] for ZstdState] *)
  ("ZstdState::default", {|
    fn_params := [];
    fn_body :=
      Block [StructLit "ZstdState" ["hash"] [("hash", Wrapping (Lit U64 0))]] |});

  (* src/zstd.rs:111 [#[derive(Default)] for ZstdSearchState] *)
  ("ZstdSearchState::default", {|
    fn_params := [];
    fn_body :=
      Block [StructLit "ZstdSearchState" ["state"; "offset"] [("state", Call "ZstdState::default" []); ("offset", Lit Usize 0)]] |});

  (* src/range.rs:22-41 [R::exceeds_max] *)
  ("R::exceeds_max", {|
    fn_params := [("self", false); ("item", false)];
    fn_body :=
      Block [Match (Prim Pend_bound [Var "self"]) [(PCon "Included" ["i"], Block [If (Bin Gt (Var "item") (Var "i")) (Block [Return (BoolLit true)]) (Con "()" [])]);
          (PCon "Excluded" ["i"], Block [If (Bin Ge (Var "item") (Var "i")) (Block [Return (BoolLit true)]) (Con "()" [])]);
          (PCon "Unbounded" [], Block [])];
        BoolLit false] |});

  (* src/range.rs:43-62 [R::under_min] *)
  ("R::under_min", {|
    fn_params := [("self", false); ("item", false)];
    fn_body :=
      Block [Match (Prim Pstart_bound [Var "self"]) [(PCon "Included" ["i"], Block [If (Bin Lt (Var "item") (Var "i")) (Block [Return (BoolLit true)]) (Con "()" [])]);
          (PCon "Excluded" ["i"], Block [If (Bin Le (Var "item") (Var "i")) (Block [Return (BoolLit true)]) (Con "()" [])]);
          (PCon "Unbounded" [], Block [])];
        BoolLit false] |});

  (* src/range.rs:64-78 [R::contains] *)
  ("R::contains", {|
    fn_params := [("self", false); ("item", false)];
    fn_body :=
      Block [If (Method "under_min" [Var "self"; Var "item"]) (Block [Return (BoolLit false)]) (Con "()" []);
        If (Method "exceeds_max" [Var "self"; Var "item"]) (Block [Return (BoolLit false)]) (Con "()" []);
        BoolLit true] |});

  (* src/range.rs:80-88 [R::into_tuple] *)
  ("R::into_tuple", {|
    fn_params := [("self", false)];
    fn_body :=
      Block [Con "," [Call "bound_cloned" [Prim Pstart_bound [Var "self"]]; Call "bound_cloned" [Prim Pend_bound [Var "self"]]]] |});

  (* src/range.rs:103-109 [bound_cloned] *)
  ("bound_cloned", {|
    fn_params := [("src", false)];
    fn_body :=
      Block [Match (Var "src") [(PCon "Unbounded" [], Con "Unbounded" []);
          (PCon "Included" ["x"], Con "Included" [Prim Pclone [Var "x"]]);
          (PCon "Excluded" ["x"], Con "Excluded" [Prim Pclone [Var "x"]])]] |});

  (* src/lib.rs:153-161 [ChunkIncr::iter_slices] *)
  ("ChunkIncr::iter_slices", {|
    fn_params := [("self", false); ("data", false)];
    fn_body :=
      Block [StructLit "IterSlices" ["rem"; "chunker"] [("rem", Var "data"); ("chunker", Var "self")]] |});

  (* src/lib.rs:169-177 [ChunkIncr::iter_slices_strict] *)
  ("ChunkIncr::iter_slices_strict", {|
    fn_params := [("self", false); ("data", false)];
    fn_body :=
      Block [StructLit "IterSlicesStrict" ["rem"; "chunker"] [("rem", Var "data"); ("chunker", Var "self")]] |});

  (* src/lib.rs:191-195 [IterSlicesStrict::take_rem] *)
  ("IterSlicesStrict::take_rem", {|
    fn_params := [("self", true)];
    fn_body :=
      Block [Let "l" (ListLit []);
        Swap (Field (Var "self") "rem") (Var "l");
        Var "l"] |});

  (* src/lib.rs:200-202 [IterSlicesStrict::into_parts] *)
  ("IterSlicesStrict::into_parts", {|
    fn_params := [("self", false)];
    fn_body :=
      Block [Con "," [Field (Var "self") "chunker"; Field (Var "self") "rem"]] |});

  (* src/lib.rs:208-217 [IterSlicesStrict::next] *)
  ("IterSlicesStrict::next", {|
    fn_params := [("self", true)];
    fn_body :=
      Block [Match (Method "push" [Field (Var "self") "chunker"; Field (Var "self") "rem"]) [(PCon "None" [], Con "None" []);
          (PCon "Some" ["l"], Block [LetPair "v" "rn" (Prim Psplit_at [Field (Var "self") "rem"; Var "l"]);
              Assign (Field (Var "self") "rem") (Var "rn");
              Con "Some" [Var "v"]])]] |});

  (* src/lib.rs:233-235 [IterSlices::into_parts] *)
  ("IterSlices::into_parts", {|
    fn_params := [("self", false)];
    fn_body :=
      Block [Con "," [Field (Var "self") "chunker"; Field (Var "self") "rem"]] |});

  (* src/lib.rs:241-258 [IterSlices::next] *)
  ("IterSlices::next", {|
    fn_params := [("self", true)];
    fn_body :=
      Block [If (Prim Pis_empty [Field (Var "self") "rem"]) (Block [Return (Con "None" [])]) (Con "()" []);
        Match (Method "push" [Field (Var "self") "chunker"; Field (Var "self") "rem"]) [(PCon "None" [], Block [Let "v" (Field (Var "self") "rem");
              Assign (Field (Var "self") "rem") (ListLit []);
              Con "Some" [Var "v"]]);
          (PCon "Some" ["l"], Block [LetPair "v" "rn" (Prim Psplit_at [Field (Var "self") "rem"; Var "l"]);
              Assign (Field (Var "self") "rem") (Var "rn");
              Con "Some" [Var "v"]])]] |});

  (* src/mii.rs:26-28 [Mii::with_w] *)
  ("Mii::with_w", {|
    fn_params := [("w", false)];
    fn_body :=
      Block [StructLit "Mii" ["w"] [("w", Var "w")]] |});

  (* src/mii.rs:35-37 [Mii::default] *)
  ("Mii::default", {|
    fn_params := [];
    fn_body :=
      Block [Call "Mii::with_w" [Lit U64 5]] |});

  (* src/mii.rs:43-45 [Mii::to_search_state] *)
  ("Mii::to_search_state", {|
    fn_params := [("self", false)];
    fn_body :=
      Block [Call "MiiSearchState::from<MiiIncr>" [Call "MiiIncr::from<&Mii>" [Var "self"]]] |});

  (* src/mii.rs:47-59 [Mii::find_chunk_edge] *)
  ("Mii::find_chunk_edge", {|
    fn_params := [("self", false); ("state", true); ("data", false)];
    fn_body :=
      Block [Match (Method "push" [Var "state"; Var "data"]) [(PCon "Some" ["v"], Block [Method "reset" [Var "state"];
              Con "," [Con "Some" [Var "v"]; Var "v"]]);
          (PCon "None" [], Con "," [Con "None" []; Prim Plen [Var "data"]])]] |});

  (* src/mii.rs:63-65 [MiiIncr::from<&Mii>] *)
  ("MiiIncr::from<&Mii>", {|
    fn_params := [("src", false)];
    fn_body :=
      Block [Call "MiiIncr::from<Mii>" [Prim Pclone [Var "src"]]] |});

  (* src/mii.rs:71-73 [Mii::to_chunk_incr] *)
  ("Mii::to_chunk_incr", {|
    fn_params := [("self", false)];
    fn_body :=
      Block [Call "MiiIncr::from<&Mii>" [Var "self"]] |});

  (* src/mii.rs:82-84 [MiiSearchState::reset] *)
  ("MiiSearchState::reset", {|
    fn_params := [("self", true)];
    fn_body :=
      Block [Method "reset" [Field (Var "self") "incr"];
        Con "()" []] |});

  (* src/mii.rs:88-90 [MiiSearchState::from<MiiIncr>] *)
  ("MiiSearchState::from<MiiIncr>", {|
    fn_params := [("incr", false)];
    fn_body :=
      Block [StructLit "MiiSearchState" ["incr"] [("incr", Var "incr")]] |});

  (* src/mii.rs:94-96 [MiiSearchState::push] *)
  ("MiiSearchState::push", {|
    fn_params := [("self", true); ("data", false)];
    fn_body :=
      Block [Method "push" [Field (Var "self") "incr"; Var "data"]] |});

  (* src/mii.rs:112-119 [MiiIncr::from<Mii>] *)
  ("MiiIncr::from<Mii>", {|
    fn_params := [("p", false)];
    fn_body :=
      Block [StructLit "MiiIncr" ["w"; "prev"; "increment"] [("w", Field (Var "p") "w"); ("prev", Lit U8 255); ("increment", Lit U64 0)]] |});

  (* src/mii.rs:123-140 [MiiIncr::push] *)
  ("MiiIncr::push", {|
    fn_params := [("self", true); ("input", false)];
    fn_body :=
      Block [ForEnum "i" "b" (Var "input") (Block [If (Bin Gt (Var "b") (Field (Var "self") "prev")) (Block [OpAssign Add (Field (Var "self") "increment") (Lit U64 1);
                If (Bin Eq (Field (Var "self") "increment") (Field (Var "self") "w")) (Block [Assign (Field (Var "self") "increment") (Lit U64 0);
                    Assign (Field (Var "self") "prev") (Lit U8 0);
                    Return (Con "Some" [Bin Add (Var "i") (Lit Usize 1)])]) (Con "()" [])]) (Block [Assign (Field (Var "self") "increment") (Lit U64 0);
                Con "()" []]);
            Assign (Field (Var "self") "prev") (Var "b");
            Con "()" []]);
        Con "None" []] |});

  (* src/mii.rs:144-147 [MiiIncr::reset] *)
  ("MiiIncr::reset", {|
    fn_params := [("self", true)];
    fn_body :=
      Block [Assign (Field (Var "self") "prev") (Lit U8 255);
        Assign (Field (Var "self") "increment") (Lit U64 0);
        Con "()" []] |});

  (* src/ram.rs:28-30 [Ram::with_w] *)
  ("Ram::with_w", {|
    fn_params := [("w", false)];
    fn_body :=
      Block [StructLit "Ram" ["w"] [("w", Var "w")]] |});

  (* src/ram.rs:36-38 [Ram::to_search_state] *)
  ("Ram::to_search_state", {|
    fn_params := [("self", false)];
    fn_body :=
      Block [Call "RamState::default" []] |});

  (* src/ram.rs:40-49 [Ram::find_chunk_edge] *)
  ("Ram::find_chunk_edge", {|
    fn_params := [("self", false); ("state", true); ("data", false)];
    fn_body :=
      Block [Match (Method "push" [Var "state"; Var "self"; Var "data"]) [(PCon "Some" ["i"], Con "," [Con "Some" [Bin Add (Var "i") (Lit Usize 1)]; Bin Add (Var "i") (Lit Usize 1)]);
          (PCon "None" [], Con "," [Con "None" []; Prim Plen [Var "data"]])]] |});

  (* src/ram.rs:62-81 [RamState::push] *)
  ("RamState::push", {|
    fn_params := [("self", true); ("params", false); ("data", false)];
    fn_body :=
      Block [Let "i" (Field (Var "self") "i");
        ForEnum "l_i" "b" (Var "data") (Block [If (Bin Ge (Var "b") (Field (Var "self") "max_val")) (Block [Let "ri" (Bin Add (Cast U64 (Var "l_i")) (Var "i"));
                If (Bin Gt (Var "ri") (Field (Var "params") "w")) (Block [Assign (Field (Var "self") "i") (Lit U64 0);
                    Assign (Field (Var "self") "max_val") (Lit U8 0);
                    Return (Con "Some" [Var "l_i"])]) (Con "()" []);
                Assign (Field (Var "self") "max_val") (Var "b");
                Con "()" []]) (Con "()" [])]);
        OpAssign Add (Field (Var "self") "i") (Cast U64 (Prim Plen [Var "data"]));
        Con "None" []] |});

  (* src/ram.rs:87-89 [Ram::to_chunk_incr] *)
  ("Ram::to_chunk_incr", {|
    fn_params := [("self", false)];
    fn_body :=
      Block [Call "RamIncr::from<&Ram>" [Var "self"]] |});

  (* src/ram.rs:93-98 [RamIncr::from<&Ram>] *)
  ("RamIncr::from<&Ram>", {|
    fn_params := [("params", false)];
    fn_body :=
      Block [StructLit "RamIncr" ["params"; "state"] [("params", Prim Pclone [Var "params"]); ("state", Call "RamState::default" [])]] |});

  (* src/ram.rs:108-110 [RamIncr::push] *)
  ("RamIncr::push", {|
    fn_params := [("self", true); ("data", false)];
    fn_body :=
      Block [Method "push" [Field (Var "self") "state"; Field (Var "self") "params"; Var "data"]] |});

  (* src/gear.rs:51-53 [Gear32::to_search_state] *)
  ("Gear32::to_search_state", {|
    fn_params := [("self", false)];
    fn_body :=
      Block [Call "GearState32::default" []] |});

  (* src/gear.rs:55-68 [Gear32::find_chunk_edge] *)
  ("Gear32::find_chunk_edge", {|
    fn_params := [("self", false); ("state", true); ("data", false)];
    fn_body :=
      Block [ForEnum "i" "v" (Var "data") (Block [If (Method "push" [Var "state"; Var "self"; Var "v"]) (Block [Assign (Var "state") (Method "to_search_state" [Var "self"]);
                Return (Con "," [Con "Some" [Bin Add (Var "i") (Lit Usize 1)]; Bin Add (Var "i") (Lit Usize 1)])]) (Con "()" [])]);
        Con "," [Con "None" []; Prim Plen [Var "data"]]] |});

  (* src/gear.rs:74-76 [Gear32::to_chunk_incr] *)
  ("Gear32::to_chunk_incr", {|
    fn_params := [("self", false)];
    fn_body :=
      Block [Call "GearIncr32::from<&Gear32>" [Var "self"]] |});

  (* src/gear.rs:80-85 [GearIncr32::from<&Gear32>] *)
  ("GearIncr32::from<&Gear32>", {|
    fn_params := [("params", false)];
    fn_body :=
      Block [StructLit "GearIncr32" ["params"; "state"] [("params", Prim Pclone [Var "params"]); ("state", Call "GearState32::default" [])]] |});

  (* src/gear.rs:99-102 [GearState32::push] *)
  ("GearState32::push", {|
    fn_params := [("self", true); ("params", false); ("add", false)];
    fn_body :=
      Block [Assign (Field (Var "self") "fp") (Bin Add (Bin Shl (Field (Var "self") "fp") (Lit Usize 1)) (Wrapping (Index (Field (Var "params") "gear") (Cast Usize (Var "add")))));
        Bin Eq (Bin BitAnd (Field (Field (Var "self") "fp") "0") (Field (Var "params") "mask")) (Field (Var "params") "xxx")] |});

  (* src/gear.rs:104-106 [GearState32::reset] *)
  ("GearState32::reset", {|
    fn_params := [("self", true)];
    fn_body :=
      Block [Assign (Field (Field (Var "self") "fp") "0") (Lit U32 0);
        Con "()" []] |});

  (* src/gear.rs:110-119 [GearIncr32::push] *)
  ("GearIncr32::push", {|
    fn_params := [("self", true); ("data", false)];
    fn_body :=
      Block [ForEnum "i" "v" (Var "data") (Block [If (Method "push" [Field (Var "self") "state"; Field (Var "self") "params"; Var "v"]) (Block [Method "reset" [Field (Var "self") "state"];
                Return (Con "Some" [Var "i"])]) (Con "()" [])]);
        Con "None" []] |});

  (* src/gear.rs:122-129 [msb_mask] *)
  ("msb_mask", {|
    fn_params := [("log2", false)];
    fn_body :=
      Block [Bin Shl (Bin Sub (Bin Shl (Lit U32 1) (Var "log2")) (Lit U32 1)) (Bin Sub (Lit Usize 32) (Var "log2"))] |});

  (* src/gear.rs:134-140 [Gear32::with_average_size_log2] *)
  ("Gear32::with_average_size_log2", {|
    fn_params := [("average_size_log2", false)];
    fn_body :=
      Block [StructLit "Gear32" ["mask"; "xxx"; "gear"] [("mask", Call "msb_mask" [Var "average_size_log2"]); ("xxx", Lit U32 0); ("gear", Call "GEAR_32" [])]] |});

  (* src/gear.rs:144-147 [Gear32::default] *)
  ("Gear32::default", {|
    fn_params := [];
    fn_body :=
      Block [Call "Gear32::with_average_size_log2" [Lit Usize 13]] |});

  (* src/pigz.rs:15-19 [PigzRsyncable::with_bits] *)
  ("PigzRsyncable::with_bits", {|
    fn_params := [("bits", false)];
    fn_body :=
      Block [Let "mask" (Bin Sub (Bin Shl (Lit U32 1) (Var "bits")) (Lit U32 1));
        Let "hit" (Bin Shr (Var "mask") (Lit U32 1));
        StructLit "PigzRsyncable" ["bits"; "mask"; "hit"] [("bits", Var "bits"); ("mask", Var "mask"); ("hit", Var "hit")]] |});

  (* src/pigz.rs:23-25 [PigzRsyncable::default] *)
  ("PigzRsyncable::default", {|
    fn_params := [];
    fn_body :=
      Block [Call "PigzRsyncable::with_bits" [Lit U8 12]] |});

  (* src/pigz.rs:31-33 [PigzRsyncable::to_search_state] *)
  ("PigzRsyncable::to_search_state", {|
    fn_params := [("self", false)];
    fn_body :=
      Block [Call "PigzRsyncableSearchState::from<&PigzRsyncable>" [Var "self"]] |});

  (* src/pigz.rs:35-48 [PigzRsyncable::find_chunk_edge] *)
  ("PigzRsyncable::find_chunk_edge", {|
    fn_params := [("self", false); ("state", true); ("data", false)];
    fn_body :=
      Block [ForEnum "i" "v" (Var "data") (Block [If (Method "add" [Field (Var "state") "state"; Var "self"; Var "v"]) (Block [Assign (Var "state") (Method "to_search_state" [Var "self"]);
                Return (Con "," [Con "Some" [Bin Add (Var "i") (Lit Usize 1)]; Bin Add (Var "i") (Lit Usize 1)])]) (Con "()" [])]);
        Con "," [Con "None" []; Prim Plen [Var "data"]]] |});

  (* src/pigz.rs:52-54 [PigzRsyncableIncr::from<&PigzRsyncable>] *)
  ("PigzRsyncableIncr::from<&PigzRsyncable>", {|
    fn_params := [("src", false)];
    fn_body :=
      Block [Call "PigzRsyncableIncr::from<PigzRsyncable>" [Prim Pclone [Var "src"]]] |});

  (* src/pigz.rs:59-61 [PigzRsyncable::to_chunk_incr] *)
  ("PigzRsyncable::to_chunk_incr", {|
    fn_params := [("self", false)];
    fn_body :=
      Block [Call "PigzRsyncableIncr::from<&PigzRsyncable>" [Var "self"]] |});

  (* src/pigz.rs:70-72 [PigzRsyncableState::from<&PigzRsyncable>] *)
  ("PigzRsyncableState::from<&PigzRsyncable>", {|
    fn_params := [("params", false)];
    fn_body :=
      Block [StructLit "PigzRsyncableState" ["hash"] [("hash", Field (Var "params") "hit")]] |});

  (* src/pigz.rs:84-88 [PigzRsyncableSearchState::from<&PigzRsyncable>] *)
  ("PigzRsyncableSearchState::from<&PigzRsyncable>", {|
    fn_params := [("params", false)];
    fn_body :=
      Block [StructLit "PigzRsyncableSearchState" ["state"] [("state", Call "PigzRsyncableState::from<&PigzRsyncable>" [Var "params"])]] |});

  (* src/pigz.rs:107-110 [PigzRsyncableIncr::from<PigzRsyncable>] *)
  ("PigzRsyncableIncr::from<PigzRsyncable>", {|
    fn_params := [("params", false)];
    fn_body :=
      Block [Let "state" (Call "PigzRsyncableState::from<&PigzRsyncable>" [Var "params"]);
        StructLit "PigzRsyncableIncr" ["params"; "state"] [("params", Var "params"); ("state", Var "state")]] |});

  (* src/pigz.rs:114-117 [PigzRsyncableState::add] *)
  ("PigzRsyncableState::add", {|
    fn_params := [("self", true); ("parent", false); ("v", false)];
    fn_body :=
      Block [Assign (Field (Var "self") "hash") (Bin BitAnd (Bin BitXor (Bin Shl (Field (Var "self") "hash") (Lit U32 1)) (Cast U32 (Var "v"))) (Field (Var "parent") "mask"));
        Bin Eq (Field (Var "self") "hash") (Field (Var "parent") "hit")] |});

  (* src/pigz.rs:121-130 [PigzRsyncableIncr::push] *)
  ("PigzRsyncableIncr::push", {|
    fn_params := [("self", true); ("data", false)];
    fn_body :=
      Block [ForEnum "i" "v" (Var "data") (Block [If (Method "add" [Field (Var "self") "state"; Field (Var "self") "params"; Var "v"]) (Block [Assign (Field (Var "self") "state") (Call "PigzRsyncableState::from<&PigzRsyncable>" [Field (Var "self") "params"]);
                Return (Con "Some" [Bin Add (Var "i") (Lit Usize 1)])]) (Con "()" [])]);
        Con "None" []] |});

  (* src/gzip.rs:64-69 [GzipRsyncable::with_window_and_modulus] *)
  ("GzipRsyncable::with_window_and_modulus", {|
    fn_params := [("window", false); ("modulus", false)];
    fn_body :=
      Block [StructLit "GzipRsyncable" ["window_len"; "modulus"] [("window_len", Var "window"); ("modulus", Var "modulus")]] |});

  (* src/gzip.rs:73-75 [GzipRsyncable::default] *)
  ("GzipRsyncable::default", {|
    fn_params := [];
    fn_body :=
      Block [Call "GzipRsyncable::with_window_and_modulus" [Lit Usize 8192; Lit U64 4096]] |});

  (* src/gzip.rs:81-83 [GzipRsyncable::to_search_state] *)
  ("GzipRsyncable::to_search_state", {|
    fn_params := [("self", false)];
    fn_body :=
      Block [Call "GzipRsyncableSearchState::default" []] |});

  (* src/gzip.rs:85-103 [GzipRsyncable::find_chunk_edge] *)
  ("GzipRsyncable::find_chunk_edge", {|
    fn_params := [("self", false); ("state", true); ("data", false)];
    fn_body :=
      Block [ForRange "i" (Field (Var "state") "offset") (Prim Plen [Var "data"]) (Block [Let "v" (Index (Var "data") (Var "i"));
            If (Method "add" [Field (Var "state") "state"; Var "data"; Var "self"; Var "i"; Var "v"]) (Block [Method "reset" [Var "state"];
                Return (Con "," [Con "Some" [Bin Add (Var "i") (Lit Usize 1)]; Bin Add (Var "i") (Lit Usize 1)])]) (Con "()" [])]);
        Let "discard_ct" (Prim Psaturating_sub [Prim Plen [Var "data"]; Field (Var "self") "window_len"]);
        Assign (Field (Var "state") "offset") (Bin Sub (Prim Plen [Var "data"]) (Var "discard_ct"));
        Con "," [Con "None" []; Var "discard_ct"]] |});

  (* src/gzip.rs:107-109 [GzipRsyncableIncr::from<&GzipRsyncable>] *)
  ("GzipRsyncableIncr::from<&GzipRsyncable>", {|
    fn_params := [("src", false)];
    fn_body :=
      Block [Call "GzipRsyncableIncr::from<GzipRsyncable>" [Prim Pclone [Var "src"]]] |});

  (* src/gzip.rs:114-116 [GzipRsyncable::to_chunk_incr] *)
  ("GzipRsyncable::to_chunk_incr", {|
    fn_params := [("self", false)];
    fn_body :=
      Block [Call "GzipRsyncableIncr::from<&GzipRsyncable>" [Var "self"]] |});

  (* src/gzip.rs:125-127 [GzipRsyncableState::reset] *)
  ("GzipRsyncableState::reset", {|
    fn_params := [("self", true)];
    fn_body :=
      Block [Assign (Field (Field (Var "self") "accum") "0") (Lit U64 0);
        Con "()" []] |});

  (* src/gzip.rs:140-143 [GzipRsyncableSearchState::reset] *)
  ("GzipRsyncableSearchState::reset", {|
    fn_params := [("self", true)];
    fn_body :=
      Block [Assign (Field (Var "self") "offset") (Lit Usize 0);
        Method "reset" [Field (Var "self") "state"];
        Con "()" []] |});

  (* src/gzip.rs:163-166 [GzipRsyncableIncr::reset] *)
  ("GzipRsyncableIncr::reset", {|
    fn_params := [("self", true)];
    fn_body :=
      Block [MutPrim Mclear (Field (Var "self") "window") [];
        Assign (Field (Var "self") "accum") (Wrapping (Lit U64 0));
        Con "()" []] |});

  (* src/gzip.rs:170-177 [GzipRsyncableIncr::from<GzipRsyncable>] *)
  ("GzipRsyncableIncr::from<GzipRsyncable>", {|
    fn_params := [("params", false)];
    fn_body :=
      Block [Let "window" (Prim Pwith_capacity [Field (Var "params") "window_len"]);
        StructLit "GzipRsyncableIncr" ["params"; "accum"; "window"] [("params", Var "params"); ("accum", Wrapping (Lit U64 0)); ("window", Var "window")]] |});

  (* src/gzip.rs:181-187 [GzipRsyncableState::add] *)
  ("GzipRsyncableState::add", {|
    fn_params := [("self", true); ("data", false); ("parent", false); ("i", false); ("v", false)];
    fn_body :=
      Block [If (Bin Ge (Var "i") (Field (Var "parent") "window_len")) (Block [OpAssign Sub (Field (Var "self") "accum") (Wrapping (Cast U64 (Index (Var "data") (Bin Sub (Var "i") (Field (Var "parent") "window_len")))));
            Con "()" []]) (Con "()" []);
        OpAssign Add (Field (Var "self") "accum") (Wrapping (Cast U64 (Var "v")));
        Bin Eq (Field (Bin Rem (Field (Var "self") "accum") (Wrapping (Field (Var "parent") "modulus"))) "0") (Lit U64 0)] |});

  (* src/gzip.rs:191-207 [GzipRsyncableIncr::push] *)
  ("GzipRsyncableIncr::push", {|
    fn_params := [("self", true); ("data", false)];
    fn_body :=
      Block [ForEnum "i" "v" (Var "data") (Block [If (Bin Ge (Prim Plen [Field (Var "self") "window"]) (Field (Field (Var "self") "params") "window_len")) (Block [OpAssign Sub (Field (Var "self") "accum") (Wrapping (Cast U64 (Prim Punwrap [MutPrim Mpop_front (Field (Var "self") "window") []])));
                Con "()" []]) (Con "()" []);
            OpAssign Add (Field (Var "self") "accum") (Wrapping (Cast U64 (Var "v")));
            MutPrim Mpush_back (Field (Var "self") "window") [Var "v"];
            If (Bin Eq (Field (Bin Rem (Field (Var "self") "accum") (Wrapping (Field (Field (Var "self") "params") "modulus"))) "0") (Lit U64 0)) (Block [Method "reset" [Var "self"];
                Return (Con "Some" [Bin Add (Var "i") (Lit Usize 1)])]) (Con "()" [])]);
        Con "None" []] |});

  (* src/fastcdc.rs:34-39 [FastCdc::eq] *)
  ("FastCdc::eq", {|
    fn_params := [("self", false); ("other", false)];
    fn_body :=
      Block [And (And (And (Bin Eq (Field (Var "self") "min_size") (Field (Var "other") "min_size")) (Bin Eq (Field (Var "self") "max_size") (Field (Var "other") "max_size"))) (Bin Eq (Field (Var "self") "normal_size") (Field (Var "other") "normal_size"))) (Bin Eq (Prim Pclone [Field (Var "self") "gear"]) (Prim Pclone [Field (Var "other") "gear"]))] |});

  (* src/fastcdc.rs:45-52 [FastCdc::default] *)
  ("FastCdc::default", {|
    fn_params := [];
    fn_body :=
      Block [StructLit "FastCdc" ["gear"; "min_size"; "max_size"; "normal_size"] [("min_size", Bin Mul (Lit U64 2) (Lit U64 1024)); ("max_size", Bin Mul (Lit U64 64) (Lit U64 1024)); ("normal_size", Bin Mul (Lit U64 8) (Lit U64 1024)); ("gear", Call "GEAR_64" [])]] |});

  (* src/fastcdc.rs:69-71 [FastCdc::to_search_state] *)
  ("FastCdc::to_search_state", {|
    fn_params := [("self", false)];
    fn_body :=
      Block [Call "FastCdcState::default" []] |});

  (* src/fastcdc.rs:73-82 [FastCdc::find_chunk_edge] *)
  ("FastCdc::find_chunk_edge", {|
    fn_params := [("self", false); ("state", true); ("data", false)];
    fn_body :=
      Block [Match (Method "push" [Var "state"; Var "self"; Var "data"]) [(PCon "Some" ["i"], Con "," [Con "Some" [Bin Add (Var "i") (Lit Usize 1)]; Bin Add (Var "i") (Lit Usize 1)]);
          (PCon "None" [], Con "," [Con "None" []; Prim Plen [Var "data"]])]] |});

  (* src/fastcdc.rs:87-94 [FastCdc::new] *)
  ("FastCdc::new", {|
    fn_params := [("gear", false); ("min_size", false); ("normal_size", false); ("max_size", false)];
    fn_body :=
      Block [StructLit "FastCdc" ["gear"; "min_size"; "max_size"; "normal_size"] [("gear", Var "gear"); ("min_size", Var "min_size"); ("max_size", Var "max_size"); ("normal_size", Var "normal_size")]] |});

  (* src/fastcdc.rs:100-102 [FastCdc::to_chunk_incr] *)
  ("FastCdc::to_chunk_incr", {|
    fn_params := [("self", false)];
    fn_body :=
      Block [Call "FastCdcIncr::from<&FastCdc>" [Var "self"]] |});

  (* src/fastcdc.rs:106-111 [FastCdcIncr::from<&FastCdc>] *)
  ("FastCdcIncr::from<&FastCdc>", {|
    fn_params := [("params", false)];
    fn_body :=
      Block [StructLit "FastCdcIncr" ["params"; "state"] [("params", Var "params"); ("state", Call "FastCdcState::default" [])]] |});

  (* src/fastcdc.rs:138-141 [FastCdcState::reset] *)
  ("FastCdcState::reset", {|
    fn_params := [("self", true)];
    fn_body :=
      Block [Assign (Field (Var "self") "l") (Lit U64 0);
        Assign (Field (Var "self") "fp") (Wrapping (Lit U64 0));
        Con "()" []] |});

  (* src/fastcdc.rs:143-213 [FastCdcState::push] *)
  ("FastCdcState::push", {|
    fn_params := [("self", true); ("params", false); ("data", false)];
    fn_body :=
      Block [Let "gi" (Field (Var "self") "l");
        Let "ge" (Bin Add (Cast U64 (Prim Plen [Var "data"])) (Var "gi"));
        If (Bin Le (Var "ge") (Field (Var "params") "min_size")) (Block [Assign (Field (Var "self") "l") (Var "ge");
            Return (Con "None" [])]) (Con "()" []);
        Let "i" (Cast Usize (If (Bin Le (Var "gi") (Field (Var "params") "min_size")) (Block [Let "skip" (Bin Sub (Field (Var "params") "min_size") (Var "gi"));
                OpAssign Add (Var "gi") (Var "skip");
                Var "skip"]) (Block [Lit U64 0])));
        Let "fp" (Field (Var "self") "fp");
        Loop (Block [If (Bin Ge (Var "i") (Prim Plen [Var "data"])) (Block [Break]) (Con "()" []);
            If (Bin Ge (Var "gi") (Field (Var "params") "normal_size")) (Block [Break]) (Con "()" []);
            Let "v" (Index (Var "data") (Var "i"));
            Assign (Var "fp") (Bin Add (Bin Shl (Var "fp") (Lit Usize 1)) (Wrapping (Index (Field (Var "params") "gear") (Cast Usize (Var "v")))));
            If (Bin Eq (Bin BitAnd (Field (Var "fp") "0") (Call "MASK_S" [])) (Lit U64 0)) (Block [Method "reset" [Var "self"];
                Return (Con "Some" [Var "i"])]) (Con "()" []);
            OpAssign Add (Var "gi") (Lit U64 1);
            OpAssign Add (Var "i") (Lit Usize 1);
            Con "()" []]);
        Loop (Block [If (Bin Ge (Var "gi") (Field (Var "params") "max_size")) (Block [Method "reset" [Var "self"];
                Return (Con "Some" [Var "i"])]) (Con "()" []);
            If (Bin Ge (Var "i") (Prim Plen [Var "data"])) (Block [Break]) (Con "()" []);
            Let "v" (Index (Var "data") (Var "i"));
            Assign (Var "fp") (Bin Add (Bin Shl (Var "fp") (Lit Usize 1)) (Wrapping (Index (Field (Var "params") "gear") (Cast Usize (Var "v")))));
            If (Bin Eq (Bin BitAnd (Field (Var "fp") "0") (Call "MASK_L" [])) (Lit U64 0)) (Block [Method "reset" [Var "self"];
                Return (Con "Some" [Var "i"])]) (Con "()" []);
            OpAssign Add (Var "gi") (Lit U64 1);
            OpAssign Add (Var "i") (Lit Usize 1);
            Con "()" []]);
        Assign (Field (Var "self") "fp") (Var "fp");
        Assign (Field (Var "self") "l") (Var "ge");
        Con "None" []] |});

  (* src/fastcdc.rs:217-219 [FastCdcIncr::push] *)
  ("FastCdcIncr::push", {|
    fn_params := [("self", true); ("src", false)];
    fn_body :=
      Block [Method "push" [Field (Var "self") "state"; Field (Var "self") "params"; Var "src"]] |});

  (* src/bup.rs:26-28 [RollSum::to_chunk_incr] *)
  ("RollSum::to_chunk_incr", {|
    fn_params := [("self", false)];
    fn_body :=
      Block [Call "RollSumIncr::from<&RollSum>" [Var "self"]] |});

  (* src/bup.rs:32-34 [RollSum::with_window] *)
  ("RollSum::with_window", {|
    fn_params := [("window_len", false)];
    fn_body :=
      Block [StructLit "RollSum" ["window_len"] [("window_len", Var "window_len")]] |});

  (* src/bup.rs:40-42 [RollSum::to_search_state] *)
  ("RollSum::to_search_state", {|
    fn_params := [("self", false)];
    fn_body :=
      Block [Call "RollSumSearchState::from<&RollSum>" [Var "self"]] |});

  (* src/bup.rs:44-69 [RollSum::find_chunk_edge] *)
  ("RollSum::find_chunk_edge", {|
    fn_params := [("self", false); ("state", true); ("data", false)];
    fn_body :=
      Block [ForRange "i" (Field (Var "state") "offset") (Prim Plen [Var "data"]) (Block [Let "a" (Index (Var "data") (Var "i"));
            Let "d" (If (Bin Ge (Var "i") (Field (Var "self") "window_len")) (Block [Index (Var "data") (Bin Sub (Var "i") (Field (Var "self") "window_len"))]) (Block [Lit U8 0]));
            Method "add" [Field (Var "state") "state"; Field (Var "self") "window_len"; Var "d"; Var "a"];
            If (Method "at_split" [Field (Var "state") "state"]) (Block [Method "reset" [Var "state"; Var "self"];
                Return (Con "," [Con "Some" [Bin Add (Var "i") (Lit Usize 1)]; Bin Add (Var "i") (Lit Usize 1)])]) (Con "()" [])]);
        Let "discard_ct" (Prim Psaturating_sub [Prim Plen [Var "data"]; Field (Var "self") "window_len"]);
        Assign (Field (Var "state") "offset") (Bin Sub (Prim Plen [Var "data"]) (Var "discard_ct"));
        Con "," [Con "None" []; Var "discard_ct"]] |});

  (* src/bup.rs:83-93 [RollSumState::from<&RollSum>] *)
  ("RollSumState::from<&RollSum>", {|
    fn_params := [("s", false)];
    fn_body :=
      Block [Let "ws" (Wrapping (Cast U32 (Field (Var "s") "window_len")));
        StructLit "RollSumState" ["s1"; "s2"] [("s1", Bin Mul (Var "ws") (Wrapping (Cast U32 (Call "ROLLSUM_CHAR_OFFSET" [])))); ("s2", Bin Mul (Bin Mul (Var "ws") (Bin Sub (Var "ws") (Wrapping (Lit U32 1)))) (Wrapping (Cast U32 (Call "ROLLSUM_CHAR_OFFSET" []))))]] |});

  (* src/bup.rs:97-99 [RollSumState::reset] *)
  ("RollSumState::reset", {|
    fn_params := [("self", true); ("params", false)];
    fn_body :=
      Block [Assign (Var "self") (Call "RollSumState::from<&RollSum>" [Var "params"])] |});

  (* src/bup.rs:109-114 [RollSumSearchState::from<&RollSum>] *)
  ("RollSumSearchState::from<&RollSum>", {|
    fn_params := [("s", false)];
    fn_body :=
      Block [StructLit "RollSumSearchState" ["state"; "offset"] [("state", Call "RollSumState::from<&RollSum>" [Var "s"]); ("offset", Lit Usize 0)]] |});

  (* src/bup.rs:118-121 [RollSumSearchState::reset] *)
  ("RollSumSearchState::reset", {|
    fn_params := [("self", true); ("params", false)];
    fn_body :=
      Block [Assign (Field (Var "self") "offset") (Lit Usize 0);
        Method "reset" [Field (Var "self") "state"; Var "params"];
        Con "()" []] |});

  (* src/bup.rs:125-127 [RollSum::default] *)
  ("RollSum::default", {|
    fn_params := [];
    fn_body :=
      Block [Call "RollSum::with_window" [Call "WINDOW_SIZE" []]] |});

  (* src/bup.rs:155-161 [RollSumIncr::from<&RollSum>] *)
  ("RollSumIncr::from<&RollSum>", {|
    fn_params := [("params", false)];
    fn_body :=
      Block [StructLit "RollSumIncr" ["state"; "wofs"; "window"] [("state", Call "RollSumState::from<&RollSum>" [Var "params"]); ("window", Prim Pclone [Prim Prepeat [Lit U8 0; Field (Var "params") "window_len"]]); ("wofs", Wrapping (Lit Usize 0))]] |});

  (* src/bup.rs:165-167 [RollSumIncr::default] *)
  ("RollSumIncr::default", {|
    fn_params := [];
    fn_body :=
      Block [Call "RollSumIncr::from<&RollSum>" [Call "RollSum::default" []]] |});

  (* src/bup.rs:171-177 [RollSumState::add] *)
  ("RollSumState::add", {|
    fn_params := [("self", true); ("window_len", false); ("drop", false); ("add", false)];
    fn_body :=
      Block [Let "d" (Wrapping (Cast U32 (Var "drop")));
        OpAssign Add (Field (Var "self") "s1") (Wrapping (Cast U32 (Var "add")));
        OpAssign Sub (Field (Var "self") "s1") (Var "d");
        OpAssign Add (Field (Var "self") "s2") (Field (Var "self") "s1");
        OpAssign Sub (Field (Var "self") "s2") (Bin Mul (Wrapping (Cast U32 (Var "window_len"))) (Bin Add (Var "d") (Wrapping (Cast U32 (Call "ROLLSUM_CHAR_OFFSET" [])))));
        Con "()" []] |});

  (* src/bup.rs:179-181 [RollSumState::digest] *)
  ("RollSumState::digest", {|
    fn_params := [("self", false)];
    fn_body :=
      Block [Bin BitOr (Bin Shl (Field (Field (Var "self") "s1") "0") (Lit U32 16)) (Bin BitAnd (Field (Field (Var "self") "s2") "0") (Lit U32 65535))] |});

  (* src/bup.rs:183-185 [RollSumState::at_split] *)
  ("RollSumState::at_split", {|
    fn_params := [("self", false)];
    fn_body :=
      Block [Bin Eq (Bin BitAnd (Method "digest" [Var "self"]) (Bin Sub (Call "BLOBSIZE" []) (Lit U32 1))) (Bin Sub (Call "BLOBSIZE" []) (Lit U32 1))] |});

  (* src/bup.rs:189-191 [RollSumIncr::digest] *)
  ("RollSumIncr::digest", {|
    fn_params := [("self", false)];
    fn_body :=
      Block [Method "digest" [Field (Var "self") "state"]] |});

  (* src/bup.rs:193-195 [RollSumIncr::add] *)
  ("RollSumIncr::add", {|
    fn_params := [("self", true); ("drop", false); ("add", false)];
    fn_body :=
      Block [Method "add" [Field (Var "self") "state"; Prim Plen [Field (Var "self") "window"]; Var "drop"; Var "add"];
        Con "()" []] |});

  (* src/bup.rs:197-202 [RollSumIncr::roll_byte] *)
  ("RollSumIncr::roll_byte", {|
    fn_params := [("self", true); ("ch", false)];
    fn_body :=
      Block [Let "w" (Index (Field (Var "self") "window") (Field (Field (Var "self") "wofs") "0"));
        Method "add" [Var "self"; Var "w"; Var "ch"];
        Assign (Index (Field (Var "self") "window") (Field (Field (Var "self") "wofs") "0")) (Var "ch");
        Assign (Field (Var "self") "wofs") (Wrapping (Bin BitAnd (Field (Bin Add (Field (Var "self") "wofs") (Wrapping (Lit Usize 1))) "0") (Bin Sub (Prim Plen [Field (Var "self") "window"]) (Lit Usize 1))));
        Con "()" []] |});

  (* src/bup.rs:205-209 [RollSumIncr::roll] *)
  ("RollSumIncr::roll", {|
    fn_params := [("self", true); ("data", false)];
    fn_body :=
      Block [ForIn "i" (Var "data") (Block [Method "roll_byte" [Var "self"; Var "i"];
            Con "()" []])] |});

  (* src/bup.rs:219-221 [RollSumIncr::at_split] *)
  ("RollSumIncr::at_split", {|
    fn_params := [("self", false)];
    fn_body :=
      Block [Method "at_split" [Field (Var "self") "state"]] |});

  (* src/bup.rs:225-234 [RollSumIncr::push] *)
  ("RollSumIncr::push", {|
    fn_params := [("self", true); ("data", false)];
    fn_body :=
      Block [ForEnum "i" "v" (Var "data") (Block [Method "roll_byte" [Var "self"; Var "v"];
            If (Method "at_split" [Var "self"]) (Block [Return (Con "Some" [Bin Add (Var "i") (Lit Usize 1)])]) (Con "()" [])]);
        Con "None" []] |});

  (* src/buzhash.rs:90-98 [BuzHash::new] *)
  ("BuzHash::new", {|
    fn_params := [("capacity", false); ("mask", false); ("hash", false); ("max_chunk_size", false)];
    fn_body :=
      Block [Prim Passert [Bin Gt (Var "capacity") (Lit Usize 0)];
        StructLit "BuzHash" ["k"; "h"; "mask"; "max_chunk_size"] [("k", Var "capacity"); ("h", Var "hash"); ("mask", Var "mask"); ("max_chunk_size", Var "max_chunk_size")]] |});

  (* src/buzhash.rs:111-118 [BuzHash::new_nom] *)
  ("BuzHash::new_nom", {|
    fn_params := [("salt", false)];
    fn_body :=
      Block [Call "BuzHash::new" [Lit Usize 67; Bin Sub (Bin Shl (Lit U32 1) (Lit U32 12)) (Lit U32 1); Call "BuzHashTableByteSaltHash::from<(..)>" [Con "," [Var "salt"; Call "GO_BUZHASH" []]]; Bin Shl (Lit U64 1) (Lit U32 24)]] |});

  (* src/buzhash.rs:124-126 [BuzHash::to_search_state] *)
  ("BuzHash::to_search_state", {|
    fn_params := [("self", false)];
    fn_body :=
      Block [Call "BuzHashSearchState::default" []] |});

  (* src/buzhash.rs:128-156 [BuzHash::find_chunk_edge] *)
  ("BuzHash::find_chunk_edge", {|
    fn_params := [("self", false); ("state", true); ("data", false)];
    fn_body :=
      Block [ForRange "i" (Field (Var "state") "offset") (Prim Plen [Var "data"]) (Block [Method "add_buf" [Field (Var "state") "state"; Var "data"; Var "self"; Var "i"];
            If (Bin Eq (Bin BitAnd (Field (Field (Var "state") "state") "h") (Field (Var "self") "mask")) (Field (Var "self") "mask")) (Block [Method "reset" [Var "state"];
                Return (Con "," [Con "Some" [Bin Add (Var "i") (Lit Usize 1)]; Bin Add (Var "i") (Lit Usize 1)])]) (Con "()" [])]);
        Let "discard_ct" (Prim Psaturating_sub [Prim Plen [Var "data"]; Field (Var "self") "k"]);
        Assign (Field (Var "state") "offset") (Bin Sub (Prim Plen [Var "data"]) (Var "discard_ct"));
        Con "," [Con "None" []; Var "discard_ct"]] |});

  (* src/buzhash.rs:160-162 [BuzHashIncr::from<&BuzHash>] *)
  ("BuzHashIncr::from<&BuzHash>", {|
    fn_params := [("src", false)];
    fn_body :=
      Block [Call "BuzHashIncr::from<BuzHash>" [Prim Pclone [Var "src"]]] |});

  (* src/buzhash.rs:167-169 [BuzHash::to_chunk_incr] *)
  ("BuzHash::to_chunk_incr", {|
    fn_params := [("self", false)];
    fn_body :=
      Block [Call "BuzHashIncr::from<&BuzHash>" [Var "self"]] |});

  (* src/buzhash.rs:179-182 [BuzHashSearchState::reset] *)
  ("BuzHashSearchState::reset", {|
    fn_params := [("self", true)];
    fn_body :=
      Block [Assign (Field (Var "self") "offset") (Lit Usize 0);
        Method "reset" [Field (Var "self") "state"];
        Con "()" []] |});

  (* src/buzhash.rs:192-194 [BuzHashState::reset] *)
  ("BuzHashState::reset", {|
    fn_params := [("self", true)];
    fn_body :=
      Block [Assign (Field (Var "self") "h") (Lit U32 0);
        Con "()" []] |});

  (* src/buzhash.rs:196-206 [BuzHashState::add_buf] *)
  ("BuzHashState::add_buf", {|
    fn_params := [("self", true); ("data", false); ("params", false); ("i", false)];
    fn_body :=
      Block [If (Bin Ge (Var "i") (Field (Var "params") "k")) (Block [Let "drop_i" (Bin Sub (Var "i") (Field (Var "params") "k"));
            Let "drop" (Index (Var "data") (Var "drop_i"));
            Method "add_overflow" [Var "self"; Var "params"; Index (Var "data") (Var "i"); Var "drop"];
            Con "()" []]) (Block [Method "add" [Var "self"; Var "params"; Index (Var "data") (Var "i")];
            Con "()" []])] |});

  (* src/buzhash.rs:209-211 [BuzHashState::add] *)
  ("BuzHashState::add", {|
    fn_params := [("self", true); ("params", false); ("v", false)];
    fn_body :=
      Block [Assign (Field (Var "self") "h") (Bin BitXor (Prim Protate_left [Field (Var "self") "h"; Lit U32 1]) (Method "hash" [Field (Var "params") "h"; Var "v"]));
        Con "()" []] |});

  (* src/buzhash.rs:214-219 [BuzHashState::add_overflow] *)
  ("BuzHashState::add_overflow", {|
    fn_params := [("self", true); ("params", false); ("add_v", false); ("remove_v", false)];
    fn_body :=
      Block [Let "h" (Prim Protate_left [Field (Var "self") "h"; Lit U32 1]);
        Let "drop" (Prim Protate_left [Method "hash" [Field (Var "params") "h"; Var "remove_v"]; Cast U32 (Bin Rem (Field (Var "params") "k") (Lit Usize 8))]);
        Assign (Field (Var "self") "h") (Bin BitXor (Bin BitXor (Var "h") (Var "drop")) (Method "hash" [Field (Var "params") "h"; Var "add_v"]));
        Con "()" []] |});

  (* src/buzhash.rs:240-255 [BuzHashIncr::push] *)
  ("BuzHashIncr::push", {|
    fn_params := [("self", true); ("data", false)];
    fn_body :=
      Block [ForEnum "i" "v" (Var "data") (Block [Method "push_byte" [Var "self"; Var "v"];
            If (Bin Eq (Bin BitAnd (Field (Field (Var "self") "state") "h") (Field (Field (Var "self") "params") "mask")) (Field (Field (Var "self") "params") "mask")) (Block [Method "reset" [Var "self"];
                Return (Con "Some" [Bin Add (Var "i") (Lit Usize 1)])]) (Con "()" []);
            If (Bin Gt (Field (Var "self") "input_idx") (Field (Field (Var "self") "params") "max_chunk_size")) (Block [Method "reset" [Var "self"];
                Return (Con "Some" [Bin Add (Var "i") (Lit Usize 1)])]) (Con "()" [])]);
        Con "None" []] |});

  (* src/buzhash.rs:259-263 [BuzHashIncr::reset] *)
  ("BuzHashIncr::reset", {|
    fn_params := [("self", true)];
    fn_body :=
      Block [Assign (Field (Var "self") "buf_idx") (Wrapping (Lit Usize 0));
        Assign (Field (Var "self") "input_idx") (Lit U64 0);
        Method "reset" [Field (Var "self") "state"];
        Con "()" []] |});

  (* src/buzhash.rs:265-278 [BuzHashIncr::push_byte] *)
  ("BuzHashIncr::push_byte", {|
    fn_params := [("self", true); ("val", false)];
    fn_body :=
      Block [If (Bin Ge (Field (Var "self") "input_idx") (Cast U64 (Field (Field (Var "self") "params") "k"))) (Block [Let "o" (Index (Field (Var "self") "buf") (Field (Field (Var "self") "buf_idx") "0"));
            Method "add_overflow" [Field (Var "self") "state"; Field (Var "self") "params"; Var "val"; Var "o"];
            Con "()" []]) (Block [Method "add" [Field (Var "self") "state"; Field (Var "self") "params"; Var "val"];
            Con "()" []]);
        Assign (Index (Field (Var "self") "buf") (Field (Field (Var "self") "buf_idx") "0")) (Var "val");
        OpAssign Add (Field (Var "self") "buf_idx") (Wrapping (Lit Usize 1));
        OpAssign Rem (Field (Field (Var "self") "buf_idx") "0") (Field (Field (Var "self") "params") "k");
        OpAssign Add (Field (Var "self") "input_idx") (Lit U64 1);
        Con "()" []] |});

  (* src/buzhash.rs:282-291 [BuzHashIncr::from<BuzHash>] *)
  ("BuzHashIncr::from<BuzHash>", {|
    fn_params := [("params", false)];
    fn_body :=
      Block [Let "buf" (Prim Pclone [Prim Prepeat [Lit U8 0; Field (Var "params") "k"]]);
        StructLit "BuzHashIncr" ["params"; "state"; "buf"; "buf_idx"; "input_idx"] [("params", Var "params"); ("state", Call "BuzHashState::default" []); ("buf", Var "buf"); ("buf_idx", Wrapping (Lit Usize 0)); ("input_idx", Lit U64 0)]] |});

  (* src/buzhash.rs:312-314 [BuzHashTableHash::from<&[]>] *)
  ("BuzHashTableHash::from<&[]>", {|
    fn_params := [("table", false)];
    fn_body :=
      Block [StructLit "BuzHashTableHash" ["table"] [("table", Var "table")]] |});

  (* src/buzhash.rs:318-320 [BuzHashTableHash::hash] *)
  ("BuzHashTableHash::hash", {|
    fn_params := [("self", false); ("data", false)];
    fn_body :=
      Block [Index (Field (Var "self") "table") (Cast Usize (Var "data"))] |});

  (* src/buzhash.rs:336-338 [BuzHashTableBufHash::from<[]>] *)
  ("BuzHashTableBufHash::from<[]>", {|
    fn_params := [("table", false)];
    fn_body :=
      Block [StructLit "BuzHashTableBufHash" ["table"] [("table", Var "table")]] |});

  (* src/buzhash.rs:342-344 [BuzHashTableBufHash::hash] *)
  ("BuzHashTableBufHash::hash", {|
    fn_params := [("self", false); ("data", false)];
    fn_body :=
      Block [Index (Field (Var "self") "table") (Cast Usize (Var "data"))] |});

  (* src/buzhash.rs:363-365 [BuzHashTableByteSaltHash::from<(..)>] *)
  ("BuzHashTableByteSaltHash::from<(..)>", {|
    fn_params := [("arg", false)];
    fn_body :=
      Block [LetPair "salt" "table" (Var "arg");
        Block [StructLit "BuzHashTableByteSaltHash" ["table"; "salt"] [("table", Var "table"); ("salt", Var "salt")]]] |});

  (* src/buzhash.rs:369-371 [BuzHashTableByteSaltHash::hash] *)
  ("BuzHashTableByteSaltHash::hash", {|
    fn_params := [("self", false); ("data", false)];
    fn_body :=
      Block [Index (Field (Var "self") "table") (Cast Usize (Bin BitXor (Var "data") (Field (Var "self") "salt")))] |});

  (* src/buzhash_table.rs:77-84 [borg_buzhash_table] *)
  ("borg_buzhash_table", {|
    fn_params := [("seed", false)];
    fn_body :=
      Block [Let "t" (Prim Pclone [Prim Prepeat [Lit U32 0; Lit Usize 256]]);
        ForRange "i" (Lit Usize 0) (Prim Plen [Var "t"]) (Block [Assign (Index (Var "t") (Var "i")) (Bin BitXor (Index (Call "BORG_BUZHASH_BASE" []) (Var "i")) (Var "seed"))]);
        Var "t"] |});

  (* src/zpaq.rs:62-80 [Zpaq::fragment_ave_from_range] *)
  ("Zpaq::fragment_ave_from_range", {|
    fn_params := [("range", false)];
    fn_body :=
      Block [Let "v" (Match (Prim Pend_bound [Var "range"]) [(PCon "Included" ["i"], Var "i");
            (PCon "Excluded" ["i"], Bin Sub (Var "i") (Lit U64 1));
            (PCon "Unbounded" [], Block [Bin Mul (Lit U64 64) (Match (Prim Pstart_bound [Var "range"]) [(PCon "Included" ["i"], Var "i");
                    (PCon "Excluded" ["i"], Bin Add (Var "i") (Lit U64 1));
                    (PCon "Unbounded" [], Block [Return (Lit U8 16)])])])]);
        Call "Zpaq::fragment_ave_from_max" [Var "v"]] |});

  (* src/zpaq.rs:83-87 [Zpaq::range_from_fragment_ave] *)
  ("Zpaq::range_from_fragment_ave", {|
    fn_params := [("fragment_ave", false)];
    fn_body :=
      Block [Prim Passert [Bin Le (Var "fragment_ave") (Lit U8 32)];
        Prim Passert [Bin Ge (Var "fragment_ave") (Lit U8 10)];
        Con ".." [Bin Shl (Lit U64 64) (Bin Sub (Var "fragment_ave") (Lit U8 10)); Bin Shl (Lit U64 8128) (Var "fragment_ave")]] |});

  (* src/zpaq.rs:89-91 [Zpaq::range_from_max] *)
  ("Zpaq::range_from_max", {|
    fn_params := [("max", false)];
    fn_body :=
      Block [Con ".." [Bin Div (Var "max") (Lit U64 64); Var "max"]] |});

  (* src/zpaq.rs:93-102 [Zpaq::max_hash_from_fragment_ave] *)
  ("Zpaq::max_hash_from_fragment_ave", {|
    fn_params := [("fragment_ave", false)];
    fn_body :=
      Block [Prim Passert [Bin Le (Var "fragment_ave") (Lit U8 32)];
        Bin Shl (Lit U32 1) (Bin Sub (Lit U8 32) (Var "fragment_ave"))] |});

  (* src/zpaq.rs:110-113 [Zpaq::with_range] *)
  ("Zpaq::with_range", {|
    fn_params := [("range", false)];
    fn_body :=
      Block [Let "f" (Call "Zpaq::fragment_ave_from_range" [Prim Pclone [Var "range"]]);
        Call "Zpaq::with_average_and_range" [Var "f"; Var "range"]] |});

  (* src/zpaq.rs:121-124 [Zpaq::with_average_size_pow_2] *)
  ("Zpaq::with_average_size_pow_2", {|
    fn_params := [("average_size_pow_2", false)];
    fn_body :=
      Block [Let "r" (Call "Zpaq::range_from_fragment_ave" [Var "average_size_pow_2"]);
        Call "Zpaq::with_average_and_range" [Var "average_size_pow_2"; Var "r"]] |});

  (* src/zpaq.rs:132-134 [Zpaq::with_max_size] *)
  ("Zpaq::with_max_size", {|
    fn_params := [("max", false)];
    fn_body :=
      Block [Call "Zpaq::with_average_and_range" [Call "Zpaq::fragment_ave_from_max" [Var "max"]; Call "Zpaq::range_from_max" [Var "max"]]] |});

  (* src/zpaq.rs:141-146 [Zpaq::with_average_and_range] *)
  ("Zpaq::with_average_and_range", {|
    fn_params := [("average_size_pow_2", false); ("range", false)];
    fn_body :=
      Block [StructLit "Zpaq" ["range"; "max_hash"] [("range", Method "into_tuple" [Var "range"]); ("max_hash", Call "Zpaq::max_hash_from_fragment_ave" [Var "average_size_pow_2"])]] |});

  (* src/zpaq.rs:155-157 [Zpaq::split_here] *)
  ("Zpaq::split_here", {|
    fn_params := [("self", false); ("hash", false); ("index", false)];
    fn_body :=
      Block [Or (And (Bin Lt (Var "hash") (Field (Var "self") "max_hash")) (Not (Method "under_min" [Field (Var "self") "range"; Var "index"]))) (Method "exceeds_max" [Field (Var "self") "range"; Var "index"])] |});

  (* src/zpaq.rs:166-168 [Zpaq::default] *)
  ("Zpaq::default", {|
    fn_params := [];
    fn_body :=
      Block [Call "Zpaq::with_average_size_pow_2" [Lit U8 16]] |});

  (* src/zpaq.rs:190-193 [ZpaqSearchState::feed] *)
  ("ZpaqSearchState::feed", {|
    fn_params := [("self", true); ("v", false)];
    fn_body :=
      Block [OpAssign Add (Field (Var "self") "idx") (Lit U64 1);
        Method "feed" [Field (Var "self") "state"; Var "v"]] |});

  (* src/zpaq.rs:199-201 [Zpaq::to_search_state] *)
  ("Zpaq::to_search_state", {|
    fn_params := [("self", false)];
    fn_body :=
      Block [Call "ZpaqSearchState::default" []] |});

  (* src/zpaq.rs:203-217 [Zpaq::find_chunk_edge] *)
  ("Zpaq::find_chunk_edge", {|
    fn_params := [("self", false); ("state", true); ("data", false)];
    fn_body :=
      Block [ForEnum "i" "v" (Var "data") (Block [Let "h" (Method "feed" [Var "state"; Var "v"]);
            If (Method "split_here" [Var "self"; Var "h"; Cast U64 (Bin Add (Field (Var "state") "idx") (Lit U64 1))]) (Block [Assign (Var "state") (Method "to_search_state" [Var "self"]);
                Return (Con "," [Con "Some" [Bin Add (Var "i") (Lit Usize 1)]; Bin Add (Var "i") (Lit Usize 1)])]) (Con "()" [])]);
        Con "," [Con "None" []; Prim Plen [Var "data"]]] |});

  (* src/zpaq.rs:221-223 [ZpaqSearchState::from<&Zpaq>] *)
  ("ZpaqSearchState::from<&Zpaq>", {|
    fn_params := [("_", false)];
    fn_body :=
      Block [Call "ZpaqSearchState::default" []] |});

  (* src/zpaq.rs:227-229 [ZpaqIncr::from<&Zpaq>] *)
  ("ZpaqIncr::from<&Zpaq>", {|
    fn_params := [("s", false)];
    fn_body :=
      Block [Call "ZpaqIncr::from<Zpaq>" [Prim Pclone [Var "s"]]] |});

  (* src/zpaq.rs:234-236 [Zpaq::to_chunk_incr] *)
  ("Zpaq::to_chunk_incr", {|
    fn_params := [("self", false)];
    fn_body :=
      Block [Call "ZpaqIncr::from<&Zpaq>" [Var "self"]] |});

  (* src/zpaq.rs:240-243 [ZpaqIncr::feed] *)
  ("ZpaqIncr::feed", {|
    fn_params := [("self", true); ("v", false)];
    fn_body :=
      Block [OpAssign Add (Field (Var "self") "idx") (Lit U64 1);
        Method "feed" [Field (Var "self") "state"; Var "v"]] |});

  (* src/zpaq.rs:245-248 [ZpaqIncr::reset] *)
  ("ZpaqIncr::reset", {|
    fn_params := [("self", true)];
    fn_body :=
      Block [Assign (Field (Var "self") "idx") (Lit U64 0);
        Assign (Field (Var "self") "state") (Call "ZpaqHash::default" []);
        Con "()" []] |});

  (* src/zpaq.rs:252-262 [ZpaqIncr::push] *)
  ("ZpaqIncr::push", {|
    fn_params := [("self", true); ("data", false)];
    fn_body :=
      Block [ForEnum "i" "v" (Var "data") (Block [Let "h" (Method "feed" [Var "self"; Var "v"]);
            If (Method "split_here" [Field (Var "self") "params"; Var "h"; Field (Var "self") "idx"]) (Block [Method "reset" [Var "self"];
                Return (Con "Some" [Bin Add (Var "i") (Lit Usize 1)])]) (Con "()" [])]);
        Con "None" []] |});

  (* src/zpaq.rs:266-272 [ZpaqIncr::from<Zpaq>] *)
  ("ZpaqIncr::from<Zpaq>", {|
    fn_params := [("params", false)];
    fn_body :=
      Block [StructLit "ZpaqIncr" ["params"; "state"; "idx"] [("params", Var "params"); ("state", Call "ZpaqHash::default" []); ("idx", Lit U64 0)]] |});

  (* src/zpaq.rs:286-290 [ZpaqHash::eq] *)
  ("ZpaqHash::eq", {|
    fn_params := [("self", false); ("other", false)];
    fn_body :=
      Block [And (And (Bin Eq (Field (Var "self") "hash") (Field (Var "other") "hash")) (Bin Eq (Field (Var "self") "last_byte") (Field (Var "other") "last_byte"))) (Bin Eq (Prim Pclone [Field (Var "self") "predicted_byte"]) (Prim Pclone [Field (Var "other") "predicted_byte"]))] |});

  (* src/zpaq.rs:306-312 [ZpaqHash::default] *)
  ("ZpaqHash::default", {|
    fn_params := [];
    fn_body :=
      Block [StructLit "ZpaqHash" ["hash"; "last_byte"; "predicted_byte"] [("hash", Wrapping (Lit U32 0)); ("last_byte", Lit U8 0); ("predicted_byte", Prim Prepeat [Lit U8 0; Lit Usize 256])]] |});

  (* src/zpaq.rs:321-331 [ZpaqHash::feed] *)
  ("ZpaqHash::feed", {|
    fn_params := [("self", true); ("c", false)];
    fn_body :=
      Block [Assign (Field (Var "self") "hash") (If (Bin Eq (Var "c") (Index (Field (Var "self") "predicted_byte") (Cast Usize (Field (Var "self") "last_byte")))) (Block [Bin Mul (Bin Add (Bin Add (Field (Var "self") "hash") (Wrapping (Cast U32 (Var "c")))) (Wrapping (Lit U32 1))) (Wrapping (Lit U32 314159265))]) (Block [Bin Mul (Bin Add (Bin Add (Field (Var "self") "hash") (Wrapping (Cast U32 (Var "c")))) (Wrapping (Lit U32 1))) (Wrapping (Lit U32 271828182))]));
        Assign (Index (Field (Var "self") "predicted_byte") (Cast Usize (Field (Var "self") "last_byte"))) (Var "c");
        Assign (Field (Var "self") "last_byte") (Var "c");
        Field (Field (Var "self") "hash") "0"] |});

  (* src/zstd.rs:40-43 [Zstd::default] *)
  ("Zstd::default", {|
    fn_params := [];
    fn_body :=
      Block [Call "Zstd::with_target_section_size" [Bin Shl (Lit U64 8) (Lit U32 20)]] |});

  (* src/zstd.rs:59-71 [Zstd::with_target_section_size] *)
  ("Zstd::with_target_section_size", {|
    fn_params := [("target_section_size", false)];
    fn_body :=
      Block [Let "job_size_mb" (Prim Punwrap [Prim (Ptry_into U32) [Bin Shr (Var "target_section_size") (Lit U32 20)]]);
        Prim Passert [Bin Ne (Var "job_size_mb") (Lit U32 0)];
        Let "rsync_bits" (Bin Add (Bin BitXor (Prim Pleading_zeros [Var "job_size_mb"]) (Lit U32 31)) (Lit U32 20));
        Let "hit_mask" (Bin Sub (Bin Shl (Lit U64 1) (Var "rsync_bits")) (Lit U64 1));
        Let "prime_power" (Prim Pwrapping_pow [Field (Call "PRIME_8_BYTES" []) "0"; Prim Punwrap [Prim (Ptry_into U32) [Bin Sub (Call "RSYNC_LENGTH" []) (Lit Usize 1)]]]);
        StructLit "Zstd" ["hit_mask"; "prime_power"] [("hit_mask", Var "hit_mask"); ("prime_power", Var "prime_power")]] |});

  (* src/zstd.rs:91-96 [ZstdState::append] *)
  ("ZstdState::append", {|
    fn_params := [("self", true); ("data", false)];
    fn_body :=
      Block [ForIn "i" (Var "data") (Block [OpAssign Mul (Field (Var "self") "hash") (Call "PRIME_8_BYTES" []);
            OpAssign Add (Field (Var "self") "hash") (Bin Add (Wrapping (Cast U64 (Var "i"))) (Call "ROLL_HASH_CHAR_OFFSET" []));
            Con "()" []])] |});

  (* src/zstd.rs:99-103 [ZstdState::rotate] *)
  ("ZstdState::rotate", {|
    fn_params := [("self", true); ("to_remove", false); ("to_add", false); ("prime_power", false)];
    fn_body :=
      Block [OpAssign Sub (Field (Var "self") "hash") (Bin Mul (Bin Add (Wrapping (Cast U64 (Var "to_remove"))) (Call "ROLL_HASH_CHAR_OFFSET" [])) (Wrapping (Var "prime_power")));
        OpAssign Mul (Field (Var "self") "hash") (Call "PRIME_8_BYTES" []);
        OpAssign Add (Field (Var "self") "hash") (Bin Add (Wrapping (Cast U64 (Var "to_add"))) (Call "ROLL_HASH_CHAR_OFFSET" []));
        Con "()" []] |});

  (* src/zstd.rs:105-107 [ZstdState::at_split] *)
  ("ZstdState::at_split", {|
    fn_params := [("self", true); ("params", false)];
    fn_body :=
      Block [Bin Eq (Bin BitAnd (Field (Field (Var "self") "hash") "0") (Field (Var "params") "hit_mask")) (Field (Var "params") "hit_mask")] |});

  (* src/zstd.rs:117-119 [ZstdSearchState::append] *)
  ("ZstdSearchState::append", {|
    fn_params := [("self", true); ("data", false)];
    fn_body :=
      Block [Method "append" [Field (Var "self") "state"; Var "data"];
        Con "()" []] |});

  (* src/zstd.rs:121-123 [ZstdSearchState::rotate] *)
  ("ZstdSearchState::rotate", {|
    fn_params := [("self", true); ("to_remove", false); ("to_add", false); ("prime_power", false)];
    fn_body :=
      Block [Method "rotate" [Field (Var "self") "state"; Var "to_remove"; Var "to_add"; Var "prime_power"];
        Con "()" []] |});

  (* src/zstd.rs:125-127 [ZstdSearchState::at_split] *)
  ("ZstdSearchState::at_split", {|
    fn_params := [("self", true); ("params", false)];
    fn_body :=
      Block [Method "at_split" [Field (Var "self") "state"; Var "params"]] |});

  (* src/zstd.rs:158-160 [Zstd::to_chunk_incr] *)
  ("Zstd::to_chunk_incr", {|
    fn_params := [("self", false)];
    fn_body :=
      Block [Call "ZstdIncr::from<&Zstd>" [Var "self"]] |});

  (* src/zstd.rs:164-173 [ZstdIncr::from<Zstd>] *)
  ("ZstdIncr::from<Zstd>", {|
    fn_params := [("params", false)];
    fn_body :=
      Block [StructLit "ZstdIncr" ["params"; "state"; "window"; "window_offs"; "window_full"; "input_offs"] [("params", Var "params"); ("state", Call "ZstdState::default" []); ("window", Prim Pclone [Prim Prepeat [Lit U8 0; Call "RSYNC_LENGTH" []]]); ("window_offs", Lit Usize 0); ("window_full", BoolLit false); ("input_offs", Lit U64 0)]] |});

  (* src/zstd.rs:177-179 [ZstdIncr::from<&Zstd>] *)
  ("ZstdIncr::from<&Zstd>", {|
    fn_params := [("params", false)];
    fn_body :=
      Block [Call "ZstdIncr::from<Zstd>" [Prim Pclone [Var "params"]]] |});

  (* src/zstd.rs:185-187 [Zstd::to_search_state] *)
  ("Zstd::to_search_state", {|
    fn_params := [("self", false)];
    fn_body :=
      Block [Call "ZstdSearchState::default" []] |});

  (* src/zstd.rs:189-223 [Zstd::find_chunk_edge] *)
  ("Zstd::find_chunk_edge", {|
    fn_params := [("self", false); ("state", true); ("data", false)];
    fn_body :=
      Block [If (Bin Lt (Field (Var "state") "offset") (Call "RSYNC_LENGTH" [])) (Block [Let "seed_b" (Slice (Var "data") (Field (Var "state") "offset") (Prim Pmin [Call "RSYNC_LENGTH" []; Prim Plen [Var "data"]]));
            Method "append" [Var "state"; Var "seed_b"];
            OpAssign Add (Field (Var "state") "offset") (Prim Plen [Var "seed_b"]);
            If (Bin Lt (Field (Var "state") "offset") (Call "RSYNC_LENGTH" [])) (Block [Return (Con "," [Con "None" []; Lit Usize 0])]) (Con "()" [])]) (Con "()" []);
        ForRange "i" (Field (Var "state") "offset") (Prim Plen [Var "data"]) (Block [Let "to_remove" (Index (Var "data") (Bin Sub (Var "i") (Call "RSYNC_LENGTH" [])));
            Let "to_add" (Index (Var "data") (Var "i"));
            Method "rotate" [Var "state"; Var "to_remove"; Var "to_add"; Field (Var "self") "prime_power"];
            If (Method "at_split" [Var "state"; Var "self"]) (Block [Let "discard_ct" (Prim Psaturating_sub [Prim Plen [Var "data"]; Call "RSYNC_LENGTH" []]);
                Return (Con "," [Con "Some" [Bin Add (Var "i") (Lit Usize 1)]; Var "discard_ct"])]) (Con "()" [])]);
        Let "discard_ct" (Prim Psaturating_sub [Prim Plen [Var "data"]; Call "RSYNC_LENGTH" []]);
        Let "keep_ct" (Bin Sub (Prim Plen [Var "data"]) (Var "discard_ct"));
        Assign (Field (Var "state") "offset") (Var "keep_ct");
        Con "," [Con "None" []; Var "discard_ct"]] |});

  (* src/zstd.rs:227-264 [ZstdIncr::push] *)
  ("ZstdIncr::push", {|
    fn_params := [("self", true); ("data", false)];
    fn_body :=
      Block [Let "use_len" (If (Not (Field (Var "self") "window_full")) (Block [Let "use_len" (Prim Pmin [Bin Sub (Prim Plen [Field (Var "self") "window"]) (Field (Var "self") "window_offs"); Prim Plen [Var "data"]]);
              CopyFromSlice (Field (Var "self") "window") (Field (Var "self") "window_offs") (Bin Add (Field (Var "self") "window_offs") (Var "use_len")) (SliceTo (Var "data") (Var "use_len"));
              OpAssign Add (Field (Var "self") "window_offs") (Var "use_len");
              If (Bin Ne (Field (Var "self") "window_offs") (Prim Plen [Field (Var "self") "window"])) (Block [Return (Con "None" [])]) (Con "()" []);
              Assign (Field (Var "self") "window_full") (BoolLit true);
              Assign (Field (Var "self") "window_offs") (Lit Usize 0);
              Method "append" [Field (Var "self") "state"; Prim Pclone [Field (Var "self") "window"]];
              Var "use_len"]) (Block [Lit Usize 0]));
        ForEnum "i" "v" (SliceFrom (Var "data") (Var "use_len")) (Block [Let "to_remove" (Index (Field (Var "self") "window") (Field (Var "self") "window_offs"));
            Let "to_add" (Var "v");
            Method "rotate" [Field (Var "self") "state"; Var "to_remove"; Var "to_add"; Field (Field (Var "self") "params") "prime_power"];
            Assign (Index (Field (Var "self") "window") (Field (Var "self") "window_offs")) (Var "to_add");
            Assign (Field (Var "self") "window_offs") (Bin Rem (Bin Add (Field (Var "self") "window_offs") (Lit Usize 1)) (Prim Plen [Field (Var "self") "window"]));
            If (Method "at_split" [Field (Var "self") "state"; Field (Var "self") "params"]) (Block [Return (Con "Some" [Bin Add (Var "i") (Var "use_len")])]) (Con "()" [])]);
        Con "None" []] |})].

Definition tables : list (string * (ity * list Z)) := [
  (* src/buzhash_table.rs:4 *)
  ("GO_BUZHASH", (U32,
    [314414375; 4094954730; 2558252769; 2030540880; 2948584761; 3545288202; 2190948657; 2680368028;
     671103880; 3272348586; 1801948212; 1480912669; 2857708568; 1249367016; 3522571936; 1704542588;
     4225961594; 4192392686; 2717688878; 1096059241; 292379481; 2933530138; 3306757143; 1421452235;
     1920878890; 1547906961; 832900046; 3261688566; 561807392; 308457212; 2900842788; 2557911119;
     2939161538; 1073538038; 3597143989; 3501313752; 1716648002; 1936698863; 3157079081; 2956798212;
     2120436644; 3755507084; 2039010874; 1273289011; 1787626370; 2652056930; 1055508831; 4274019223;
     1762110772; 2249641932; 2796207908; 2329004334; 1328218048; 3094682075; 1702292214; 366731274;
     1675746690; 2741725825; 4004354483; 3161080585; 880333223; 562216128; 3713060814; 2092062080;
     1929860227; 1346076482; 1289031011; 1062048969; 945802167; 2430267756; 3974171534; 297913092;
     2171242907; 1772264710; 4211673911; 4186894652; 124073013; 2669009986; 994290655; 322185279;
     2482231727; 213778033; 2810750484; 1330959088; 3560394695; 1884650727; 4148296936; 3837195873;
     3325086616; 947544934; 1928603901; 1401948635; 3309189136; 505041637; 2103973552; 68131713;
     2627324411; 2671440850; 2001539169; 3586670826; 2383708414; 1860436540; 800957749; 3633250170;
     3630377514; 1136975908; 1056078193; 3341313789; 3814508080; 1188651552; 1132102532; 3912019724;
     1653646462; 2814087736; 235929849; 1239903196; 986690744; 56109966; 1856167502; 784400525;
     4241022825; 2445475338; 3027355609; 2005657618; 1892850385; 1983978687; 3271747612; 1313100180;
     585345650; 3059180265; 2726353669; 2189076238; 1280514717; 2053160778; 2413386308; 579448560;
     3444628932; 1671081577; 1609064150; 1322722559; 15748989; 2510683312; 2284150037; 2785268425;
     4136987227; 1407876926; 3044078117; 725344771; 2709644302; 3289632206; 2815106747; 3475344159;
     1366208534; 3391112582; 3521550484; 3898242003; 2108871554; 2926818403; 899208771; 1351075940;
     3642699958; 3788820967; 1941156663; 3467383347; 2397009989; 2795259337; 3680351147; 684699112;
     3959048679; 3418531417; 1506601329; 2509898159; 2397678311; 4214161862; 1517627446; 2664507777;
     1636631990; 2481722035; 1167116153; 3977451426; 67000373; 2060699383; 3567965621; 446258903;
     612104868; 1774372761; 1952424965; 3317297721; 3285823164; 2801143307; 3743322583; 2878211100;
     3996223686; 926382750; 3236012991; 430287332; 1456182614; 3302178111; 4213092414; 4183126103;
     467868983; 3522848241; 4112045844; 1460324130; 4067227242; 611929415; 2342708226; 1062287334;
     901649491; 1127548024; 2667966088; 911014351; 966934247; 2765851977; 3270226898; 3338377685;
     3759464368; 1901515813; 3767576698; 1287729016; 456193283; 107563642; 1746504913; 797132221;
     2641959310; 3631322175; 586116340; 3894090773; 108749272; 4233012469; 4268600151; 469189818;
     2802543141; 2951144466; 3334578268; 2415649742; 3290893041; 4092814195; 3293609432; 1584386530;
     1489868601; 1205061045; 3788874563; 1028516426; 2302513582; 3140116010; 223852544; 1697283273;
     1785253117; 1649581835; 3965662934; 1986842330; 2529846255; 2689177656; 3640856409; 2173039826]));

  (* src/buzhash_table.rs:42 *)
  ("BORG_BUZHASH_BASE", (U32,
    [3891802604; 4093797477; 2947878062; 1834302586; 3594121187; 430422165; 2595904289; 1410848468;
     905784196; 3522601305; 1066283583; 3021559068; 4098150079; 568081280; 3733790262; 2225284150;
     3199425181; 2741970090; 2766537094; 2563870718; 1057238942; 3676474317; 157578423; 1545650935;
     4193175666; 3898757749; 3117649792; 3566122774; 581521588; 1018867370; 3279740371; 2414505834;
     492164390; 2144785331; 3667948270; 1128639552; 2692204098; 2402014299; 676368656; 1431664147;
     4290867985; 3647078383; 3845309063; 2864273719; 1188266853; 2959460099; 4074315023; 2462927792;
     1074251538; 4082436573; 1348153193; 1434365313; 823084387; 3185335272; 2539713420; 1881014789;
     1405508; 345057318; 3696010027; 1739691742; 1571984104; 2350596203; 32718965; 4196737271;
     1941714859; 504937520; 4264324275; 549790416; 1446634459; 2485901877; 2308635089; 3470016565;
     2563506779; 627005297; 1895758372; 3911776845; 738395141; 3107083664; 550200253; 2707828829;
     2162502666; 2835021359; 449920893; 3484366469; 1820565913; 2099671434; 3730701529; 2043638613;
     2306463739; 3958949214; 3957590244; 3442147258; 3833839214; 3795441374; 1572989408; 74683167;
     2233141628; 2891821641; 163641842; 3637702964; 3874721345; 2982616049; 1387717851; 119686180;
     1828142725; 1327880348; 2016050548; 279350733; 981893513; 3580941020; 1768097605; 2504191366;
     857527986; 2823510824; 126327965; 943140708; 1904597777; 632978563; 17175843; 3866701727;
     3856598993; 1126282367; 2099538392; 440029072; 1220422051; 1720742319; 2395528497; 135315391;
     2168063668; 1750303557; 1703304668; 1135025038; 2019662422; 1513375005; 1541055469; 1911408617;
     397187616; 2026966010; 1813937973; 3575134681; 604814417; 860961985; 3535075221; 3433726342;
     195815042; 2738680164; 415646698; 3251245151; 2572751994; 1832752350; 191188926; 3985648800;
     2105760949; 2579109129; 1682295074; 1230927554; 4033975484; 2707627390; 1735423653; 2315255349;
     441040115; 2389480586; 21285143; 2375265953; 385383903; 3371326793; 531698327; 669470925;
     792866209; 3739785847; 355780163; 1165720459; 2937532282; 1805322710; 861355903; 4048426436;
     1382311893; 2940764737; 2277764621; 868108556; 2510974546; 1139549230; 3615353243; 3491246927;
     1534645255; 1234089579; 2972164008; 3012234918; 2423358326; 3810909922; 2385456314; 3399859692;
     2640653398; 2909337035; 2809500079; 2296610536; 4177175073; 4240162375; 1329624966; 2939762825;
     4098138585; 363731503; 1084911767; 1872004780; 701641379; 3832941033; 3904254463; 3129304564;
     287868745; 1187620920; 3944447192; 4111907761; 4218748320; 17405670; 1285113427; 495490322;
     1406982563; 3708241559; 511238524; 1669109951; 2467017241; 3481236912; 3415430651; 2657234953;
     3831945260; 687433939; 4273178073; 596509292; 3102541152; 208274042; 1030745163; 3142266562;
     3876913948; 3991732509; 3452228537; 3294035094; 3708742176; 3017772745; 305469843; 3654004764;
     1613842338; 3476541821; 4160543196; 3629477795; 273449265; 320153460; 3027326993; 1785905865;
     3316529083; 2808930602; 2169559283; 784503320; 2740914564; 1220568190; 190839180; 1904820091]));

  (* src/gear_table/gear32.rs:2 *)
  ("GEAR_32", (U32,
    [2961757097; 1448265719; 1169328489; 1795852757; 915363646; 499529436; 544885838; 2759111494;
     990292030; 2431094124; 3788058103; 2392130874; 1513026801; 2769267860; 242418667; 2578480860;
     1755131829; 20610; 3299902214; 1051748234; 4053764011; 4061306815; 1209092439; 262;
     532297600; 1005613014; 2573762199; 2040596083; 3836530590; 622913311; 735433725; 14568909;
     3936956700; 3681849014; 2941753997; 2259084762; 3425682186; 895363838; 765053172; 3135130442;
     4155840626; 847689304; 46728; 2702563044; 1213169308; 3435822007; 3206907046; 2917656595;
     28820; 2330366216; 3178719959; 4218093599; 3349443768; 3136745750; 164306779; 2964462054;
     13417528; 3431243018; 1940123517; 3355955923; 2133510550; 3493308523; 4092689510; 2896570032;
     1968871735; 2424536806; 1860742547; 55777; 2651208626; 128677873; 3964994133; 2029753512;
     3343978011; 12811; 2189177638; 342318859; 645649318; 4052840441; 2250382207; 2646527719;
     3931699402; 9247110; 1832415311; 3761425159; 579674614; 1667019199; 1176543603; 2816991203;
     202427027; 656932584; 2732530797; 1305334188; 28927; 2729240699; 2559715162; 3263566209;
     3147395744; 4017147191; 1299; 3227039256; 166219909; 2442656571; 2115920493; 1376539728;
     3202447729; 1876536370; 2332028; 2686221694; 2879571800; 220176590; 196519307; 1127472475;
     3271375741; 4215373860; 1705337221; 4135191229; 1768886749; 8226; 2362883729; 1766951350;
     4002698165; 3640417961; 2877734681; 50869; 645074967; 3979153435; 994176388; 333849106;
     2736125419; 2283193166; 3912850332; 2943264; 1115937565; 3615311386; 3807123428; 3101736512;
     3735118020; 2129430216; 555330834; 2798449771; 743624414; 766805777; 61654; 1037424841;
     2316858018; 4068648132; 2149641260; 1720956640; 52761; 550197045; 1982775095; 544996994;
     3615342866; 2611446594; 561890579; 2994412073; 14011800; 1910741888; 2119641840; 2725465903;
     3213018805; 1547430598; 3452474299; 1829799265; 2012786224; 2440850305; 1534441113; 53098;
     4089711354; 543363706; 1646126626; 3515395101; 275789538; 47199; 4075769420; 3654737510;
     2717677909; 3951426819; 3190247471; 3808641617; 1142121683; 8565612; 2974126339; 35391132;
     688971719; 1935357246; 3460575532; 3163827781; 4031809191; 4274237973; 11407445; 4115349636;
     32729; 3216875251; 2818846767; 969820503; 4290372260; 1438231837; 35531; 1222819784;
     2346948673; 237441558; 3574634216; 285325847; 3257825039; 378138610; 11086361; 3161872784;
     3323216355; 132201004; 2462837124; 2404382066; 194408640; 1653955160; 1683981285; 1107092758;
     3151664968; 43698; 427170566; 2341428867; 1046289661; 3965460012; 4210548990; 211;
     3661598743; 1895796845; 86496679; 584640371; 3383455967; 3986999004; 3975094081; 2409138;
     108268949; 494545307; 3015933106; 3381060551; 2678843958; 1839338693; 396639960; 1858923601;
     4190810889; 1247699141; 26983; 2644843794; 2217877011; 4215107510; 1613782765; 3418311444;
     20323; 131446657; 3852809842; 1471132212; 418596599; 1668138581; 3431705417; 1674029318]));

  (* src/gear_table/gear64.rs:2 *)
  ("GEAR_64", (U64,
    [12720649874207470937; 6220253899994767574; 5022227620843582123; 7713128862809245559; 3931456925857362359; 2145462594922010955; 2340266855695177142; 11850293633421122251;
     4253271882819942674; 10441469756866476791; 16269585668086012554; 10274123871859168173; 6498400631357310754; 11893914895239905198; 1041180248866608769; 11074490967421660431;
     7538233807166320758; 88519571580008; 14172972091955989544; 4517224272786574077; 17410783855206298678; 17443179952641656630; 5193012484899382509; 1127785921477;
     2286200784185780940; 4319075009233722221; 11054224474581993291; 8764293443688126691; 16477773415798928416; 2675392301258739825; 3158663799265462939; 62572991402330227;
     16909100273786894639; 15813421104338059519; 12634737214121623407; 9702695172135568049; 14713192958633615662; 3845558405485249127; 3285878356664493179; 13465282719567368131;
     17849199576552078697; 3640797839928536096; 200697491433228; 11607419893041500281; 5210522504916033945; 14756743156403004161; 13773560884614984032; 12531239658134027464;
     123781184460122; 10008846685752418927; 13652498267850553506; 18116574062443282639; 14385751447217882151; 13472220412400852312; 705692244159983825; 12732267574704557127;
     57627845809646922; 14737076550689570561; 8332767055739287408; 14413720938363076094; 9163358039740847920; 15003645864457864410; 17577967598646747293; 12440673559316719239;
     8456239713174051591; 10413306291247951582; 7991828389891016581; 239560664804824; 11386854347068201943; 552667256958603954; 17029520133932194628; 8717724954132223174;
     14362276199122662901; 55023746992867; 9402446361091840557; 1470248305432346948; 2773042706728742123; 17406817152198312798; 9665317986662415240; 11366750002009295320;
     16886520352649219914; 39716037498528984; 7870163836567788086; 16155198047778225740; 2489683512358406288; 7159792944732801445; 5053216299830922865; 12098885092871895896;
     869417461516865003; 2821503966182894971; 11736130412620196639; 5606367647935821091; 124243424830030; 11721999548432218134; 10993892910887886921; 14016910139709294937;
     13517961789161618969; 17253515810279862392; 5582047975524; 13860028068917756035; 713909075634938078; 10491130091969346964; 9087809318685133774; 5912193115543525329;
     13754408265165448214; 8059662339490272647; 10015986591711038; 11537234326127885845; 12367666710581578939; 945651257358297904; 844043998717852049; 4842457409943397941;
     14050451821596623267; 18104892870530109735; 7324367595615623371; 17760511093534668111; 7597310739025907811; 35334639850667; 10148508341072681042; 7588998265793579607;
     17191457714616273960; 15635476086710109278; 12359776341901092711; 218484053382629; 2770575889116209710; 17090333869217663525; 4269955075904284923; 1433870992323173382;
     11751569196577746214; 9806239979276450510; 16805564213227552174; 12641223402722888; 4792915346786076956; 15527644171261290149; 16351470616956339819; 13321856880821912700;
     16042209746176548100; 9145833140366620212; 2385127773167985561; 12019250247581729775; 3193842542770177559; 3293405736371805571; 264806000937961; 4455705766521705609;
     9950829417506928004; 17474710666114448626; 9232638913239818646; 7391452489290736403; 226610200216555; 2363078318762728507; 8515954189855578715; 2340744266678614389;
     15527779374162827733; 11216077718701636867; 2413301664650842601; 12860901928516614166; 60180223592457773; 8206573921893708620; 9103792382150384163; 11705786921541771141;
     13799810688944496114; 6646163811363561694; 14828264205680994712; 7858928002964946433; 8644851008807599197; 10483372234711379089; 6590374400889022823; 228058059114139;
     17565176517135044868; 2333729349881128899; 7070060025520163149; 15098506995175212838; 1184507046646212412; 202718838077981; 17505296365341863741; 15696978081211872770;
     11672337744432435484; 16971248960933563837; 13702008557107346145; 16357991190501352990; 4905375277947230262; 36789025389058110; 12773775360562718448; 152003757063260919;
     2959111002488787489; 8312296078122133685; 14863058739196254572; 13588536849684363877; 17316488619364946971; 18357712312901684909; 48994606965342722; 17675292100092159060;
     140573352443080; 13816373998757256190; 12106854680769154578; 4165347346158573780; 18427008545812101764; 6177158706642321803; 152608561502090; 5251970984687958840;
     10080067799822677480; 1019803726431821963; 15352937054145356842; 1225465183306178874; 13992251999755790493; 1624092965229806956; 47615560063013100; 13580140204573947982;
     14273105564723361966; 567798992657835168; 10577804903547051341; 10326742343704480453; 834978751054232528; 7103683321686911745; 7232644550076924500; 4754927192696746649;
     13536297969174354127; 187685747049978; 1834683613400360277; 10056360410811379030; 4493779876478198233; 17031521067865263503; 18084170213074122111; 909359879707;
     15726446854474412430; 8142385452947234795; 371500410745745639; 2511011274985051113; 14531832727402724268; 17124030333692285667; 17072899076421576586; 10347170879009483;
     465011596463767732; 2124055920798163716; 12953334059757202133; 14521544493976023963; 11505547191960139146; 7899899535647165526; 1703555659567697796; 7984016072554241003;
     17999395712297818875; 5358827009937370834; 115892448293556; 11359517598599658375; 9525709231911323670; 18103748907446033805; 6931144200907262605; 14681535863441353960;
     87287561654467; 564559094859189776; 16547692270882292053; 6318464739833839581; 1797858705803957140; 7164600654182929213; 14739062536493593590; 7189901176607676539]))].
