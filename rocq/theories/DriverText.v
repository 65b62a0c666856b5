(** * DriverText: callers of the crate in tests/*.rs and in the documentation, as terms of [Rust.expr].

    Generated by tools/transcribe.py; do not edit.  [println!] evaluates what it prints; a counter without a type is a [u32]. *)

From Coq Require Import String.
From Verif Require Import Base Rust.
Open Scope list_scope.
Open Scope Z_scope.
Open Scope string_scope.

Definition driver_text : list (string * fn) := [
  (* tests/cuts.rs:12-35 [cut_test_incr] *)
  ("cut_test_incr", {|
    fn_params := [("seed", false); ("size", false); ("chunker", false); ("expected_splits", false)];
    fn_body :=
      Block [Let "buf" (Call "test_data" [Var "seed"; Var "size"]);
        Let "incr_splits" (Prim Pwith_capacity [Prim Plen [Var "expected_splits"]]);
        Block [Let "incr" (Var "chunker");
          Let "buf" (Prim Pclone [Var "buf"]);
          Let "last_split" (Lit Usize 0);
          ForEnum "i" "v" (Var "buf") (Block [Match (Method "push" [Var "incr"; ListLit [Var "v"]]) [(PCon "Some" ["_split_point"], Block [Let "sp" (Bin Add (Var "i") (Lit Usize 1));
                    MutPrim Mpush_back (Var "incr_splits") [Bin Sub (Var "sp") (Var "last_split")];
                    Assign (Var "last_split") (Var "sp");
                    Con "()" []]);
                (PCon "None" [], Block [])]])];
        Prim Passert [Bin Eq (Var "expected_splits") (Prim Pclone [Var "incr_splits"])];
        Con "()" []] |});

  (* tests/cuts.rs:37-94 [cut_test_sz] *)
  ("cut_test_sz", {|
    fn_params := [("seed", false); ("size", false); ("chunker", false); ("expected_splits", false)];
    fn_body :=
      Block [Let "buf" (Call "test_data" [Var "seed"; Var "size"]);
        Let "splits" (Prim Pwith_capacity [Prim Plen [Var "expected_splits"]]);
        Block [Let "state" (Method "to_search_state" [Var "chunker"]);
          Let "discard_idx" (Lit Usize 0);
          Let "last_chunk_idx" (Lit Usize 0);
          Loop (Block [Let "b" (SliceFrom (Var "buf") (Var "discard_idx"));
              LetPair "split_point" "discard_ct" (Method "find_chunk_edge" [Var "chunker"; Var "state"; Var "b"]);
              Match (Var "split_point") [(PCon "Some" ["split_point"], Block [Let "split_point_global" (Bin Add (Var "discard_idx") (Var "split_point"));
                    If (Bin Gt (Var "last_chunk_idx") (Var "split_point_global")) (Block [Block [Con "last_chunk_idx: {}, split_point_global: {}, split_point: {}, discard_idx: {}" [Var "last_chunk_idx"; Var "split_point_global"; Var "split_point"; Var "discard_idx"];
                          Prim Passert [BoolLit false]];
                        Con "()" []]) (Con "()" []);
                    Let "split_len" (Bin Sub (Var "split_point_global") (Var "last_chunk_idx"));
                    Assign (Var "last_chunk_idx") (Var "split_point_global");
                    MutPrim Mpush_back (Var "splits") [Var "split_len"];
                    Con "()" []]);
                (PCon "None" [], Block [Break])];
              OpAssign Add (Var "discard_idx") (Var "discard_ct");
              Con "()" []])];
        Let "incr_splits" (Prim Pwith_capacity [Prim Plen [Var "expected_splits"]]);
        Block [Let "incr" (Method "to_chunk_incr" [Var "chunker"]);
          Let "buf" (Prim Pclone [Var "buf"]);
          Let "last_split" (Lit Usize 0);
          ForEnum "i" "v" (Var "buf") (Block [Match (Method "push" [Var "incr"; ListLit [Var "v"]]) [(PCon "Some" ["_split_point"], Block [Let "sp" (Bin Add (Var "i") (Lit Usize 1));
                    MutPrim Mpush_back (Var "incr_splits") [Bin Sub (Var "sp") (Var "last_split")];
                    Assign (Var "last_split") (Var "sp");
                    Con "()" []]);
                (PCon "None" [], Block [])]])];
        Prim Passert [Bin Eq (Prim Pclone [Var "splits"]) (Prim Pclone [Var "incr_splits"])];
        Prim Passert [Bin Eq (Var "expected_splits") (Prim Pclone [Var "splits"])];
        Con "()" []] |});

  (* tests/cuts.rs:96-98 [cut_test] *)
  ("cut_test", {|
    fn_params := [("seed", false); ("chunker", false); ("expected_splits", false)];
    fn_body :=
      Block [Call "cut_test_sz" [Var "seed"; Bin Mul (Lit Usize 8192) (Lit Usize 4); Var "chunker"; Var "expected_splits"]] |});

  (* tests/cuts_qc.rs:11-65 [splits_fce] *)
  ("splits_fce", {|
    fn_params := [("chunker", false); ("buf", false); ("buf_sizes", false)];
    fn_body :=
      Block [Let "splits" (ListLit []);
        Let "i" (Lit Usize 0);
        Let "ss" (Method "to_search_state" [Var "chunker"]);
        Let "last_split_point" (Lit Usize 0);
        Let "curr_discard" (Lit Usize 0);
        Let "prev_buf_size" (Lit Usize 0);
        Loop (Block [If (Bin Eq (Prim Plen [Var "buf"]) (Var "curr_discard")) (Block [Break]) (Con "()" []);
            Let "buf_size" (Bin Add (Index (Var "buf_sizes") (Bin Rem (Var "i") (Prim Plen [Var "buf_sizes"]))) (Var "prev_buf_size"));
            OpAssign Add (Var "i") (Lit Usize 1);
            Let "buf_size" (Prim Pmin [Var "buf_size"; Bin Sub (Prim Plen [Var "buf"]) (Var "curr_discard")]);
            Let "b" (Slice (Var "buf") (Var "curr_discard") (Bin Add (Var "buf_size") (Var "curr_discard")));
            Con "{{ PRE: curr_discard: {}, buf_size: {}" [Var "curr_discard"; Var "buf_size"];
            LetPair "split" "discard_ct" (Method "find_chunk_edge" [Var "chunker"; Var "ss"; Var "b"]);
            Con "}} POST: discard_ct: {}, next_discard: {}" [Var "discard_ct"; Bin Add (Var "curr_discard") (Var "discard_ct")];
            Match (Var "split") [(PCon "Some" ["split_point"], Block [Let "split_point_global" (Bin Add (Var "curr_discard") (Var "split_point"));
                  Let "split_len" (Bin Sub (Var "split_point_global") (Var "last_split_point"));
                  MutPrim Mpush_back (Var "splits") [Var "split_len"];
                  Assign (Var "last_split_point") (Var "split_point_global");
                  Assign (Var "prev_buf_size") (Lit Usize 0);
                  Con "()" []]);
              (PCon "None" [], Block [If (Bin Eq (Var "buf_size") (Bin Sub (Prim Plen [Var "buf"]) (Var "curr_discard"))) (Block [Break]) (Con "()" []);
                  Assign (Var "prev_buf_size") (Var "buf_size");
                  Con "()" []])];
            OpAssign Add (Var "curr_discard") (Var "discard_ct");
            Con "-- curr_discard = {}" [Var "curr_discard"];
            Con "()" []]);
        Var "splits"] |});

  (* tests/fastcdc.rs:32-38 [oracle_1] *)
  ("oracle_1", {|
    fn_params := [("d", false)];
    fn_body :=
      Block [Let "cdc" (Call "FastCdcIncr::default" []);
        Let "v1" (Call "fast_cdc_8kb" [Prim Pclone [Field (Var "d") "data"]]);
        Let "v2" (Method "push" [Var "cdc"; Prim Pclone [Field (Var "d") "data"]]);
        Bin Eq (Var "v1") (Match (Var "v2") [(PCon "Some" ["x"], Var "x"); (PCon "None" [], Lit Usize 0)])] |});

  (* tests/fastcdc.rs:40-45 [oracle_1_test] *)
  ("oracle_1_test", {|
    fn_params := [("data", false)];
    fn_body :=
      Block [Let "cdc" (Call "FastCdcIncr::default" []);
        Let "v1" (Call "fast_cdc_8kb" [Prim Pclone [Var "data"]]);
        Let "v2" (Match (Method "push" [Var "cdc"; Prim Pclone [Var "data"]]) [(PCon "Some" ["x"], Var "x"); (PCon "None" [], Lit Usize 0)]);
        Prim Passert [Bin Eq (Var "v1") (Var "v2")];
        Con "()" []] |});

  (* tests/fastcdc.rs:89-114 [feed_until_5_chunks] *)
  ("feed_until_5_chunks", {|
    fn_params := [];
    fn_body :=
      Block [Let "cdc" (Call "FastCdcIncr::default" []);
        Let "ct" (Lit U32 0);
        Let "rng" (Call "thread_rng" []);
        Let "d" (Prim Prepeat [Lit U8 0; Lit Usize 256]);
        Method "fill_bytes" [Var "rng"; Var "d"];
        Loop (Block [Method "fill_bytes" [Var "rng"; Var "d"];
            Let "data" (Prim Pclone [Var "d"]);
            Loop (Block [Let "p" (Method "push" [Var "cdc"; Prim Pclone [Var "data"]]);
                Con "p: {:?}, cdc: {:?}" [Var "p"; Var "cdc"];
                If (Or (Match (Var "p") [(PCon "None" [], BoolLit true); (PWild, BoolLit false)]) (Bin Eq (Prim Punwrap [Var "p"]) (Prim Plen [Var "data"]))) (Block [Break]) (Block [OpAssign Add (Var "ct") (Lit U32 1);
                    If (Bin Gt (Var "ct") (Lit U32 5)) (Block [Return (Con "()" [])]) (Con "()" []);
                    Assign (Var "data") (SliceFrom (Var "data") (Prim Punwrap [Var "p"]));
                    Con "()" []])])])] |});

  (* tests/fastcdc.rs:117-165 [fast_cdc_8kb] *)
  ("fast_cdc_8kb", {|
    fn_params := [("src", false)];
    fn_body :=
      Block [Let "MASK_S" (Lit U64 942311585546240);
        Let "MASK_L" (Lit U64 238594078998528);
        Let "MIN_SIZE" (Bin Mul (Lit U64 2) (Lit U64 1024));
        Let "MAX_SIZE" (Bin Mul (Lit U64 64) (Lit U64 1024));
        Let "NORMAL_SIZE" (Bin Mul (Lit U64 8) (Lit U64 1024));
        Let "fp" (Wrapping (Lit U64 0));
        Let "n" (Prim Plen [Var "src"]);
        Let "normal_size" (Cast Usize (Var "NORMAL_SIZE"));
        If (Bin Le (Var "n") (Cast Usize (Var "MIN_SIZE"))) (Block [Return (Lit Usize 0)]) (Con "()" []);
        If (Bin Ge (Var "n") (Cast Usize (Var "MAX_SIZE"))) (Block [Assign (Var "n") (Cast Usize (Var "MAX_SIZE"));
            Con "()" []]) (If (Bin Le (Var "n") (Var "normal_size")) (Block [Assign (Var "normal_size") (Var "n");
              Con "()" []]) (Con "()" []));
        ForRange "i" (Cast Usize (Var "MIN_SIZE")) (Var "normal_size") (Block [Assign (Var "fp") (Bin Add (Bin Shl (Var "fp") (Lit Usize 1)) (Wrapping (Index (Call "GEAR_64" []) (Cast Usize (Index (Var "src") (Var "i"))))));
            If (Bin Eq (Bin BitAnd (Field (Var "fp") "0") (Var "MASK_S")) (Lit U64 0)) (Block [Return (Var "i")]) (Con "()" [])]);
        ForRange "i" (Var "normal_size") (Var "n") (Block [Assign (Var "fp") (Bin Add (Bin Shl (Var "fp") (Lit Usize 1)) (Wrapping (Index (Call "GEAR_64" []) (Cast Usize (Index (Var "src") (Var "i"))))));
            If (Bin Eq (Bin BitAnd (Field (Var "fp") "0") (Var "MASK_L")) (Lit U64 0)) (Block [Return (Var "i")]) (Con "()" [])]);
        If (Bin Eq (Var "n") (Cast Usize (Var "MAX_SIZE"))) (Block [Var "n"]) (Block [Lit Usize 0])] |});

  (* src/lib.rs:302-333 [doc_example] *)
  ("doc_example", {|
    fn_params := [("chunk", false); ("orig_data", false); ("stdout", true)];
    fn_body :=
      Block [Let "data" (Prim Pclone [Var "orig_data"]);
        Let "ss" (Method "to_search_state" [Var "chunk"]);
        Let "prev_cut" (Lit Usize 0);
        Loop (Block [LetPair "chunk" "discard_ct" (Method "find_chunk_edge" [Var "chunk"; Var "ss"; Var "data"]);
            Match (Var "chunk") [(PCon "Some" ["cut_point"], Block [Let "g_cut" (Bin Sub (Bin Add (Var "cut_point") (Prim Plen [Var "orig_data"])) (Prim Plen [Var "data"]));
                  MutPrim Mpush_back (Var "stdout") [Con "chunk: {:?}" [Slice (Var "orig_data") (Var "prev_cut") (Var "g_cut")]];
                  Assign (Var "prev_cut") (Var "g_cut");
                  Con "()" []]);
              (PCon "None" [], Block [MutPrim Mpush_back (Var "stdout") [Con "no chunk, done with data we have" []];
                  MutPrim Mpush_back (Var "stdout") [Con "remain: {:?}" [SliceFrom (Var "data") (Var "discard_ct")]];
                  Break])];
            Assign (Var "data") (SliceFrom (Var "data") (Var "discard_ct"));
            Con "()" []])] |})].
