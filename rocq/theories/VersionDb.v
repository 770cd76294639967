(** /repo/src/version_db.rs: the version information database, transcribed entry by entry. *)
From Verif Require Import Base.

(** /repo/src/version_db.rs:5-12 [struct RSParameters] *)
Record RSParameters := mkRS {
  rs_bs : nat;  (* small block size *)
  rs_dw : nat;  (* small data words *)
  rs_ns : nat   (* number of small blocks *)
}.

Arguments mkRS (rs_bs rs_dw rs_ns)%nat_scope.

(** /repo/src/version_db.rs:15-20 [struct VersionInfo] *)
Record VersionInfo := mkVI {
  vi_data_bytes : Z;
  vi_apat : list Z;
  vi_ecc : list RSParameters
}.

(** /repo/src/version_db.rs:22-1072 [VERSION_DATA_BASE]; each line cites its entry. *)
Definition VERSION_DATA_BASE : list VersionInfo := [
  (* version 0, lines 23-31 *)
  mkVI 0 [0; 0; 0; 0; 0; 0; 0]
    [mkRS 0 0 0; mkRS 0 0 0; mkRS 0 0 0; mkRS 0 0 0];
  (* version 1, lines 32-57 *)
  mkVI 26 [0; 0; 0; 0; 0; 0; 0]
    [mkRS 26 16 1; mkRS 26 19 1; mkRS 26 9 1; mkRS 26 13 1];
  (* version 2, lines 58-83 *)
  mkVI 44 [6; 18; 0; 0; 0; 0; 0]
    [mkRS 44 28 1; mkRS 44 34 1; mkRS 44 16 1; mkRS 44 22 1];
  (* version 3, lines 84-109 *)
  mkVI 70 [6; 22; 0; 0; 0; 0; 0]
    [mkRS 70 44 1; mkRS 70 55 1; mkRS 35 13 2; mkRS 35 17 2];
  (* version 4, lines 110-135 *)
  mkVI 100 [6; 26; 0; 0; 0; 0; 0]
    [mkRS 50 32 2; mkRS 100 80 1; mkRS 25 9 4; mkRS 50 24 2];
  (* version 5, lines 136-161 *)
  mkVI 134 [6; 30; 0; 0; 0; 0; 0]
    [mkRS 67 43 2; mkRS 134 108 1; mkRS 33 11 2; mkRS 33 15 2];
  (* version 6, lines 162-187 *)
  mkVI 172 [6; 34; 0; 0; 0; 0; 0]
    [mkRS 43 27 4; mkRS 86 68 2; mkRS 43 15 4; mkRS 43 19 4];
  (* version 7, lines 188-213 *)
  mkVI 196 [6; 22; 38; 0; 0; 0; 0]
    [mkRS 49 31 4; mkRS 98 78 2; mkRS 39 13 4; mkRS 32 14 2];
  (* version 8, lines 214-239 *)
  mkVI 242 [6; 24; 42; 0; 0; 0; 0]
    [mkRS 60 38 2; mkRS 121 97 2; mkRS 40 14 4; mkRS 40 18 4];
  (* version 9, lines 240-265 *)
  mkVI 292 [6; 26; 46; 0; 0; 0; 0]
    [mkRS 58 36 3; mkRS 146 116 2; mkRS 36 12 4; mkRS 36 16 4];
  (* version 10, lines 266-291 *)
  mkVI 346 [6; 28; 50; 0; 0; 0; 0]
    [mkRS 69 43 4; mkRS 86 68 2; mkRS 43 15 6; mkRS 43 19 6];
  (* version 11, lines 292-317 *)
  mkVI 404 [6; 30; 54; 0; 0; 0; 0]
    [mkRS 80 50 1; mkRS 101 81 4; mkRS 36 12 3; mkRS 50 22 4];
  (* version 12, lines 318-343 *)
  mkVI 466 [6; 32; 58; 0; 0; 0; 0]
    [mkRS 58 36 6; mkRS 116 92 2; mkRS 42 14 7; mkRS 46 20 4];
  (* version 13, lines 344-369 *)
  mkVI 532 [6; 34; 62; 0; 0; 0; 0]
    [mkRS 59 37 8; mkRS 133 107 4; mkRS 33 11 12; mkRS 44 20 8];
  (* version 14, lines 370-395 *)
  mkVI 581 [6; 26; 46; 66; 0; 0; 0]
    [mkRS 64 40 4; mkRS 145 115 3; mkRS 36 12 11; mkRS 36 16 11];
  (* version 15, lines 396-421 *)
  mkVI 655 [6; 26; 48; 70; 0; 0; 0]
    [mkRS 65 41 5; mkRS 109 87 5; mkRS 36 12 11; mkRS 54 24 5];
  (* version 16, lines 422-447 *)
  mkVI 733 [6; 26; 50; 74; 0; 0; 0]
    [mkRS 73 45 7; mkRS 122 98 5; mkRS 45 15 3; mkRS 43 19 15];
  (* version 17, lines 448-473 *)
  mkVI 815 [6; 30; 54; 78; 0; 0; 0]
    [mkRS 74 46 10; mkRS 135 107 1; mkRS 42 14 2; mkRS 50 22 1];
  (* version 18, lines 474-499 *)
  mkVI 901 [6; 30; 56; 82; 0; 0; 0]
    [mkRS 69 43 9; mkRS 150 120 5; mkRS 42 14 2; mkRS 50 22 17];
  (* version 19, lines 500-525 *)
  mkVI 991 [6; 30; 58; 86; 0; 0; 0]
    [mkRS 70 44 3; mkRS 141 113 3; mkRS 39 13 9; mkRS 47 21 17];
  (* version 20, lines 526-551 *)
  mkVI 1085 [6; 34; 62; 90; 0; 0; 0]
    [mkRS 67 41 3; mkRS 135 107 3; mkRS 43 15 15; mkRS 54 24 15];
  (* version 21, lines 552-577 *)
  mkVI 1156 [6; 28; 50; 72; 92; 0; 0]
    [mkRS 68 42 17; mkRS 144 116 4; mkRS 46 16 19; mkRS 50 22 17];
  (* version 22, lines 578-603 *)
  mkVI 1258 [6; 26; 50; 74; 98; 0; 0]
    [mkRS 74 46 17; mkRS 139 111 2; mkRS 37 13 34; mkRS 54 24 7];
  (* version 23, lines 604-629 *)
  mkVI 1364 [6; 30; 54; 78; 102; 0; 0]
    [mkRS 75 47 4; mkRS 151 121 4; mkRS 45 15 16; mkRS 54 24 11];
  (* version 24, lines 630-655 *)
  mkVI 1474 [6; 28; 54; 80; 106; 0; 0]
    [mkRS 73 45 6; mkRS 147 117 6; mkRS 46 16 30; mkRS 54 24 11];
  (* version 25, lines 656-681 *)
  mkVI 1588 [6; 32; 58; 84; 110; 0; 0]
    [mkRS 75 47 8; mkRS 132 106 8; mkRS 45 15 22; mkRS 54 24 7];
  (* version 26, lines 682-707 *)
  mkVI 1706 [6; 30; 58; 86; 114; 0; 0]
    [mkRS 74 46 19; mkRS 142 114 10; mkRS 46 16 33; mkRS 50 22 28];
  (* version 27, lines 708-733 *)
  mkVI 1828 [6; 34; 62; 90; 118; 0; 0]
    [mkRS 73 45 22; mkRS 152 122 8; mkRS 45 15 12; mkRS 53 23 8];
  (* version 28, lines 734-759 *)
  mkVI 1921 [6; 26; 50; 74; 98; 122; 0]
    [mkRS 73 45 3; mkRS 147 117 3; mkRS 45 15 11; mkRS 54 24 4];
  (* version 29, lines 760-785 *)
  mkVI 2051 [6; 30; 54; 78; 102; 126; 0]
    [mkRS 73 45 21; mkRS 146 116 7; mkRS 45 15 19; mkRS 53 23 1];
  (* version 30, lines 786-811 *)
  mkVI 2185 [6; 26; 52; 78; 104; 130; 0]
    [mkRS 75 47 19; mkRS 145 115 5; mkRS 45 15 23; mkRS 54 24 15];
  (* version 31, lines 812-837 *)
  mkVI 2323 [6; 30; 56; 82; 108; 134; 0]
    [mkRS 74 46 2; mkRS 145 115 13; mkRS 45 15 23; mkRS 54 24 42];
  (* version 32, lines 838-863 *)
  mkVI 2465 [6; 34; 60; 86; 112; 138; 0]
    [mkRS 74 46 10; mkRS 145 115 17; mkRS 45 15 19; mkRS 54 24 10];
  (* version 33, lines 864-889 *)
  mkVI 2611 [6; 30; 58; 86; 114; 142; 0]
    [mkRS 74 46 14; mkRS 145 115 17; mkRS 45 15 11; mkRS 54 24 29];
  (* version 34, lines 890-915 *)
  mkVI 2761 [6; 34; 62; 90; 118; 146; 0]
    [mkRS 74 46 14; mkRS 145 115 13; mkRS 46 16 59; mkRS 54 24 44];
  (* version 35, lines 916-941 *)
  mkVI 2876 [6; 30; 54; 78; 102; 126; 150]
    [mkRS 75 47 12; mkRS 151 121 12; mkRS 45 15 22; mkRS 54 24 39];
  (* version 36, lines 942-967 *)
  mkVI 3034 [6; 24; 50; 76; 102; 128; 154]
    [mkRS 75 47 6; mkRS 151 121 6; mkRS 45 15 2; mkRS 54 24 46];
  (* version 37, lines 968-993 *)
  mkVI 3196 [6; 28; 54; 80; 106; 132; 158]
    [mkRS 74 46 29; mkRS 152 122 17; mkRS 45 15 24; mkRS 54 24 49];
  (* version 38, lines 994-1019 *)
  mkVI 3362 [6; 32; 58; 84; 110; 136; 162]
    [mkRS 74 46 13; mkRS 152 122 4; mkRS 45 15 42; mkRS 54 24 48];
  (* version 39, lines 1020-1045 *)
  mkVI 3532 [6; 26; 54; 82; 110; 138; 166]
    [mkRS 75 47 40; mkRS 147 117 20; mkRS 45 15 10; mkRS 54 24 43];
  (* version 40, lines 1046-1071 *)
  mkVI 3706 [6; 30; 58; 86; 114; 142; 170]
    [mkRS 75 47 18; mkRS 148 118 19; mkRS 45 15 20; mkRS 54 24 34]
].
