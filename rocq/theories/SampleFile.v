(** The metadata chunk (last 1721 bytes before the footer) of
    /repo/parquet/data/alltypes_tiny_pages.parquet, the file used by the unit test
    parquet/src/lib.rs:152-161.  Test data for ModelTests.v only. *)
From Verif Require Import Base.
Definition alltypes_metadata : list Z := [
  21; 2; 25; 236; 72; 11; 104; 105; 118; 101; 95; 115; 99; 104; 101; 109; 97; 21; 26; 0; 21; 2; 37; 2; 24; 2;
  105; 100; 0; 21; 0; 37; 2; 24; 8; 98; 111; 111; 108; 95; 99; 111; 108; 0; 21; 2; 37; 2; 24; 11; 116; 105; 110;
  121; 105; 110; 116; 95; 99; 111; 108; 37; 30; 76; 172; 19; 8; 17; 0; 0; 0; 21; 2; 37; 2; 24; 12; 115; 109; 97;
  108; 108; 105; 110; 116; 95; 99; 111; 108; 37; 32; 76; 172; 19; 16; 17; 0; 0; 0; 21; 2; 37; 2; 24; 7; 105;
  110; 116; 95; 99; 111; 108; 0; 21; 4; 37; 2; 24; 10; 98; 105; 103; 105; 110; 116; 95; 99; 111; 108; 0; 21; 8;
  37; 2; 24; 9; 102; 108; 111; 97; 116; 95; 99; 111; 108; 0; 21; 10; 37; 2; 24; 10; 100; 111; 117; 98; 108; 101;
  95; 99; 111; 108; 0; 21; 12; 37; 2; 24; 15; 100; 97; 116; 101; 95; 115; 116; 114; 105; 110; 103; 95; 99; 111;
  108; 37; 0; 76; 28; 0; 0; 0; 21; 12; 37; 2; 24; 10; 115; 116; 114; 105; 110; 103; 95; 99; 111; 108; 37; 0; 76;
  28; 0; 0; 0; 21; 6; 37; 2; 24; 13; 116; 105; 109; 101; 115; 116; 97; 109; 112; 95; 99; 111; 108; 0; 21; 2; 37;
  2; 24; 4; 121; 101; 97; 114; 0; 21; 2; 37; 2; 24; 5; 109; 111; 110; 116; 104; 0; 22; 136; 114; 25; 28; 25;
  220; 38; 8; 28; 21; 2; 25; 53; 0; 6; 8; 25; 24; 2; 105; 100; 21; 0; 22; 136; 114; 22; 154; 199; 4; 22; 154;
  199; 4; 38; 8; 60; 24; 4; 131; 28; 0; 0; 24; 4; 0; 0; 0; 0; 22; 0; 40; 4; 131; 28; 0; 0; 24; 4; 0; 0; 0; 0; 0;
  25; 28; 21; 0; 21; 0; 21; 138; 5; 0; 0; 22; 142; 145; 48; 21; 222; 54; 22; 254; 191; 39; 21; 158; 61; 0; 38;
  162; 199; 4; 28; 21; 0; 25; 53; 0; 6; 8; 25; 24; 8; 98; 111; 111; 108; 95; 99; 111; 108; 21; 0; 22; 136; 114;
  22; 156; 47; 22; 156; 47; 38; 162; 199; 4; 60; 24; 1; 1; 24; 1; 0; 22; 0; 40; 1; 1; 24; 1; 0; 0; 25; 28; 21;
  0; 21; 0; 21; 164; 1; 0; 0; 22; 236; 199; 48; 21; 238; 12; 22; 156; 253; 39; 21; 246; 7; 0; 38; 190; 246; 4;
  28; 21; 2; 25; 53; 6; 4; 8; 25; 24; 11; 116; 105; 110; 121; 105; 110; 116; 95; 99; 111; 108; 21; 0; 22; 136;
  114; 22; 212; 193; 1; 22; 212; 193; 1; 38; 190; 246; 4; 60; 24; 4; 9; 0; 0; 0; 24; 4; 0; 0; 0; 0; 22; 0; 40;
  4; 9; 0; 0; 0; 24; 4; 0; 0; 0; 0; 0; 25; 44; 21; 4; 21; 4; 21; 2; 0; 21; 0; 21; 4; 21; 138; 5; 0; 0; 22; 218;
  212; 48; 21; 230; 50; 22; 146; 133; 40; 21; 158; 61; 0; 38; 146; 184; 6; 28; 21; 2; 25; 53; 6; 4; 8; 25; 24;
  12; 115; 109; 97; 108; 108; 105; 110; 116; 95; 99; 111; 108; 21; 0; 22; 136; 114; 22; 212; 193; 1; 22; 212;
  193; 1; 38; 146; 184; 6; 60; 24; 4; 9; 0; 0; 0; 24; 4; 0; 0; 0; 0; 22; 0; 40; 4; 9; 0; 0; 0; 24; 4; 0; 0; 0;
  0; 0; 25; 44; 21; 4; 21; 4; 21; 2; 0; 21; 0; 21; 4; 21; 138; 5; 0; 0; 22; 192; 135; 49; 21; 230; 50; 22; 176;
  194; 40; 21; 158; 61; 0; 38; 230; 249; 7; 28; 21; 2; 25; 53; 6; 4; 8; 25; 24; 7; 105; 110; 116; 95; 99; 111;
  108; 21; 0; 22; 136; 114; 22; 212; 193; 1; 22; 212; 193; 1; 38; 230; 249; 7; 60; 24; 4; 9; 0; 0; 0; 24; 4; 0;
  0; 0; 0; 22; 0; 40; 4; 9; 0; 0; 0; 24; 4; 0; 0; 0; 0; 0; 25; 44; 21; 4; 21; 4; 21; 2; 0; 21; 0; 21; 4; 21;
  138; 5; 0; 0; 22; 166; 186; 49; 21; 230; 50; 22; 206; 255; 40; 21; 158; 61; 0; 38; 186; 187; 9; 28; 21; 4; 25;
  53; 6; 4; 8; 25; 24; 10; 98; 105; 103; 105; 110; 116; 95; 99; 111; 108; 21; 0; 22; 136; 114; 22; 214; 145; 2;
  22; 214; 145; 2; 38; 186; 187; 9; 60; 24; 8; 90; 0; 0; 0; 0; 0; 0; 0; 24; 8; 0; 0; 0; 0; 0; 0; 0; 0; 22; 0;
  40; 8; 90; 0; 0; 0; 0; 0; 0; 0; 24; 8; 0; 0; 0; 0; 0; 0; 0; 0; 0; 25; 44; 21; 4; 21; 4; 21; 2; 0; 21; 0; 21;
  4; 21; 160; 8; 0; 0; 22; 140; 237; 49; 21; 192; 82; 22; 236; 188; 41; 21; 166; 165; 1; 0; 38; 144; 205; 11;
  28; 21; 8; 25; 53; 6; 4; 8; 25; 24; 9; 102; 108; 111; 97; 116; 95; 99; 111; 108; 21; 0; 22; 136; 114; 22; 212;
  193; 1; 22; 212; 193; 1; 38; 144; 205; 11; 60; 24; 4; 102; 102; 30; 65; 24; 4; 0; 0; 0; 0; 22; 0; 40; 4; 102;
  102; 30; 65; 24; 4; 0; 0; 0; 0; 0; 25; 44; 21; 4; 21; 4; 21; 2; 0; 21; 0; 21; 4; 21; 138; 5; 0; 0; 22; 204;
  191; 50; 21; 230; 50; 22; 146; 226; 42; 21; 158; 61; 0; 38; 228; 142; 13; 28; 21; 10; 25; 53; 6; 4; 8; 25; 24;
  10; 100; 111; 117; 98; 108; 101; 95; 99; 111; 108; 21; 0; 22; 136; 114; 22; 214; 145; 2; 22; 214; 145; 2; 38;
  228; 142; 13; 60; 24; 8; 153; 153; 153; 153; 153; 185; 86; 64; 24; 8; 0; 0; 0; 0; 0; 0; 0; 0; 22; 0; 40; 8;
  153; 153; 153; 153; 153; 185; 86; 64; 24; 8; 0; 0; 0; 0; 0; 0; 0; 0; 0; 25; 44; 21; 4; 21; 4; 21; 2; 0; 21; 0;
  21; 4; 21; 160; 8; 0; 0; 22; 178; 242; 50; 21; 192; 82; 22; 176; 159; 43; 21; 166; 165; 1; 0; 38; 186; 160;
  15; 28; 21; 12; 25; 53; 6; 4; 8; 25; 24; 15; 100; 97; 116; 101; 95; 115; 116; 114; 105; 110; 103; 95; 99; 111;
  108; 21; 0; 22; 136; 114; 22; 140; 146; 5; 22; 140; 146; 5; 38; 186; 160; 15; 60; 54; 0; 40; 8; 49; 50; 47;
  51; 49; 47; 49; 48; 24; 8; 48; 49; 47; 48; 49; 47; 48; 57; 0; 25; 44; 21; 4; 21; 4; 21; 2; 0; 21; 0; 21; 4;
  21; 156; 15; 0; 0; 22; 242; 196; 51; 21; 142; 152; 1; 22; 214; 196; 44; 21; 214; 176; 2; 0; 38; 198; 178; 20;
  28; 21; 12; 25; 53; 6; 4; 8; 25; 24; 10; 115; 116; 114; 105; 110; 103; 95; 99; 111; 108; 21; 0; 22; 136; 114;
  22; 182; 204; 1; 22; 182; 204; 1; 38; 198; 178; 20; 60; 54; 0; 40; 1; 57; 24; 1; 48; 0; 25; 44; 21; 4; 21; 4;
  21; 2; 0; 21; 0; 21; 4; 21; 192; 5; 0; 0; 22; 128; 221; 52; 21; 130; 55; 22; 172; 245; 46; 21; 166; 33; 0; 38;
  252; 254; 21; 28; 21; 6; 25; 53; 6; 4; 8; 25; 24; 13; 116; 105; 109; 101; 115; 116; 97; 109; 112; 95; 99; 111;
  108; 21; 0; 22; 136; 114; 22; 136; 185; 15; 22; 136; 185; 15; 38; 252; 254; 21; 60; 54; 0; 0; 25; 44; 21; 4;
  21; 4; 21; 2; 0; 21; 0; 21; 4; 21; 190; 16; 0; 0; 22; 130; 148; 53; 21; 226; 164; 1; 0; 38; 132; 184; 37; 28;
  21; 2; 25; 53; 6; 4; 8; 25; 24; 4; 121; 101; 97; 114; 21; 0; 22; 136; 114; 22; 238; 129; 1; 22; 238; 129; 1;
  38; 132; 184; 37; 60; 24; 4; 218; 7; 0; 0; 24; 4; 217; 7; 0; 0; 22; 0; 40; 4; 218; 7; 0; 0; 24; 4; 217; 7; 0;
  0; 0; 25; 44; 21; 4; 21; 4; 21; 2; 0; 21; 0; 21; 4; 21; 138; 5; 0; 0; 22; 228; 184; 54; 21; 230; 50; 22; 210;
  150; 47; 21; 158; 61; 0; 38; 242; 185; 38; 28; 21; 2; 25; 53; 6; 4; 8; 25; 24; 5; 109; 111; 110; 116; 104; 21;
  0; 22; 136; 114; 22; 140; 134; 1; 22; 140; 134; 1; 38; 242; 185; 38; 60; 24; 4; 12; 0; 0; 0; 24; 4; 1; 0; 0;
  0; 22; 0; 40; 4; 12; 0; 0; 0; 24; 4; 1; 0; 0; 0; 0; 25; 44; 21; 4; 21; 4; 21; 2; 0; 21; 0; 21; 4; 21; 138; 5;
  0; 0; 22; 202; 235; 54; 21; 230; 50; 22; 240; 211; 47; 21; 158; 61; 0; 22; 246; 191; 39; 22; 136; 114; 0; 25;
  28; 24; 17; 119; 114; 105; 116; 101; 114; 46; 109; 111; 100; 101; 108; 46; 110; 97; 109; 101; 24; 21; 50; 46;
  49; 46; 49; 45; 99; 100; 104; 54; 46; 120; 45; 83; 78; 65; 80; 83; 72; 79; 84; 0; 24; 83; 112; 97; 114; 113;
  117; 101; 116; 45; 109; 114; 32; 118; 101; 114; 115; 105; 111; 110; 32; 49; 46; 49; 50; 46; 48; 45; 83; 78;
  65; 80; 83; 72; 79; 84; 32; 40; 98; 117; 105; 108; 100; 32; 54; 57; 48; 49; 97; 50; 48; 52; 48; 56; 52; 56;
  99; 54; 98; 51; 55; 102; 97; 54; 49; 102; 52; 98; 48; 97; 55; 54; 50; 52; 54; 52; 52; 53; 102; 51; 57; 54;
  100; 98; 41; 25; 220; 28; 0; 0; 28; 0; 0; 28; 0; 0; 28; 0; 0; 28; 0; 0; 28; 0; 0; 28; 0; 0; 28; 0; 0; 28; 0;
  0; 28; 0; 0; 28; 0; 0; 28; 0; 0; 28; 0; 0; 0].
