(** The tables of the compiled scanner: /repo/src/lex.yy.c:383-656.  Definitions only; generated from that file. *)
From Coq Require Import List NArith.
Import ListNotations.
Local Open Scope N_scope.

(** lex.yy.c:383-414 *)
Definition yy_accept : list N := [
   0; 0; 0; 0; 0; 0; 0; 0; 0; 0; 0; 0; 0; 0; 0; 50; 48; 35; 35; 42; 48; 48; 41; 47; 46; 41; 41; 41; 41; 44;
   45; 48; 35; 35; 48; 22; 48; 41; 48; 5; 4; 5; 5; 5; 5; 8; 10; 9; 8; 15; 14; 15; 21; 20; 21; 29; 28; 29; 29; 33;
   32; 33; 0; 16; 11; 0; 41; 41; 41; 41; 41; 41; 0; 0; 22; 0; 0; 41; 0; 0; 0; 0; 8; 0; 7; 0; 13; 18; 0; 23;
   25; 0; 0; 27; 30; 0; 43; 0; 0; 41; 41; 41; 41; 41; 34; 0; 0; 0; 41; 34; 0; 0; 0; 0; 0; 0; 0; 0; 0; 0;
   0; 0; 17; 12; 39; 41; 41; 41; 41; 0; 0; 41; 0; 0; 0; 0; 0; 0; 0; 0; 0; 19; 24; 26; 31; 41; 41; 41; 38; 0;
   0; 41; 0; 0; 0; 0; 0; 0; 36; 37; 41; 0; 0; 41; 0; 0; 0; 0; 0; 40; 0; 0; 41; 0; 0; 0; 0; 0; 0; 0;
   6; 41; 0; 0; 0; 0; 0; 0; 0; 41; 0; 0; 0; 0; 0; 41; 0; 0; 0; 0; 0; 0; 41; 0; 0; 0; 0; 41; 0; 0;
   0; 2; 0; 41; 0; 0; 2; 0; 41; 0; 0; 0; 41; 0; 0; 0; 0; 41; 0; 0; 0; 41; 0; 0; 0; 41; 0; 0; 3; 0;
   41; 0; 3; 0; 0; 0; 0; 0; 0; 0; 0; 0; 0; 0; 0; 1; 0; 1; 0; 0; 0; 0].
(** lex.yy.c:416-446 *)
Definition yy_ec : list N := [
   0; 1; 1; 1; 1; 1; 1; 1; 1; 2; 3; 2; 2; 2; 1; 1; 1; 1; 1; 1; 1; 1; 1; 1; 1; 1; 1; 4; 1; 1;
   1; 1; 5; 1; 1; 6; 1; 7; 1; 1; 8; 8; 9; 1; 8; 10; 11; 12; 13; 14; 14; 14; 14; 14; 14; 14; 14; 14; 1; 15;
   1; 16; 1; 1; 1; 17; 17; 17; 18; 17; 19; 17; 17; 17; 17; 17; 17; 17; 17; 17; 20; 17; 17; 17; 21; 22; 23; 17; 17; 17;
   17; 24; 25; 8; 1; 17; 26; 27; 17; 28; 29; 30; 31; 17; 17; 32; 17; 17; 33; 34; 35; 36; 37; 17; 38; 39; 40; 41; 17; 17;
   42; 43; 17; 44; 45; 46; 1; 1; 1; 1; 1; 1; 1; 1; 1; 1; 1; 1; 1; 1; 1; 1; 1; 1; 1; 1; 1; 1; 1; 1;
   1; 1; 1; 1; 1; 1; 1; 1; 1; 1; 1; 1; 1; 1; 1; 1; 1; 1; 1; 1; 1; 1; 1; 1; 1; 1; 1; 1; 1; 1;
   1; 1; 1; 1; 1; 1; 1; 47; 1; 1; 1; 48; 1; 1; 1; 1; 1; 1; 1; 1; 1; 1; 1; 1; 1; 1; 1; 1; 1; 1;
   1; 1; 1; 1; 1; 1; 1; 1; 1; 1; 1; 1; 1; 1; 1; 1; 1; 1; 1; 1; 1; 1; 1; 1; 1; 1; 1; 1; 1; 49;
   1; 1; 1; 1; 1; 1; 1; 1; 1; 1; 1; 1; 1; 1; 1; 1].
(** lex.yy.c:448-455 *)
Definition yy_meta : list N := [
   0; 1; 2; 3; 1; 2; 1; 1; 1; 1; 1; 1; 1; 4; 4; 1; 1; 4; 4; 4; 4; 4; 4; 4; 1; 1; 1; 4; 4; 4;
   4; 4; 4; 4; 4; 4; 4; 4; 4; 4; 4; 4; 4; 4; 1; 1; 1; 1; 1; 1].
(** lex.yy.c:457-489 *)
Definition yy_base : list N := [
   0; 0; 48; 479; 53; 57; 61; 58; 62; 64; 65; 68; 69; 67; 75; 481; 483; 483; 483; 483; 469; 76; 0; 483; 483; 54; 439; 435; 442; 483;
   483; 429; 97; 102; 451; 483; 438; 435; 425; 483; 483; 447; 465; 459; 85; 0; 483; 483; 107; 483; 483; 111; 483; 483; 94; 483; 483; 106; 118; 483;
   483; 99; 457; 483; 483; 123; 0; 426; 426; 427; 427; 431; 414; 127; 483; 121; 424; 433; 411; 124; 96; 123; 0; 142; 146; 151; 157; 483; 161; 483;
   483; 165; 169; 173; 483; 177; 483; 181; 185; 424; 427; 415; 425; 418; 483; 178; 432; 412; 416; 196; 191; 184; 440; 425; 407; 420; 206; 211; 216; 225;
   230; 236; 483; 483; 0; 408; 417; 415; 408; 404; 409; 401; 415; 402; 432; 426; 147; 71; 229; 400; 396; 483; 483; 483; 483; 398; 392; 401; 0; 403;
   393; 395; 403; 399; 232; 146; 397; 406; 0; 0; 392; 387; 386; 393; 236; 381; 394; 377; 386; 0; 376; 250; 374; 243; 157; 379; 246; 380; 383; 377;
   483; 377; 384; 384; 254; 162; 370; 372; 377; 367; 258; 375; 366; 191; 359; 360; 261; 371; 349; 362; 346; 326; 334; 337; 268; 312; 317; 317; 321; 271;
   260; 0; 315; 317; 320; 323; 0; 324; 304; 310; 276; 299; 315; 274; 283; 326; 298; 279; 263; 249; 214; 212; 286; 194; 213; 193; 293; 289; 0; 194;
   299; 198; 0; 192; 191; 194; 298; 140; 301; 101; 308; 135; 314; 311; 324; 0; 93; 0; 323; 326; 87; 483; 360; 364; 368; 372; 376; 380; 73; 384;
   388; 392; 396].
(** lex.yy.c:491-523 *)
Definition yy_def : list N := [
   0; 261; 1; 262; 262; 263; 263; 264; 264; 265; 265; 266; 266; 267; 267; 261; 261; 261; 261; 261; 261; 261; 268; 261; 261; 268; 268; 268; 268; 261;
   261; 261; 261; 261; 261; 261; 261; 268; 261; 261; 261; 261; 261; 261; 261; 269; 261; 261; 269; 261; 261; 261; 261; 261; 261; 261; 261; 261; 261; 261;
   261; 261; 261; 261; 261; 261; 268; 268; 268; 268; 268; 268; 261; 261; 261; 261; 261; 268; 261; 261; 261; 261; 269; 261; 261; 261; 261; 261; 261; 261;
   261; 261; 261; 261; 261; 261; 261; 261; 261; 268; 268; 268; 268; 268; 261; 261; 261; 261; 268; 261; 261; 261; 261; 261; 261; 261; 261; 261; 261; 261;
   261; 261; 261; 261; 268; 268; 268; 268; 268; 261; 261; 268; 261; 261; 261; 261; 261; 261; 261; 261; 261; 261; 261; 261; 261; 268; 268; 268; 268; 261;
   261; 268; 261; 261; 261; 261; 261; 261; 268; 268; 268; 261; 261; 268; 261; 261; 261; 261; 261; 268; 261; 261; 268; 261; 261; 261; 261; 261; 261; 261;
   261; 268; 261; 261; 261; 261; 261; 261; 261; 268; 261; 261; 261; 261; 261; 268; 261; 261; 261; 261; 261; 261; 268; 261; 261; 261; 261; 268; 261; 261;
   261; 270; 261; 268; 261; 261; 270; 261; 268; 261; 261; 261; 268; 261; 261; 261; 261; 268; 261; 261; 261; 268; 261; 261; 261; 268; 261; 261; 271; 261;
   268; 261; 271; 261; 261; 261; 261; 261; 261; 261; 261; 261; 261; 261; 261; 272; 261; 272; 261; 261; 261; 0; 261; 261; 261; 261; 261; 261; 261; 261;
   261; 261; 261].
(** lex.yy.c:525-586 *)
Definition yy_nxt : list N := [
   0; 16; 17; 18; 16; 17; 16; 16; 19; 19; 16; 20; 21; 22; 22; 23; 24; 22; 22; 22; 22; 22; 22; 22; 19; 16; 16; 22; 22; 22;
   25; 22; 22; 22; 22; 22; 22; 22; 22; 26; 27; 28; 22; 22; 29; 16; 30; 16; 16; 31; 32; 33; 34; 32; 35; 36; 40; 41; 42; 46;
   47; 50; 46; 46; 47; 50; 46; 53; 53; 37; 60; 56; 56; 54; 54; 152; 61; 66; 60; 43; 57; 57; 48; 51; 61; 63; 48; 51; 64; 67;
   80; 153; 245; 58; 58; 81; 68; 38; 44; 73; 73; 65; 73; 74; 73; 73; 87; 73; 74; 83; 84; 94; 83; 85; 86; 89; 85; 258; 90; 88;
   92; 93; 112; 92; 95; 97; 98; 113; 97; 73; 73; 91; 73; 74; 105; 105; 105; 110; 110; 110; 229; 112; 114; 255; 83; 84; 115; 83; 83; 84;
   166; 83; 80; 85; 86; 106; 85; 81; 111; 85; 86; 182; 85; 116; 117; 114; 116; 118; 119; 115; 118; 92; 93; 252; 92; 92; 93; 153; 92; 120;
   121; 114; 120; 97; 98; 115; 97; 97; 98; 134; 97; 105; 105; 105; 122; 199; 200; 123; 73; 73; 132; 73; 74; 133; 110; 110; 110; 249; 116; 117;
   135; 116; 106; 116; 117; 248; 116; 129; 118; 119; 247; 118; 246; 141; 243; 111; 240; 118; 119; 136; 118; 239; 120; 121; 142; 120; 238; 143; 120; 121;
   235; 120; 154; 154; 154; 154; 154; 154; 144; 173; 173; 173; 180; 180; 234; 180; 173; 173; 173; 184; 184; 184; 233; 155; 215; 200; 155; 184; 184; 184;
   174; 196; 196; 196; 196; 196; 196; 174; 228; 229; 185; 209; 209; 209; 209; 209; 209; 232; 185; 224; 224; 224; 197; 241; 229; 197; 224; 224; 224; 236;
   236; 236; 210; 244; 245; 210; 236; 236; 236; 231; 225; 250; 250; 250; 253; 253; 253; 225; 244; 245; 237; 250; 250; 250; 253; 253; 253; 237; 256; 245;
   230; 200; 251; 227; 226; 254; 259; 259; 259; 259; 259; 259; 251; 223; 222; 254; 221; 220; 219; 218; 217; 214; 213; 212; 211; 208; 207; 260; 206; 205;
   260; 39; 39; 39; 39; 45; 45; 45; 45; 49; 49; 49; 49; 52; 52; 52; 52; 55; 55; 55; 55; 59; 59; 59; 59; 82; 204; 203; 82; 216;
   216; 153; 216; 242; 242; 202; 242; 257; 257; 201; 257; 157; 198; 195; 194; 193; 192; 191; 190; 189; 188; 187; 186; 183; 181; 179; 178; 177; 176; 175;
   172; 171; 170; 169; 168; 167; 165; 164; 163; 162; 161; 160; 159; 158; 157; 156; 81; 80; 76; 75; 151; 150; 149; 148; 147; 146; 145; 140; 139; 138;
   137; 131; 130; 129; 128; 127; 126; 125; 124; 109; 108; 107; 104; 103; 102; 101; 100; 99; 96; 81; 80; 79; 78; 77; 76; 75; 72; 71; 70; 69;
   62; 261; 40; 15; 261; 261; 261; 261; 261; 261; 261; 261; 261; 261; 261; 261; 261; 261; 261; 261; 261; 261; 261; 261; 261; 261; 261; 261; 261; 261;
   261; 261; 261; 261; 261; 261; 261; 261; 261; 261; 261; 261; 261; 261; 261; 261; 261; 261; 261; 261; 261; 261; 261].
(** lex.yy.c:588-649 *)
Definition yy_chk : list N := [
   0; 1; 1; 1; 1; 1; 1; 1; 1; 1; 1; 1; 1; 1; 1; 1; 1; 1; 1; 1; 1; 1; 1; 1; 1; 1; 1; 1; 1; 1;
   1; 1; 1; 1; 1; 1; 1; 1; 1; 1; 1; 1; 1; 1; 1; 1; 1; 1; 1; 1; 2; 2; 2; 2; 2; 2; 4; 4; 4; 5;
   5; 7; 5; 6; 6; 8; 6; 9; 10; 2; 13; 11; 12; 9; 10; 137; 13; 268; 14; 4; 11; 12; 5; 7; 14; 21; 6; 8; 21; 25;
   44; 137; 260; 11; 12; 44; 25; 2; 4; 32; 32; 21; 32; 32; 33; 33; 54; 33; 33; 48; 48; 61; 48; 51; 51; 57; 51; 256; 57; 54;
   58; 58; 80; 58; 61; 65; 65; 81; 65; 73; 73; 57; 73; 73; 75; 75; 75; 79; 79; 79; 251; 80; 81; 249; 83; 83; 81; 83; 84; 84;
   155; 84; 136; 85; 85; 75; 85; 136; 79; 86; 86; 174; 86; 88; 88; 155; 88; 91; 91; 155; 91; 92; 92; 247; 92; 93; 93; 174; 93; 95;
   95; 185; 95; 97; 97; 185; 97; 98; 98; 111; 98; 105; 105; 105; 98; 193; 193; 98; 109; 109; 109; 109; 109; 109; 110; 110; 110; 245; 116; 116;
   111; 116; 105; 117; 117; 244; 117; 109; 118; 118; 243; 118; 241; 117; 239; 110; 235; 119; 119; 111; 119; 234; 120; 120; 119; 120; 233; 119; 121; 121;
   231; 121; 138; 138; 138; 154; 154; 154; 121; 164; 164; 164; 171; 171; 230; 171; 173; 173; 173; 176; 176; 176; 229; 138; 210; 210; 154; 184; 184; 184;
   164; 190; 190; 190; 196; 196; 196; 173; 223; 223; 176; 204; 204; 204; 209; 209; 209; 228; 184; 220; 220; 220; 190; 237; 237; 196; 224; 224; 224; 232;
   232; 232; 204; 240; 240; 209; 236; 236; 236; 227; 220; 246; 246; 246; 248; 248; 248; 224; 252; 252; 232; 250; 250; 250; 253; 253; 253; 236; 254; 254;
   226; 225; 246; 222; 221; 248; 258; 258; 258; 259; 259; 259; 250; 219; 218; 253; 217; 215; 214; 213; 212; 208; 207; 206; 205; 203; 202; 258; 201; 200;
   259; 262; 262; 262; 262; 263; 263; 263; 263; 264; 264; 264; 264; 265; 265; 265; 265; 266; 266; 266; 266; 267; 267; 267; 267; 269; 199; 198; 269; 270;
   270; 197; 270; 271; 271; 195; 271; 272; 272; 194; 272; 192; 191; 189; 188; 187; 186; 183; 182; 181; 179; 178; 177; 175; 172; 170; 168; 167; 166; 165;
   163; 162; 161; 160; 157; 156; 153; 152; 151; 150; 149; 147; 146; 145; 140; 139; 135; 134; 133; 132; 131; 130; 129; 128; 127; 126; 125; 115; 114; 113;
   112; 108; 107; 106; 103; 102; 101; 100; 99; 78; 77; 76; 72; 71; 70; 69; 68; 67; 62; 43; 42; 41; 38; 37; 36; 34; 31; 28; 27; 26;
   20; 15; 3; 261; 261; 261; 261; 261; 261; 261; 261; 261; 261; 261; 261; 261; 261; 261; 261; 261; 261; 261; 261; 261; 261; 261; 261; 261; 261; 261;
   261; 261; 261; 261; 261; 261; 261; 261; 261; 261; 261; 261; 261; 261; 261; 261; 261; 261; 261; 261; 261; 261; 261].
(** lex.yy.c:652-656 *)
Definition yy_rule_can_match_eol : list N := [
   0; 0; 0; 0; 1; 0; 1; 1; 0; 1; 0; 0; 1; 1; 1; 0; 0; 1; 0; 1; 1; 0; 1; 0; 1; 0; 1; 1; 1; 0;
   0; 1; 1; 0; 0; 1; 0; 0; 0; 0; 0; 0; 0; 0; 0; 0; 0; 0; 0; 0].
