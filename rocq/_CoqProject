-Q theories Verif
theories/Lib/F64.v
theories/Lib/F64Facts.v
theories/Lib/Go.v
theories/Lib/ListFacts.v
theories/Lib/Tac.v
theories/Lib/Utf8.v
theories/Model/Cells.v
theories/Model/Cmd.v
theories/Model/Console.v
theories/Model/Cooc.v
theories/Model/Corpus.v
theories/Model/Dictionary.v
theories/Model/Embedding.v
theories/Model/Encode.v
theories/Model/Flags.v
theories/Model/FmtFloat.v
theories/Model/GetPathRace.v
theories/Model/Glove.v
theories/Model/Huffman.v
theories/Model/LearningRate.v
theories/Model/Lexvec.v
theories/Model/Life.v
theories/Model/Main.v
theories/Model/Matrix.v
theories/Model/ModelUtil.v
theories/Model/Options.v
theories/Model/ParseFloat.v
theories/Model/Progress.v
theories/Model/Race.v
theories/Model/RaceHS.v
theories/Model/Reader.v
theories/Model/Run.v
theories/Model/Scanner.v
theories/Model/Sched.v
theories/Model/Search.v
theories/Model/Sigmoid.v
theories/Model/Subsample.v
theories/Model/Train.v
theories/Model/Vector.v
theories/Model/Window.v
theories/Model/Word2vec.v
theories/Proofs/AdaGrad.v
theories/Proofs/AdaStep.v
theories/Proofs/Cells.v
theories/Proofs/Console.v
theories/Proofs/Converge.v
theories/Proofs/Cooc.v
theories/Proofs/Corpus.v
theories/Proofs/Cosine.v
theories/Proofs/Counts.v
theories/Proofs/DepthSim.v
theories/Proofs/DepthTrain.v
theories/Proofs/Descent.v
theories/Proofs/Dictionary.v
theories/Proofs/Draws.v
theories/Proofs/Embedding.v
theories/Proofs/Encode.v
theories/Proofs/EndToEnd.v
theories/Proofs/Entropy.v
theories/Proofs/Flags.v
theories/Proofs/FmtFloat.v
theories/Proofs/Follow.v
theories/Proofs/GetPathRace.v
theories/Proofs/Glove.v
theories/Proofs/GloveRuns.v
theories/Proofs/Gradient.v
theories/Proofs/HuffDepth.v
theories/Proofs/HuffOpt.v
theories/Proofs/HuffPath.v
theories/Proofs/HuffProps.v
theories/Proofs/Huffman.v
theories/Proofs/Items.v
theories/Proofs/Kraft.v
theories/Proofs/Lasting.v
theories/Proofs/LearningRate.v
theories/Proofs/LexConverge.v
theories/Proofs/LexItems.v
theories/Proofs/Lexvec.v
theories/Proofs/Life.v
theories/Proofs/Likelihood.v
theories/Proofs/Linear.v
theories/Proofs/Logistic.v
theories/Proofs/Marked.v
theories/Proofs/Matrix.v
theories/Proofs/ModelUtil.v
theories/Proofs/OptionChanges.v
theories/Proofs/Options.v
theories/Proofs/ParseFloat.v
theories/Proofs/Progress.v
theories/Proofs/Race.v
theories/Proofs/RaceHSRows.v
theories/Proofs/RaceHSRuns.v
theories/Proofs/RaceHSSafe.v
theories/Proofs/RaceHSSeq.v
theories/Proofs/RaceRows.v
theories/Proofs/RaceRuns.v
theories/Proofs/RaceSeq.v
theories/Proofs/Reader.v
theories/Proofs/Rename.v
theories/Proofs/Residual.v
theories/Proofs/Run.v
theories/Proofs/RunFile.v
theories/Proofs/RunGlove.v
theories/Proofs/RunModels.v
theories/Proofs/RunOne.v
theories/Proofs/RunSeq.v
theories/Proofs/RunSetup.v
theories/Proofs/RunW2v.v
theories/Proofs/SavedCosine.v
theories/Proofs/SavedSearch.v
theories/Proofs/Scanner.v
theories/Proofs/Sched.v
theories/Proofs/SchedRun.v
theories/Proofs/Search.v
theories/Proofs/SearchMore.v
theories/Proofs/Sigmoid.v
theories/Proofs/Subsample.v
theories/Proofs/Symmetry.v
theories/Proofs/Tokens.v
theories/Proofs/Traces.v
theories/Proofs/Train.v
theories/Proofs/TrainOne.v
theories/Proofs/TrainProps.v
theories/Proofs/Twins.v
theories/Proofs/Unlinear.v
theories/Proofs/Untrained.v
theories/Proofs/Vector.v
theories/Proofs/W2vProps.v
theories/Proofs/Window.v
theories/Proofs/Word2vec.v
theories/Properties/P01_Dictionary.v
theories/Properties/P02_Encode.v
theories/Properties/P03_Reader.v
theories/Properties/P04_Cooc.v
theories/Properties/P05_Corpus.v
theories/Properties/P06_Huffman.v
theories/Properties/P07_ModelUtil.v
theories/Properties/P08_Subsample.v
theories/Properties/P09_Sigmoid.v
theories/Properties/P10_Word2vec.v
theories/Properties/P11_Sched.v
theories/Properties/P12_LearningRate.v
theories/Properties/P13_Glove.v
theories/Properties/P14_Lexvec.v
theories/Properties/P15_Options.v
theories/Properties/P16_Train.v
theories/Properties/P17_Numbers.v
theories/Properties/P18_Save.v
theories/Properties/P19_Load.v
theories/Properties/P20_Search.v
theories/Properties/P21_Console.v
theories/Properties/P22_Cmd.v
theories/Properties/P23_Runs.v
theories/Properties/P24_EndToEnd.v
theories/Properties/P25_Race.v
theories/Properties/P26_Untrained.v
theories/Properties/P27_Unused.v
theories/Properties/P28_CommandLine.v
theories/Properties/P29_Options.v
theories/Properties/P30_Main.v
theories/Properties/P31_FileBacked.v
theories/Properties/P32_Gradient.v
theories/Properties/P33_GloveRuns.v
theories/Properties/P34_SavedSearch.v
theories/Properties/P35_Residual.v
theories/Properties/P36_Schedules.v
theories/Properties/P37_SearchVector.v
theories/Properties/P38_Scanner.v
theories/Properties/P39_Life.v
theories/Properties/P40_Draws.v
theories/Properties/P41_Respell.v
theories/Properties/P42_NotANumber.v
theories/Properties/P43_HuffmanRaces.v
theories/Properties/P44_HuffmanDepth.v
theories/Properties/P45_Likelihood.v
theories/Properties/P46_Entropy.v
theories/Properties/P47_Symmetry.v
theories/Properties/P48_Progress.v
theories/Properties/P49_Counts.v
theories/Properties/P50_Descent.v
theories/Properties/P51_Converge.v
theories/Properties/P52_LexConverge.v
theories/Properties/P53_SelfUpdate.v
theories/Spec/Cells.v
theories/Spec/Cmd.v
theories/Spec/CommandLine.v
theories/Spec/CommandMeaning.v
theories/Spec/Console.v
theories/Spec/Converge.v
theories/Spec/Cosine.v
theories/Spec/Counts.v
theories/Spec/Decimal.v
theories/Spec/Descent.v
theories/Spec/Draws.v
theories/Spec/Entropy.v
theories/Spec/Fibonacci.v
theories/Spec/Filter.v
theories/Spec/Interleave.v
theories/Spec/Lasting.v
theories/Spec/Likelihood.v
theories/Spec/Lines.v
theories/Spec/Logistic.v
theories/Spec/OneGoroutine.v
theories/Spec/OptionChanges.v
theories/Spec/Pairs.v
theories/Spec/Progress.v
theories/Spec/Race.v
theories/Spec/RaceHS.v
theories/Spec/Reach.v
theories/Spec/Readable.v
theories/Spec/Rename.v
theories/Spec/Residual.v
theories/Spec/Rows.v
theories/Spec/Runs.v
theories/Spec/Saved.v
theories/Spec/SavedSearch.v
theories/Spec/Sched.v
theories/Spec/Search.v
theories/Spec/Sequential.v
theories/Spec/Slices.v
theories/Spec/Symmetry.v
theories/Spec/Tokens.v
theories/Spec/Touches.v
theories/Spec/Traces.v
theories/Spec/Training.v
theories/Spec/Tree.v
theories/Spec/Window.v
theories/Spec/Words.v
